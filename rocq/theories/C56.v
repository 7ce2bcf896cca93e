(** * C56 User-supplied cover arrays stay owned by the user. *)
From Coq Require Import ZArith Bool List Reals Lia.
From Flocq Require Import Core BinarySingleNaN.
From Verif Require Import Outcome F64 F64Facts F64Bounds Rng Pop PopSpec PopInv PopTrial PopFit PopOps PopSeq PopKeep PropMulti PropStore Clock Py PopTick PropPy PropEarly PropCover Arr Cond Pred Comp CompFacts Demo DemoEx PropPyRef.
Import ListNotations.
Open Scope Z_scope.

(** REFUTED: after score(X, y, cover=a) and score(X, y), the caller's array a (block 1, initially
    [1.0]) holds zeros, and the array the system allocated (block 0) is never freed. *)
Theorem C56_refuted :
  exists s : st (payload rect actint nlms),
    starts 1 s /\
    ends 1 prog_write s both = Ok (1%nat, [Some (System, [Some 0]); Some (Python, [Some 0])]).
Proof. exact @C56_refuted_lemma. Qed.
Print Assumptions C56_refuted.

(** REFUTED: after score(X, y, cover=a), fit without warm start passes the memory of a to free(). *)
Theorem C56_refuted_free :
  exists s : st (payload rect actint nlms), starts 1 s /\ ends 1 prog_free s both = UB DoubleFree.
Proof. exact @C56_refuted_free_lemma. Qed.
Print Assumptions C56_refuted_free.

(** REFUTED: a cover given as a list is converted to a temporary array, which is gone before it is
    read. *)
Theorem C56_refuted_converted :
  exists s : st (payload rect actint nlms), starts 1 s /\ ends 1 prog_list s both = UB OutOfBounds.
Proof. exact @C56_refuted_list_lemma. Qed.
Print Assumptions C56_refuted_converted.

(** REFUTED: with two actions, one value per output passes the check but one per action and output
    is read. *)
Theorem C56_refuted_short :
  exists s : st (payload rect actint nlms), starts 2 s /\ ends 2 prog_short s both = UB OutOfBounds.
Proof. exact @C56_refuted_short_lemma. Qed.
Print Assumptions C56_refuted_short.

(** REFUTED: every call of predict leaks its output array. *)
Theorem C56_refuted_leak :
  exists s : st (payload rect actint nlms),
    starts 1 s /\
    ends 1 prog_leak s three =
    Ok (0%nat, [Some (System, [Some 0]); Some (System, [Some 0]); Some (System, [Some 0])]).
Proof. exact @C56_refuted_leak_lemma. Qed.
Print Assumptions C56_refuted_leak.

(** What holds: in every program that never passes a cover array, all arrays of the program keep
    their contents until it drops them, no undefined behaviour occurs, and the system can be freed
    at any time. *)
Theorem C56_no_cover :
  forall (B : Type) (V : vtab B) (K : cfg) (FO : Prop) (kf : Z) (wf : B -> Prop)
    (mt : B -> list f64 -> Prop) (dom : list f64 -> Prop),
  cfg_ok K kf ->
  vt_ok (dom := dom) FO V K wf mt ->
  (ea_tournament K = true -> FO) ->
  forall (cs : list pycall) (N : Z) (m : mem) (s : st B),
  Forall (plain_call (dom := dom) K) cs ->
  0 <= N ->
  N + fold_right (fun (c : pycall) (z : Z) => call_cost c + z) 0 cs <= 2 ^ 53 ->
  Good K kf N wf s ->
  mem_ok K m ->
  hpost FO (run_calls V K cs m s)
    (fun (m' : mem) (_ : st B) =>
     mem_ok K m' /\
     (exists m2 : mem, cover_free m' = Ok m2) /\
     (forall (id : nat) (data : list f64),
      m_block m id = Some {| b_owner := Python; b_data := data |} ->
      ~ In (PDrop id) cs -> m_block m' id = Some {| b_owner := Python; b_data := data |})).
Proof. exact @C56_plain_lemma. Qed.
Print Assumptions C56_no_cover.

(** Each such call changes no memory but the cover array (predict also leaves its output array
    behind; fit without warm start replaces the cover array). *)
Theorem C56_call :
  forall (B : Type) (V : vtab B) (K : cfg) (FO : Prop) (kf : Z) (wf : B -> Prop)
    (mt : B -> list f64 -> Prop) (dom : list f64 -> Prop),
  cfg_ok K kf ->
  vt_ok (dom := dom) FO V K wf mt ->
  (ea_tournament K = true -> FO) ->
  forall (N : Z) (c : pycall) (m : mem) (s : st B),
  plain_call (dom := dom) K c ->
  0 <= N ->
  N + call_cost c <= 2 ^ 53 ->
  Good K kf N wf s ->
  mem_ok K m ->
  hpost FO (run_call V K c m s)
    (fun (m' : mem) (s' : st B) => Good K kf (N + call_cost c) wf s' /\ mem_ok K m' /\ mem_effect c m m').
Proof. exact @call_plain. Qed.
Print Assumptions C56_call.

(** With an array of the right size (one action): the call itself changes no array, but afterwards
    the cover of the system is the caller's array; the next call without cover overwrites it, and
    freeing the system is undefined. *)
Theorem C56_array :
  forall (B : Type) (V : vtab B) (K : cfg) (FO : Prop) (kf : Z) (wf : B -> Prop)
    (mt : B -> list f64 -> Prop) (dom : list f64 -> Prop),
  cfg_ok K kf ->
  vt_ok (dom := dom) FO V K wf mt ->
  (ea_tournament K = true -> FO) ->
  forall (N : Z) (d : input) (k : Z) (id : nat) (data : list f64) (m : mem) (s : st B),
  n_actions K = 1 ->
  0 <= N ->
  Good K kf N wf s ->
  data_ok (dom := dom) K d ->
  mem_ok K m ->
  m_block m id = Some {| b_owner := Python; b_data := data |} ->
  Z.of_nat (length data) = y_dim K ->
  hpost FO (run_call V K (PScore d k (ArrayCover id)) m s)
    (fun (m' : mem) (s' : st B) =>
     Good K kf N wf s' /\
     (forall j : nat, m_block m' j = m_block m j) /\
     m_cover m' = id /\
     m_cover m <> id /\
     (exists own : list f64, m_block m' (m_cover m) = Some {| b_owner := System; b_data := own |}) /\
     cover_free m' = UB DoubleFree /\
     (exists m2 : mem,
        cover_zero K m' = Ok m2 /\ m_block m2 id = Some {| b_owner := Python; b_data := zeros (y_dim K) |})).
Proof. exact @C56_array_lemma. Qed.
Print Assumptions C56_array.

(** A program that uses no cover arrays. *)
Example C56_example : exists s, Good (Kn 1) 0 0 (rect_wf (Kn 1)) s /\ mem_ok (Kn 1) (py_mem (Kn 1)) /\
  Forall (plain_call (dom := any_x) (Kn 1)) [PNew [f1]; PScore demo_data 2 NoCover; PFit 1 1 demo_data (Some demo_data) false false; PPredict [[f0; f1]] NoCover] /\
  ends 1 [PNew [f1]; PScore demo_data 2 NoCover; PFit 1 1 demo_data (Some demo_data) false false; PPredict [[f0; f1]] NoCover] s
    (fun m => (m_cover m, map (fun i => contents (m_block m i)) [0; 1; 2]%nat)) =
    Ok (2%nat, [None; Some (Python, [Some 1]); Some (System, [Some 0])]).
Proof.
  edestruct (fresh_found 1 [PNew [f1]; PScore demo_data 2 NoCover; PFit 1 1 demo_data (Some demo_data) false false; PPredict [[f0; f1]] NoCover]
    (fun m => (m_cover m, map (fun i => contents (m_block m i)) [0; 1; 2]%nat))) as (s & G & E); [unfold int_max; lia|vm_compute; reflexivity|].
  exists s. split; [exact G|]. split; [apply py_mem_ok; vm_compute; discriminate|]. split; [|exact E].
  repeat apply Forall_cons; try apply Forall_nil; cbn [plain_call]; try exact I.
  - split; [reflexivity|apply demo_data_ok].
  - change (total_trials 1 1) with 1. unfold int_max. repeat (split; [lia|]). split; [apply demo_data_ok|]. intros t [= <-]. apply demo_data_ok.
  - split; [reflexivity|]. repeat constructor.
Qed.
