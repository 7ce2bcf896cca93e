(** * C64 Checkpoints keep the best system. *)
From Coq Require Import ZArith Bool List Reals Lia.
From Flocq Require Import Core BinarySingleNaN.
From Verif Require Import Outcome F64 F64Facts F64Bounds Rng Pop PopSpec PopInv PopTrial PopFit PopOps PopSeq PopKeep PropMulti PropStore Clock Py PopTick PropPy PropEarly PropCover Arr Cond Pred Comp CompFacts Demo DemoEx PropPyRef.
Import ListNotations.
Open Scope Z_scope.

(** fit with one new checkpoint callback: the system is trained exactly as without ([observed],
    PropCover.v: consecutive epochs, nothing in between). Without save_best_only the newest file
    holds the final system. With save_best_only and no save frequency, it holds the system with the
    lowest error observed, the first one in case of ties; if no error was below DBL_MAX nothing was
    saved. *)
Theorem C64_checkpoint :
  forall (B : Type) (V : vtab B) (K : cfg) (FO : Prop) (kf : Z) (wf : B -> Prop)
    (mt : B -> list f64 -> Prop) (dom : list f64 -> Prop),
  cfg_ok K kf ->
  vt_ok (dom := dom) FO V K wf mt ->
  (ea_tournament K = true -> FO) ->
  forall (N mx pf : Z) (d : input) (v : option input) (shuffle warm : bool) (p : py) 
    (s : st B) (val best_only : bool) (freq : Z) (c : check),
  check_new val best_only freq = Return c ->
  1 <= mx <= int_max ->
  1 <= pf <= int_max ->
  0 <= N ->
  N + total_trials mx pf <= 2 ^ 53 ->
  Good K kf N wf s ->
  data_ok (dom := dom) K d ->
  (forall t : input, v = Some t -> data_ok (dom := dom) K t) ->
  0 <= p_counter p ->
  (p_counter p + total_epochs mx pf) * Z.min mx pf + freq <= int_max ->
  p_counter p + total_epochs mx pf <= int_max ->
  hpost FO (py_fit V K mx pf d v shuffle warm [Check c] p s)
    (fun (r : list callback * py) (s' : st B) =>
     exists (s0 : st B) (h : list obs),
       (if warm then s0 = s else s_prev_pset s0 = empty_set /\ s_time s0 = 0) /\
       Z.of_nat (length h) = total_epochs mx pf /\
       observed V K val d v shuffle (Z.min mx pf) 0 (p_counter p) h s0 s' /\
       (best_only = false -> exists rest : list (st B), p_files (snd r) = s' :: rest) /\
       (best_only = true ->
        freq = 0 ->
        p_files (snd r) = p_files p /\ (forall o : obs, In o h -> flt (o_error o) dbl_max = false) \/
        (exists (w : obs) (h1 h2 : list obs) (rest : list (st B)),
           h = h1 ++ w :: h2 /\
           p_files (snd r) = o_sys w :: rest /\
           nn (o_error w) /\
           (forall o : obs, In o h -> flt (o_error o) (o_error w) = false) /\
           (forall o : obs, In o h1 -> fle (o_error o) (o_error w) = false)))).
Proof. exact @C64_lemma. Qed.
Print Assumptions C64_checkpoint.

(** REFUTED with a save frequency: after errors 1, 1/2, 3/4 the file holds the system with error
    3/4. *)
Theorem C64_refuted :
  exists c : check,
    check_new false true 2 = Return c /\
    (forall (B : Type) (s1 s2 s3 : st B) (p : py),
     exists (c1 c2 c3 : check) (p1 p2 p3 : py),
       check_run c f1 2 p s1 = Ok (c1, p1, s1) /\
       check_run c1 fhalf 3 p1 s2 = Ok (c2, p2, s2) /\
       check_run c2 (lit 3 4) 4 p2 s3 = Ok (c3, p3, s3) /\
       p_files p3 = s3 :: s1 :: p_files p /\ flt fhalf (lit 3 4) = true /\ fle (lit 3 4) f1 = true).
Proof. exact @C64_refuted_lemma. Qed.
Print Assumptions C64_refuted.

(** Five epochs; the first error is the lowest (zero). *)
Example C64_example : exists s r s', Good (Kn 1) 0 0 (rect_wf (Kn 1)) s /\ s_time s = 0 /\ check_new false true 0 = Return (mkCheck false true 0 dbl_max 0) /\
  py_fit (rect_tab (Kn 1)) (Kn 1) 5 1 demo_data None false true [Check (mkCheck false true 0 dbl_max 0)] py0 s = Ok (r, s') /\
  (p_trials (snd r), map (fun e => flt f0 e) (p_train (snd r)), map s_time (p_files (snd r))) = ([5; 4; 3; 2; 1], [true; true; true; true; false], [1]).
Proof.
  edestruct (fresh_done 1 (py_fit (rect_tab (Kn 1)) (Kn 1) 5 1 demo_data None false true [Check (mkCheck false true 0 dbl_max 0)] py0)
    (fun r s' => (p_trials (snd r), map (fun e => flt f0 e) (p_train (snd r)), map s_time (p_files (snd r))))) as (s & r & s' & G & T0 & E & F);
    [unfold int_max; lia|vm_compute; reflexivity|].
  exists s, r, s'. split; [exact G|]. split; [exact T0|]. split; [reflexivity|]. split; [exact E|exact F].
Qed.
