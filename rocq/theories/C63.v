(** * C63 score with a limit looks at that many samples. *)
From Coq Require Import ZArith Bool List Reals Lia.
From Flocq Require Import Core BinarySingleNaN.
From Verif Require Import Outcome F64 F64Facts F64Bounds Rng Pop PopSpec PopInv PopTrial PopFit PopOps PopSeq PopKeep PropMulti PropStore Clock Py PopTick PropPy PropEarly PropCover Arr Cond Pred Comp CompFacts Demo DemoEx PropPyRef.
Import ListNotations.
Open Scope Z_scope.

(** Rows looked at by score, and its result. [visited] (PropMulti.v) is the chain of trials. *)
Theorem C63_score :
  forall (FO : Prop) (B : Type) (V : vtab B) (K : cfg) (kf : Z) (wf : B -> Prop)
    (mt : B -> list f64 -> Prop) (dom : list f64 -> Prop),
  cfg_ok K kf ->
  vt_ok (dom := dom) FO V K wf mt ->
  (ea_tournament K = true -> FO) ->
  forall (N : Z) (d : input) (n : Z) (cover : option (list f64)) (s : st B),
  0 <= N ->
  Good K kf N wf s ->
  data_ok (dom := dom) K d ->
  cover_ok K cover ->
  hpost FO (py_score V K d n cover s)
    (fun (e : f64) (s' : st B) =>
     exists (rows : list Z) (es : list f64),
       let k := if 1 <? n then Z.min n (n_samples d) else n_samples d in
       length rows = length es /\
       Z.of_nat (length es) = k /\
       Forall (fun r : Z => 0 <= r < n_samples d) rows /\
       (n <= 1 \/ n_samples d < n -> rows = map Z.of_nat (seq 0 (length es))) /\
       visited V K wf mt d cover rows es (with_explore false s) s' /\
       e = fdiv (fold_left fadd es f0) (of_Z k) /\ Good K kf N wf s').
Proof. exact @C63_lemma. Qed.
Print Assumptions C63_score.

(** REFUTED for a limit of one: all three rows are looked at. *)
Theorem C63_refuted :
  exists (s s' : st body) (e : f64) (rows : list Z) (es : list f64),
    Good (Kn 1) 0 0 (rect_wf (Kn 1)) s /\
    py_score (rect_tab (Kn 1)) (Kn 1) demo_data 1 (Some [f0]) s = Ok (e, s') /\
    visited (rect_tab (Kn 1)) (Kn 1) (rect_wf (Kn 1)) (rect_mt (Kn 1)) demo_data 
      (Some [f0]) rows es (with_explore false s) s' /\ rows = [0; 1; 2].
Proof. exact @C63_refuted_lemma. Qed.
Print Assumptions C63_refuted.

Example C63_example : exists s : st body, exists e s', Good (Kn 1) 0 0 (rect_wf (Kn 1)) s /\ s_time s = 0 /\
  py_score (rect_tab (Kn 1)) (Kn 1) demo_data 2 (Some [f0]) s = Ok (e, s') /\ flt f0 e = true.
Proof.
  edestruct (fresh_done 1 (py_score (rect_tab (Kn 1)) (Kn 1) demo_data 2 (Some [f0])) (fun e _ => flt f0 e)) as (s & e & s' & G & T0 & E & F);
    [unfold int_max; lia|vm_compute; reflexivity|]. exists s, e, s'. auto.
Qed.
