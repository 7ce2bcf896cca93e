(** * Counterexamples for the Python interface. *)
From Coq Require Import ZArith Bool List Reals Lia Lra.
From Flocq Require Import Core BinarySingleNaN.
From Verif Require Import Outcome F64 F64Facts F64Bounds Rng RngFacts Pop PopSpec PopInv PopSel PopTrial PopFit PopRL PopOps PopSeq PopKeep PropMulti PropStore Clock Py PopTick PropPy PropEarly PropCover
  Arr Cond Blas Pred Comp CompFacts Demo DemoEx.
Import ListNotations.
Open Scope Z_scope.

Definition py0 {B} : py (B := B) := mkPy 0 [] [] [] [].
Definition fresh_do {A U} (n : Z) (m : M body A) (f : A -> st body -> U) : option U :=
  match xcsf_init (rect_tab (Kn n)) (Kn n) (blank_state 1) with Ok (_, s) => run m s f | _ => None end.
Lemma fresh_done {A U} n (m : M body A) (f : A -> st body -> U) r : 1 <= n <= int_max -> fresh_do n m f = Some r ->
  exists s a s', Good (Kn n) 0 0 (rect_wf (Kn n)) s /\ s_time s = 0 /\ m s = Ok (a, s') /\ f a s' = r.
Proof.
  intros Hn. unfold fresh_do. intros H. pose proof (init_spec False (rect_tab (Kn n)) (Kn n) 0 (rect_wf (Kn n)) (rect_mt (Kn n))
    (demo_cfg_ok n 1 8 false true false false Hn ltac:(lia) ltac:(unfold int_max; lia))
    (rect_tab_ok (Kn n) False ltac:(cbn; lia) ltac:(cbn; lia) Hn) (blank_state 1) ltac:(reflexivity)) as I.
  destruct (xcsf_init (rect_tab (Kn n)) (Kn n) (blank_state 1)) as [[[] s]| | |]; try discriminate H. unfold run in H. destruct (m s) as [[a s']| | |] eqn:E; try discriminate H.
  injection H as H. exists s, a, s'. destruct I as ((_ & I & _) & G). auto.
Qed.
Lemma C55_refuted_lemma : exists mx pf (s s' : st body) r, 1 <= mx <= int_max /\ 1 <= pf <= int_max /\ Good (Kn 1) 0 0 (rect_wf (Kn 1)) s /\ s_time s = 0 /\
  py_fit (rect_tab (Kn 1)) (Kn 1) mx pf demo_data None false true [] py0 s = Ok (r, s') /\ mx = 3 /\ s_time s' = 4.
Proof.
  edestruct (fresh_done 1 (py_fit (rect_tab (Kn 1)) (Kn 1) 3 2 demo_data None false true [] py0) (fun _ s' => s_time s')) as (s & r & s' & G & T & E & F);
    [unfold int_max; lia|vm_compute; reflexivity|]. exists 3, 2, s, s', r. unfold int_max. repeat (split; [first [lia|assumption|reflexivity]|]). exact F.
Qed.
Lemma C63_refuted_lemma : exists (s s' : st body) e rows es, Good (Kn 1) 0 0 (rect_wf (Kn 1)) s /\ py_score (rect_tab (Kn 1)) (Kn 1) demo_data 1 (Some [f0]) s = Ok (e, s') /\
  visited (rect_tab (Kn 1)) (Kn 1) (rect_wf (Kn 1)) (rect_mt (Kn 1)) demo_data (Some [f0]) rows es (with_explore false s) s' /\ rows = [0; 1; 2].
Proof.
  edestruct (fresh_done 1 (py_score (rect_tab (Kn 1)) (Kn 1) demo_data 1 (Some [f0])) (fun _ _ => tt)) as (s & e & s' & G & T & E & F);
    [unfold int_max; lia|vm_compute; reflexivity|].
  pose proof (C63_lemma False (rect_tab (Kn 1)) (Kn 1) 0 (rect_wf (Kn 1)) (rect_mt (Kn 1)) (dom := any_x)
    (demo_cfg_ok 1 1 8 false true false false ltac:(unfold int_max; lia) ltac:(lia) ltac:(unfold int_max; lia))
    (rect_tab_ok (Kn 1) False ltac:(cbn; lia) ltac:(cbn; lia) ltac:(cbn; unfold int_max; lia)) ltac:(discriminate) 0 demo_data 1 (Some [f0]) s ltac:(lia) G
    (demo_data_ok _ _ _ _ _ _) ltac:(intros cv [= <-]; cbn; lia)) as H.
  rewrite E in H. cbn [hpost] in H. destruct H as (rows & es & L1 & L2 & L3 & L4 & L5 & L6 & L7). exists s, s', e, rows, es. split; [exact G|]. split; [exact E|]. split; [exact L5|].
  rewrite (L4 ltac:(left; lia)). change (n_samples demo_data) with 3 in L2. cbn in L2. replace (length es) with 3%nat by lia. reflexivity.
Qed.
(** Errors that are not numbers: nothing is stored, yet an earlier snapshot made by somebody else is
    put back. *)
Lemma C57_refuted_lemma : exists c, early_new false 0 true f0 0 = Return c /\
  forall (B : Type) (V : vtab B) (K : cfg) kf wf N (s : st B), cfg_ok K kf -> Good K kf N wf s -> set_list (s_prev_pset s) <> [] ->
  exists s', early_run V K c fnan 1 s = Ok ((c, true), s') /\ s_pset s' = s_prev_pset s.
Proof.
  eexists. split; [reflexivity|]. intros B V K kf wf N s CO G NE. destruct (retrieve_spec K kf wf CO N s G) as (s' & E & (_ & R) & _).
  exists s'. split.
  - unfold early_run. cbn [es_start_from es_best_error es_min_delta es_restore es_val es_patience es_best_trial es_do_restore]. change (1 <? 0) with false. cbv iota.
    assert (F : flt fnan (fsub dbl_max f0) = false) by (vm_compute; reflexivity). rewrite F. unfold mbind, mret, mlift. cbn [es_patience es_best_trial]. change (cint (1 - 0)) with (Ok 1). cbv iota beta.
    change (0 <? 1) with true. cbn [es_restore]. rewrite E. reflexivity.
  - destruct (R NE) as (h' & _ & ->). reflexivity.
Qed.
