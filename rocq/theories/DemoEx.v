(** * Concrete states in which the hypotheses of the step theorems hold. *)
From Coq Require Import ZArith Bool List Reals Lia Lra.
From Flocq Require Import Core BinarySingleNaN.
From Verif Require Import Outcome F64 F64Facts F64Bounds Rng RngFacts Pop PopSpec PopTrial PopFit PopRL PopOps PopSeq
  Arr Cond Blas Pred Loss Comp ArrFacts SamFacts TernFacts RectFacts EllipFacts PredFacts CompFacts PropPop Demo.
Import ListNotations.
Open Scope Z_scope.

(** K2 with another number of offspring and another EA threshold. *)
Definition Kl (lambda : Z) (theta : f64) : cfg := mkCfg 2 2 1 8 20 10000 1 50
  (lit 1 10) (lit 1 5) (lit 1 10) (lit 1 2) f0 (lit 1 100) (of_Z 5) (lit 95 100) (lit 9 10)
  false true true false (lit 2 5) theta lambda true false f1 (lit 1 10)
  (loss_fun demo_lm 1 f1 LOSS_MSE) demo_lm 100 false.
Lemma Kl_ok lambda theta : cfg_ok (Kl lambda theta) 0.
Proof. pose proof K2_ok as H. destruct H. constructor; assumption. Qed.
Lemma K2_Kl : K2 = Kl 2 (of_Z 2).
Proof. reflexivity. Qed.

Section Stage.
Context (lambda : Z) (theta : f64).
Notation K := (Kl lambda theta).
Notation V := (rect_tab K).
Definition body : Type := payload rect actint nlms.
Definition ops (rs : list (cl body)) : list (op (B := body) (E := nat)) := map OInsert rs.

Lemma Vl_ok FO : vt_ok (dom := any_x) FO V K (rect_wf K) (rect_mt K).
Proof. apply rect_tab_ok; cbn; unfold int_max; lia. Qed.
Lemma data_l : data_ok (dom := any_x) K demo_data.
Proof. repeat split; try (cbn; unfold int_max; lia); repeat constructor. Qed.
Lemma corridor_l FO : env_ok (dom := any_x) FO K corridor (fun _ => True).
Proof.
  exists (fun _ => True). split; [|split; [auto|intros e _ g; exact I]].
  intros e _ g. split; [split; [reflexivity|exact I]|]. intros a _ g'. exact I.
Qed.

(** The system into which the rules [rs] have been inserted, ready for a trial. *)
Definition ready (s : st body) : st body := with_set ASET empty_set (start s).
Definition stage (rs : list (cl body)) : outcome (unit * st body) :=
  (xcsf_init V K ;;; run_ops V K corridor (ops rs) ;;; mmod ready)%m (blank_state 1).
(** ... and after the match set for [x] has been built as well. *)
Definition stage_m (rs : list (cl body)) (x : list f64) (cv : bool) : outcome (unit * st body) :=
  (xcsf_init V K ;;; run_ops V K corridor (ops rs) ;;; mmod ready ;;; clset_match V K x cv)%m (blank_state 1).
Definition look {T} (o : outcome (unit * st body)) (f : st body -> T) : option T :=
  match o with Ok (_, s) => Some (f s) | _ => None end.

Definition is_ready (N : Z) (s : st body) : Prop :=
  Inv K 0 N (rect_wf K) s [] /\ set_nm (s_pset s) <= POP_SIZE K /\ Good K 0 N (rect_wf K) s /\
  s_mset s = empty_set /\ s_aset s = empty_set /\ s_kset s = empty_set.
Definition cost (rs : list (cl body)) : Z := costs K (ops rs).

(** A rule with the properties the contract asks for. *)
Definition fine (c : cl body) : Prop := rule_ok K 0 (c_exp c) (rect_wf K) c /\ 1 <= c_num c.
Lemma fine_cost rs : Forall fine rs -> 0 <= cost rs.
Proof.
  unfold cost. induction 1 as [|c r (R & _) _ IH]; [cbn; lia|].
  pose proof (ro_exp R) as H. cbn [ops map costs fold_right PopSeq.cost] in *. unfold costs in IH. cbn [ops] in IH. unfold ops in IH. lia.
Qed.
Lemma stage_spec rs : Forall fine rs -> cost rs <= 2 ^ 53 -> hpost False (stage rs) (fun _ s => is_ready (cost rs) s).
Proof.
  intros Hn C. unfold stage.
  assert (H : hpost False ((xcsf_init V K ;;; run_ops V K corridor (ops rs))%m (blank_state 1)) (fun _ s => Good K 0 (cost rs) (rect_wf K) s)).
  { apply (life_spec False V K 0 (rect_wf K) (rect_mt K) (Kl_ok _ _) (Vl_ok False) ltac:(discriminate) corridor (fun _ => True) (corridor_l False) (ops rs)).
    - intros l. reflexivity.
    - clear C. unfold ops. induction Hn; constructor; assumption.
    - exact C. }
  unfold mbind in *. destruct (xcsf_init V K (blank_state 1)) as [[[] s0]| | |]; try exact H.
  destruct (run_ops V K corridor (ops rs) s0) as [[[] s1]| | |]; try exact H.
  cbn [hpost] in *. unfold mmod. cbn [hpost].
  split; [apply (g_inv H)|]. split; [apply (g_lim H)|]. split; [|auto]. destruct H as [A B C']. split; assumption.
Qed.
Lemma look_stage {T} rs (f : st body -> T) v : Forall fine rs -> cost rs <= 2 ^ 53 -> look (stage rs) f = Some v ->
  exists s, is_ready (cost rs) s /\ f s = v.
Proof.
  intros Hn C H. pose proof (stage_spec rs Hn C) as S. destruct (stage rs) as [[[] s]| | |]; try discriminate H.
  exists s. split; [exact S|]. cbn in H. congruence.
Qed.
Lemma look_match {T} rs x cv (f : st body -> T) v : Forall fine rs -> cost rs <= 2 ^ 53 -> length x = 2%nat ->
  look (stage_m rs x cv) f = Some v ->
  exists s, Inv K 0 (cost rs) (rect_wf K) s [] /\ PopSpec.act_ok s (s_mset s) /\ set_nm (s_pset s) <= POP_SIZE K /\ f s = v.
Proof.
  intros Hn C Lx H. pose proof (stage_spec rs Hn C) as S. unfold stage, stage_m, mbind in *.
  destruct (xcsf_init V K (blank_state 1)) as [[[] s0]| | |]; try discriminate H.
  destruct (run_ops V K corridor (ops rs) s0) as [[[] s1]| | |]; try discriminate H.
  unfold mmod in *. cbn [hpost] in S. destruct S as (I & P & G & M & A & Ks).
  assert (C0 : 0 <= cost rs) by (apply fine_cost; exact Hn).
  pose proof (matching_spec False V K 0 (rect_wf K) (rect_mt K) (Kl_ok _ _) (Vl_ok False) (cost rs) x cv (ready s1) []
    C0 (conj (f_equal Z.of_nat Lx) Logic.I) I M P) as MS.
  destruct (clset_match V K x cv (ready s1)) as [[[] s]| | |]; try discriminate H. cbn [hpost] in MS.
  exists s. split; [apply MS|]. split; [apply MS|]. split; [apply MS|]. cbn in H. congruence.
Qed.
End Stage.
(** The positions, numerosities and actions of a rule set, its counters. *)
Definition members {B} (S : cset) (s : st B) : list (loc * Z * Z) :=
  map (fun l => (l, num_of (s_heap s) l, match s_heap s l with Some c => c_action c | None => -1 end)) (set_list S).
Definition counted {B} (S : cset) (s : st B) := (members S s, set_sz S, set_nm S).
(** What [f] shows of the result of [m], if it ends normally. *)
Definition run {B T U} (m : M B T) (s : st B) (f : T -> st B -> U) : option U :=
  match m s with Ok (a, s') => Some (f a s') | _ => None end.
Definition x1 : list f64 := [lit 1 4; lit 1 2].
Definition x2 : list f64 := [f0; f1].
Definition x3 : list f64 := [lit 9 10; lit 1 10].
(** A rule: action, numerosity, experience, fitness, error, centre, spread, weights; it is [age]
    trials old and has matched [mtotal] times. *)
Definition hr (act num exp : Z) (fit err : f64) (c s w : list f64) (age mtotal : Z) : cl body :=
  mkCl err fit num exp f1 0 false [f0] act age mtotal
    (mkPay (Some (mkRect c s [lit 1 10])) (Some (mkAct act [lit 1 10])) (Some (mkNlms 3 w [lit 1 10] (lit 1 10) [f0; f0; f0]))).
Lemma hr_fine lambda theta act num exp fit err c s w age mtotal :
  (act =? 0) || (act =? 1) = true -> (1 <=? num) = true -> (0 <=? exp) = true -> fle f0 fit = true -> fle fit f1 = true -> Bsign fit = false ->
  length c = 2%nat -> length s = 2%nat -> length w = 3%nat -> fine lambda theta (hr act num exp fit err c s w age mtotal).
Proof.
  intros Ha Hn He Hf Hg Hs Lc Ls Lw. split; [|cbn; lia]. assert (A : 0 <= act < 2) by lia. constructor; cbn; try assumption; try lia.
  - destruct (fle_01_in fit Hf Hg) as (F & B). split; [exact F|split; [exact Hs|apply B]].
  - split; [reflexivity|]. rewrite f1_R. cbn. lra.
  - unfold rect_wf, wf_pay. cbn. split; [|split].
    + eexists. split; [reflexivity|]. unfold wf_rect, len. cbn. rewrite Lc, Ls. auto.
    + eexists. split; [reflexivity|]. unfold act_wf. cbn. auto.
    + eexists. split; [reflexivity|]. unfold wf_nlms, len. cbn. rewrite Lw. auto.
Qed.
Definition q2 (a b c d : Z) : list f64 := [lit a b; lit c d].
Definition w3 (a b c : Z) : list f64 := [lit a 10; lit b 10; lit c 10].
(** Six rules (eight micro-rules), four of which match x1, one x3 and none x2; the third is
    accurate and more general than the fourth. *)
Definition six : list (cl body) :=
  [hr 0 1 5 (lit 1 5) (lit 3 5) (q2 1 2 1 2) (q2 2 5 2 5) (w3 1 2 3) 10 5;
   hr 1 2 30 (lit 2 5) (lit 11 20) (q2 1 4 1 2) (q2 1 10 1 10) (w3 4 5 6) 60 30;
   hr 0 2 10 (lit 3 10) (lit 1 10) (q2 3 10 1 2) (q2 7 20 2 5) (w3 7 (-1) 2) 20 10;
   hr 0 1 25 (lit 1 100) (lit 9 10) (q2 3 10 1 2) (q2 1 10 1 10) (w3 1 1 1) 50 25;
   hr 1 1 2 (lit 1 10) (lit 3 10) (q2 9 10 1 10) (q2 1 20 1 20) (w3 2 2 2) 10 2;
   hr 0 1 3 (lit 1 20) (lit 2 10) (q2 3 5 3 5) (q2 1 20 1 20) (w3 5 5 5) 10 3].
(** One rule that fills the population. *)
Definition eight : list (cl body) := [hr 1 8 5 (lit 1 5) (lit 3 5) (q2 9 10 1 10) (q2 1 20 1 20) (w3 1 2 3) 10 5].
(** Three rules, the second of which has never matched in 20000 trials. *)
Definition idle : list (cl body) :=
  [hr 0 1 5 (lit 1 5) (lit 3 5) (q2 1 2 1 2) (q2 2 5 2 5) (w3 1 2 3) 10 5;
   hr 1 1 0 (lit 2 5) (lit 1 5) (q2 1 4 1 2) (q2 1 10 1 10) (w3 4 5 6) 20000 0;
   hr 0 2 10 (lit 3 10) (lit 1 10) (q2 3 10 1 2) (q2 7 20 2 5) (w3 7 (-1) 2) 20 10].
Ltac fine := repeat (constructor; [apply hr_fine; reflexivity|]); constructor.
Lemma six_fine lambda theta : Forall (fine lambda theta) six.
Proof. fine. Qed.
Lemma eight_fine lambda theta : Forall (fine lambda theta) eight.
Proof. fine. Qed.
Lemma idle_fine lambda theta : Forall (fine lambda theta) idle.
Proof. fine. Qed.
(** [n] times [m]. *)
Fixpoint miter {B} (n : nat) (m : M B unit) : M B unit := match n with O => mret tt | S k => (m ;;; miter k m)%m end.
