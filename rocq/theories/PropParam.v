(** * Lemmas for C36 and C61: parameter setters and default values. *)
From Coq Require Import ZArith Bool List String Ascii Reals Lra Lia Relations.
From Flocq Require Import Core BinarySingleNaN.
From Verif Require Import Outcome F64 F64Facts F64Bounds Arr Names Param PropNames Rng Pop PopSpec.
Import ListNotations.
Open Scope Z_scope.

(** Everything but the numeric and boolean parameters. *)
Definition same_rest (x y : sys) : Prop := file y = file x /\ loss_code y = loss_code x /\ seed y = seed x.

(** Between 0 and 1; zero or more (possibly infinite).  Neither holds of NaN. *)
Definition in01 (a : f64) : Prop := is_finite a = true /\ (0 <= B2R a <= 1)%R.
Definition from0 (a : f64) : Prop := (is_finite a = true /\ (0 <= B2R a)%R) \/ a = B754_infinity false.

(** A setter for p storing exactly the values in [ok]: nothing else changes, and nothing at all changes on error. *)
Definition sets_i (f : sys -> Z -> bool * sys) (p : ipar) (ok : Z -> Prop) : Prop := forall x a,
  (ok a /\ fst (f x a) = true /\
   ints (snd (f x a)) p = Some a /\ (forall q, q <> p -> ints (snd (f x a)) q = ints x q) /\
   dbls (snd (f x a)) = dbls x /\ bools (snd (f x a)) = bools x /\ same_rest x (snd (f x a))) \/
  (~ ok a /\ f x a = (false, x)).
Definition sets_d (f : sys -> f64 -> bool * sys) (p : dpar) (ok : f64 -> Prop) : Prop := forall x a, is_nan a = false ->
  (ok a /\ fst (f x a) = true /\
   dbls (snd (f x a)) p = Some a /\ (forall q, q <> p -> dbls (snd (f x a)) q = dbls x q) /\
   ints (snd (f x a)) = ints x /\ bools (snd (f x a)) = bools x /\ same_rest x (snd (f x a))) \/
  (~ ok a /\ f x a = (false, x)).
Definition sets_b (f : sys -> bool -> bool * sys) (p : bpar) : Prop := forall x a,
  fst (f x a) = true /\
  bools (snd (f x a)) p = Some a /\ (forall q, q <> p -> bools (snd (f x a)) q = bools x q) /\
  ints (snd (f x a)) = ints x /\ dbls (snd (f x a)) = dbls x /\ same_rest x (snd (f x a)).
(** A setter without result: stores [v a]. *)
Definition puts_i (f : sys -> Z -> sys) (p : ipar) (v : Z -> Z) : Prop := forall x a,
  ints (f x a) p = Some (v a) /\ (forall q, q <> p -> ints (f x a) q = ints x q) /\
  dbls (f x a) = dbls x /\ bools (f x a) = bools x /\ same_rest x (f x a).
Definition puts_d (f : sys -> f64 -> sys) (p : dpar) (stored : f64 -> f64 -> Prop) : Prop := forall x a,
  (exists v, dbls (f x a) p = Some v /\ stored a v) /\ (forall q, q <> p -> dbls (f x a) q = dbls x q) /\
  ints (f x a) = ints x /\ bools (f x a) = bools x /\ same_rest x (f x a).
Definition puts_b (f : sys -> bool -> sys) (p : bpar) : Prop := forall x a,
  bools (f x a) p = Some a /\ (forall q, q <> p -> bools (f x a) q = bools x q) /\
  ints (f x a) = ints x /\ dbls (f x a) = dbls x /\ same_rest x (f x a).
(** The argument moved into [0,1], into [0,inf); NaN is kept. *)
Definition into01 (a v : f64) : Prop :=
  (is_nan a = false -> in01 v) /\ (in01 a \/ is_nan a = true -> v = a).
Definition into0 (a v : f64) : Prop :=
  (is_nan a = false -> from0 v) /\ (from0 a \/ is_nan a = true -> v = a).

Lemma cmp01 a : is_nan a = false -> flt a f0 || fgt a f1 = false <-> in01 a.
Proof.
  intros N. unfold fgt. split.
  - intros H. apply orb_false_iff in H as (H0 & H1).
    apply (flt_X_false _ _ N nn_f0) in H0. apply (flt_X_false _ _ nn_f1 N) in H1. rewrite X_f0 in H0. rewrite X_f1 in H1.
    pose proof one_lt_bnd. assert (F : is_finite a = true) by (apply nn_X_finite; [exact N|lra]).
    split; [exact F|]. rewrite X_finite in * by exact F. lra.
  - intros (F & H). apply orb_false_iff. split.
    + apply flt_X_false; [exact N|exact nn_f0|]. rewrite X_f0, X_finite by exact F. lra.
    + apply flt_X_false; [exact nn_f1|exact N|]. rewrite X_f1, X_finite by exact F. lra.
Qed.
Lemma cmp0 a : is_nan a = false -> flt a f0 = false <-> from0 a.
Proof.
  intros N. split.
  - intros H. apply (flt_X_false _ _ N nn_f0) in H. rewrite X_f0 in H. destruct a as [s|[]| |s m e b]; try discriminate N.
    + left. split; [reflexivity|]. cbn. lra.
    + exfalso. cbn in H. pose proof bnd_pos. lra.
    + right. reflexivity.
    + left. split; [reflexivity|]. exact H.
  - intros H. apply flt_X_false; [exact N|exact nn_f0|]. rewrite X_f0. destruct H as [(F & H)| ->].
    + rewrite X_finite by exact F. exact H.
    + cbn. pose proof bnd_pos. lra.
Qed.

Lemma isame p (v w : option Z) : (if ipar_eq p p then v else w) = v.
Proof. destruct (ipar_eq p p); [reflexivity|contradiction]. Qed.
Lemma dsame p (v w : option f64) : (if dpar_eq p p then v else w) = v.
Proof. destruct (dpar_eq p p); [reflexivity|contradiction]. Qed.
Lemma bsame p (v w : option bool) : (if bpar_eq p p then v else w) = v.
Proof. destruct (bpar_eq p p); [reflexivity|contradiction]. Qed.
Ltac store := repeat split; cbn [ints dbls bools snd fst done put_i put_d put_b]; try reflexivity;
  try (intros ? ?; match goal with |- context [if ?d then _ else _] => destruct d; [contradiction|reflexivity] end).
Ltac put1 := match goal with |- context [if ?d then _ else _] => destruct d; [|contradiction] end.

Lemma sets_i_intro f p ok (bad : Z -> bool) :
  (forall x a, f x a = if bad a then fails x else done (put_i x p a)) ->
  (forall a, bad a = false <-> ok a) -> sets_i f p ok.
Proof.
  intros Hf Hb x a. rewrite Hf. destruct (bad a) eqn:E.
  - right. split; [|reflexivity]. intro H. apply Hb in H. congruence.
  - left. apply Hb in E. split; [exact E|]. split; [reflexivity|]. split; [apply isame|]. store.
Qed.
Lemma sets_d_intro f p ok (bad : f64 -> bool) :
  (forall x a, f x a = if bad a then fails x else done (put_d x p a)) ->
  (forall a, is_nan a = false -> bad a = false <-> ok a) -> sets_d f p ok.
Proof.
  intros Hf Hb x a N. rewrite Hf. destruct (bad a) eqn:E.
  - right. split; [|reflexivity]. intro H. apply Hb in H; congruence.
  - left. apply Hb in E; [|exact N]. split; [exact E|]. split; [reflexivity|]. split; [apply dsame|]. store.
Qed.
Lemma sets_b_intro f p : (forall x a, f x a = done (put_b x p a)) -> sets_b f p.
Proof. intros Hf x a. rewrite Hf. split; [reflexivity|]. split; [apply bsame|]. store. Qed.
Lemma puts_i_intro f p v : (forall x a, f x a = put_i x p (v a)) -> puts_i f p v.
Proof. intros Hf x a. rewrite Hf. split; [apply isame|]. store. Qed.
Lemma puts_d_intro f p (v : f64 -> f64) (st : f64 -> f64 -> Prop) : (forall x a, f x a = put_d x p (v a)) -> (forall a, st a (v a)) -> puts_d f p st.
Proof.
  intros Hf Hs x a. rewrite Hf. split; [exists (v a); split; [apply dsame|apply Hs]|]. store.
Qed.
Lemma puts_b_intro f p : (forall x a, f x a = put_b x p a) -> puts_b f p.
Proof. intros Hf x a. rewrite Hf. split; [apply bsame|]. store. Qed.

Lemma in01_f0 : in01 f0.
Proof. split; [reflexivity|]. change (B2R f0) with (X f0). rewrite X_f0. lra. Qed.
Lemma in01_f1 : in01 f1.
Proof. split; [apply f1_fin|]. rewrite f1_R. lra. Qed.
Lemma from0_f0 : from0 f0.
Proof. left. split; [reflexivity|]. change (B2R f0) with (X f0). rewrite X_f0. lra. Qed.
Lemma clamp01 a : into01 a (if flt a f0 then f0 else if fgt a f1 then f1 else a).
Proof.
  split.
  - intros N. pose proof (cmp01 a N) as H. destruct (flt a f0); [exact in01_f0|]. destruct (fgt a f1); [exact in01_f1|]. apply H. reflexivity.
  - intros [H|N].
    + assert (N : is_nan a = false) by (destruct H as (F & _); destruct a; try discriminate; reflexivity).
      apply (cmp01 a N), orb_false_iff in H as (-> & ->). reflexivity.
    + destruct a; try discriminate N. reflexivity.
Qed.
Lemma clamp0 a : into0 a (if flt a f0 then f0 else a).
Proof.
  split.
  - intros N. pose proof (cmp0 a N) as H. destruct (flt a f0); [exact from0_f0|]. apply H. reflexivity.
  - intros [H|N].
    + assert (N : is_nan a = false) by (destruct H as [(F & _)| ->]; [destruct a; try discriminate; reflexivity|reflexivity]).
      apply (cmp0 a N) in H as ->. reflexivity.
    + destruct a; try discriminate N. reflexivity.
Qed.

Lemma int_setters_ok :
  sets_i param_set_omp_num_threads i_OMP_NUM_THREADS (fun a => 1 <= a <= 1000) /\
  sets_i param_set_max_trials i_MAX_TRIALS (fun a => 1 <= a) /\
  sets_i param_set_perf_trials i_PERF_TRIALS (fun a => 1 <= a) /\
  sets_i param_set_pop_size i_POP_SIZE (fun a => 1 <= a) /\
  sets_i param_set_teletransportation i_TELETRANSPORTATION (fun a => 1 <= a) /\
  sets_i param_set_theta_del i_THETA_DEL (fun a => 0 <= a) /\
  sets_i param_set_m_probation i_M_PROBATION (fun a => 0 <= a) /\
  sets_i param_set_theta_sub i_THETA_SUB (fun a => 0 <= a) /\
  sets_i param_set_x_dim i_X_DIM (fun a => 1 <= a) /\
  sets_i param_set_y_dim i_Y_DIM (fun a => 1 <= a) /\
  sets_i param_set_n_actions i_N_ACTIONS (fun a => 1 <= a) /\
  sets_i ea_param_set_lambda i_EA_LAMBDA (fun a => 2 <= a).
Proof.
  split; [apply (sets_i_intro _ _ _ (fun a => (a <? 1) || (1000 <? a))); [reflexivity|intros a; rewrite ?orb_false_iff, ?Z.ltb_ge; lia]|].
  split; [apply (sets_i_intro _ _ _ (fun a => a <? 1)); [reflexivity|intros a; rewrite ?orb_false_iff, ?Z.ltb_ge; lia]|].
  split; [apply (sets_i_intro _ _ _ (fun a => a <? 1)); [reflexivity|intros a; rewrite ?orb_false_iff, ?Z.ltb_ge; lia]|].
  split; [apply (sets_i_intro _ _ _ (fun a => a <? 1)); [reflexivity|intros a; rewrite ?orb_false_iff, ?Z.ltb_ge; lia]|].
  split; [apply (sets_i_intro _ _ _ (fun a => a <? 1)); [reflexivity|intros a; rewrite ?orb_false_iff, ?Z.ltb_ge; lia]|].
  split; [apply (sets_i_intro _ _ _ (fun a => a <? 0)); [reflexivity|intros a; rewrite ?orb_false_iff, ?Z.ltb_ge; lia]|].
  split; [apply (sets_i_intro _ _ _ (fun a => a <? 0)); [reflexivity|intros a; rewrite ?orb_false_iff, ?Z.ltb_ge; lia]|].
  split; [apply (sets_i_intro _ _ _ (fun a => a <? 0)); [reflexivity|intros a; rewrite ?orb_false_iff, ?Z.ltb_ge; lia]|].
  split; [apply (sets_i_intro _ _ _ (fun a => a <? 1)); [reflexivity|intros a; rewrite ?orb_false_iff, ?Z.ltb_ge; lia]|].
  split; [apply (sets_i_intro _ _ _ (fun a => a <? 1)); [reflexivity|intros a; rewrite ?orb_false_iff, ?Z.ltb_ge; lia]|].
  split; [apply (sets_i_intro _ _ _ (fun a => a <? 1)); [reflexivity|intros a; rewrite ?orb_false_iff, ?Z.ltb_ge; lia]|].
  apply (sets_i_intro _ _ _ (fun a => a <? 2)); [reflexivity|intros a; rewrite ?orb_false_iff, ?Z.ltb_ge; lia].
Qed.

Lemma double_setters_ok :
  sets_d param_set_huber_delta d_HUBER_DELTA from0 /\
  sets_d param_set_gamma d_GAMMA in01 /\
  sets_d param_set_p_explore d_P_EXPLORE in01 /\
  sets_d param_set_alpha d_ALPHA in01 /\
  sets_d param_set_beta d_BETA in01 /\
  sets_d param_set_delta d_DELTA in01 /\
  sets_d param_set_e0 d_E0 from0 /\
  sets_d param_set_init_error d_INIT_ERROR from0 /\
  sets_d param_set_init_fitness d_INIT_FITNESS from0 /\
  sets_d param_set_nu d_NU from0 /\
  sets_d ea_param_set_select_size d_EA_SELECT_SIZE in01 /\
  sets_d ea_param_set_theta d_EA_THETA from0 /\
  sets_d ea_param_set_p_crossover d_EA_P_CROSSOVER in01 /\
  sets_d ea_param_set_err_reduc d_EA_ERR_REDUC in01 /\
  sets_d ea_param_set_fit_reduc d_EA_FIT_REDUC in01.
Proof.
  split; [apply (sets_d_intro _ _ _ (fun a => flt a f0)); [reflexivity|exact cmp0]|].
  split; [apply (sets_d_intro _ _ _ (fun a => flt a f0 || fgt a f1)); [reflexivity|exact cmp01]|].
  split; [apply (sets_d_intro _ _ _ (fun a => flt a f0 || fgt a f1)); [reflexivity|exact cmp01]|].
  split; [apply (sets_d_intro _ _ _ (fun a => flt a f0 || fgt a f1)); [reflexivity|exact cmp01]|].
  split; [apply (sets_d_intro _ _ _ (fun a => flt a f0 || fgt a f1)); [reflexivity|exact cmp01]|].
  split; [apply (sets_d_intro _ _ _ (fun a => flt a f0 || fgt a f1)); [reflexivity|exact cmp01]|].
  split; [apply (sets_d_intro _ _ _ (fun a => flt a f0)); [reflexivity|exact cmp0]|].
  split; [apply (sets_d_intro _ _ _ (fun a => flt a f0)); [reflexivity|exact cmp0]|].
  split; [apply (sets_d_intro _ _ _ (fun a => flt a f0)); [reflexivity|exact cmp0]|].
  split; [apply (sets_d_intro _ _ _ (fun a => flt a f0)); [reflexivity|exact cmp0]|].
  split; [apply (sets_d_intro _ _ _ (fun a => flt a f0 || fgt a f1)); [reflexivity|exact cmp01]|].
  split; [apply (sets_d_intro _ _ _ (fun a => flt a f0)); [reflexivity|exact cmp0]|].
  split; [apply (sets_d_intro _ _ _ (fun a => flt a f0 || fgt a f1)); [reflexivity|exact cmp01]|].
  split; [apply (sets_d_intro _ _ _ (fun a => flt a f0 || fgt a f1)); [reflexivity|exact cmp01]|].
  apply (sets_d_intro _ _ _ (fun a => flt a f0 || fgt a f1)); [reflexivity|exact cmp01].
Qed.

Lemma nan_accepted : forall x,
  param_set_huber_delta x fnan = (true, put_d x d_HUBER_DELTA fnan) /\
  param_set_gamma x fnan = (true, put_d x d_GAMMA fnan) /\
  param_set_p_explore x fnan = (true, put_d x d_P_EXPLORE fnan) /\
  param_set_alpha x fnan = (true, put_d x d_ALPHA fnan) /\
  param_set_beta x fnan = (true, put_d x d_BETA fnan) /\
  param_set_delta x fnan = (true, put_d x d_DELTA fnan) /\
  param_set_e0 x fnan = (true, put_d x d_E0 fnan) /\
  param_set_init_error x fnan = (true, put_d x d_INIT_ERROR fnan) /\
  param_set_init_fitness x fnan = (true, put_d x d_INIT_FITNESS fnan) /\
  param_set_nu x fnan = (true, put_d x d_NU fnan) /\
  ea_param_set_select_size x fnan = (true, put_d x d_EA_SELECT_SIZE fnan) /\
  ea_param_set_theta x fnan = (true, put_d x d_EA_THETA fnan) /\
  ea_param_set_p_crossover x fnan = (true, put_d x d_EA_P_CROSSOVER fnan) /\
  ea_param_set_err_reduc x fnan = (true, put_d x d_EA_ERR_REDUC fnan) /\
  ea_param_set_fit_reduc x fnan = (true, put_d x d_EA_FIT_REDUC fnan).
Proof. intros x. repeat split. Qed.

Lemma bool_setters_ok :
  sets_b param_set_pop_init b_POP_INIT /\
  sets_b param_set_stateful b_STATEFUL /\
  sets_b param_set_compaction b_COMPACTION /\
  sets_b param_set_set_subsumption b_SET_SUBSUMPTION /\
  sets_b param_set_explore b_EXPLORE /\
  sets_b ea_param_set_subsumption b_EA_SUBSUMPTION /\
  sets_b ea_param_set_pred_reset b_EA_PRED_RESET.
Proof.
  split; [apply sets_b_intro; reflexivity|].
  split; [apply sets_b_intro; reflexivity|].
  split; [apply sets_b_intro; reflexivity|].
  split; [apply sets_b_intro; reflexivity|].
  split; [apply sets_b_intro; reflexivity|].
  split; [apply sets_b_intro; reflexivity|].
  apply sets_b_intro; reflexivity.
Qed.

Lemma clamped_int_setters_ok :
  puts_i cond_param_set_bits i_COND_BITS (Z.max 1) /\
  puts_i cond_param_set_type i_COND_TYPE (Z.max 0) /\
  puts_i pred_param_set_type i_PRED_TYPE (Z.max 0) /\
  puts_i action_param_set_type i_ACT_TYPE (Z.max 0) /\
  puts_i graph_param_set_max_k i_DGP_MAX_K (Z.max 1) /\
  puts_i graph_param_set_max_t i_DGP_MAX_T (Z.max 1) /\
  puts_i graph_param_set_n i_DGP_N (Z.max 1) /\
  puts_i graph_param_set_n_inputs i_DGP_N_INPUTS (Z.max 1) /\
  puts_i tree_param_set_n_inputs i_GP_N_INPUTS (Z.max 1) /\
  puts_i tree_param_set_n_constants i_GP_N_CONSTANTS (Z.max 1) /\
  puts_i tree_param_set_init_depth i_GP_INIT_DEPTH (Z.max 1) /\
  puts_i tree_param_set_max_len i_GP_MAX_LEN (Z.max 1).
Proof.
  split; [apply (puts_i_intro _ _ (Z.max 1)); intros x a; unfold cond_param_set_bits; f_equal; destruct (Z.ltb_spec a 1); lia|].
  split; [apply (puts_i_intro _ _ (Z.max 0)); intros x a; unfold cond_param_set_type; f_equal; destruct (Z.ltb_spec a 0); lia|].
  split; [apply (puts_i_intro _ _ (Z.max 0)); intros x a; unfold pred_param_set_type; f_equal; destruct (Z.ltb_spec a 0); lia|].
  split; [apply (puts_i_intro _ _ (Z.max 0)); intros x a; unfold action_param_set_type; f_equal; destruct (Z.ltb_spec a 0); lia|].
  split; [apply (puts_i_intro _ _ (Z.max 1)); intros x a; unfold graph_param_set_max_k; f_equal; destruct (Z.ltb_spec a 1); lia|].
  split; [apply (puts_i_intro _ _ (Z.max 1)); intros x a; unfold graph_param_set_max_t; f_equal; destruct (Z.ltb_spec a 1); lia|].
  split; [apply (puts_i_intro _ _ (Z.max 1)); intros x a; unfold graph_param_set_n; f_equal; destruct (Z.ltb_spec a 1); lia|].
  split; [apply (puts_i_intro _ _ (Z.max 1)); intros x a; unfold graph_param_set_n_inputs; f_equal; destruct (Z.ltb_spec a 1); lia|].
  split; [apply (puts_i_intro _ _ (Z.max 1)); intros x a; unfold tree_param_set_n_inputs; f_equal; destruct (Z.ltb_spec a 1); lia|].
  split; [apply (puts_i_intro _ _ (Z.max 1)); intros x a; unfold tree_param_set_n_constants; f_equal; destruct (Z.ltb_spec a 1); lia|].
  split; [apply (puts_i_intro _ _ (Z.max 1)); intros x a; unfold tree_param_set_init_depth; f_equal; destruct (Z.ltb_spec a 1); lia|].
  apply (puts_i_intro _ _ (Z.max 1)); intros x a; unfold tree_param_set_max_len; f_equal; destruct (Z.ltb_spec a 1); lia.
Qed.

Lemma clamped_double_setters_ok :
  puts_d cond_param_set_eta d_COND_ETA into01 /\
  puts_d cond_param_set_p_dontcare d_COND_P_DONTCARE into01 /\
  puts_d cond_param_set_spread_min d_COND_SPREAD_MIN into0 /\
  puts_d pred_param_set_eta d_PRED_ETA into01 /\
  puts_d pred_param_set_eta_min d_PRED_ETA_MIN into01.
Proof.
  split; [eapply puts_d_intro; [intros; reflexivity|intros; apply clamp01]|].
  split; [eapply puts_d_intro; [intros; reflexivity|intros; apply clamp01]|].
  split; [eapply puts_d_intro; [intros; reflexivity|intros; apply clamp0]|].
  split; [eapply puts_d_intro; [intros; reflexivity|intros; apply clamp01]|].
  eapply puts_d_intro; [intros; reflexivity|intros; apply clamp01].
Qed.

Lemma free_setters_ok :
  puts_d cond_param_set_min d_COND_MIN (fun a v => v = a) /\
  puts_d cond_param_set_max d_COND_MAX (fun a v => v = a) /\
  puts_d pred_param_set_lambda d_PRED_LAMBDA (fun a v => v = a) /\
  puts_d pred_param_set_scale_factor d_PRED_SCALE_FACTOR (fun a v => v = a) /\
  puts_d pred_param_set_x0 d_PRED_X0 (fun a v => v = a) /\
  puts_d tree_param_set_max d_GP_MAX (fun a v => v = a) /\
  puts_d tree_param_set_min d_GP_MIN (fun a v => v = a) /\
  puts_b pred_param_set_evolve_eta b_PRED_EVOLVE_ETA /\
  puts_b graph_param_set_evolve_cycles b_DGP_EVOLVE_CYCLES.
Proof.
  split; [eapply (puts_d_intro _ _ (fun a => a)); reflexivity|].
  split; [eapply (puts_d_intro _ _ (fun a => a)); reflexivity|].
  split; [eapply (puts_d_intro _ _ (fun a => a)); reflexivity|].
  split; [eapply (puts_d_intro _ _ (fun a => a)); reflexivity|].
  split; [eapply (puts_d_intro _ _ (fun a => a)); reflexivity|].
  split; [eapply (puts_d_intro _ _ (fun a => a)); reflexivity|].
  split; [eapply (puts_d_intro _ _ (fun a => a)); reflexivity|].
  split; [apply puts_b_intro; reflexivity|].
  apply puts_b_intro; reflexivity.
Qed.

(** ** All setters together *)
Definition int_setters : list (sys -> Z -> bool * sys) := [param_set_omp_num_threads; param_set_max_trials;
   param_set_perf_trials; param_set_pop_size; param_set_teletransportation; param_set_theta_del;
   param_set_m_probation; param_set_theta_sub; param_set_x_dim; param_set_y_dim; param_set_n_actions;
   ea_param_set_lambda].
Definition double_setters : list (sys -> f64 -> bool * sys) := [param_set_huber_delta; param_set_gamma;
   param_set_p_explore; param_set_alpha; param_set_beta; param_set_delta; param_set_e0; param_set_init_error;
   param_set_init_fitness; param_set_nu; ea_param_set_select_size; ea_param_set_theta;
   ea_param_set_p_crossover; ea_param_set_err_reduc; ea_param_set_fit_reduc].
Definition bool_setters : list (sys -> bool -> bool * sys) := [param_set_pop_init; param_set_stateful;
   param_set_compaction; param_set_set_subsumption; param_set_explore; ea_param_set_subsumption;
   ea_param_set_pred_reset].
Definition clamped_int_setters : list (sys -> Z -> sys) := [cond_param_set_bits; cond_param_set_type;
   pred_param_set_type; action_param_set_type; graph_param_set_max_k; graph_param_set_max_t;
   graph_param_set_n; graph_param_set_n_inputs; tree_param_set_n_inputs; tree_param_set_n_constants;
   tree_param_set_init_depth; tree_param_set_max_len].
Definition clamped_double_setters : list (sys -> f64 -> sys) := [cond_param_set_eta;
   cond_param_set_p_dontcare; cond_param_set_spread_min; pred_param_set_eta; pred_param_set_eta_min].
Definition free_double_setters : list (sys -> f64 -> sys) := [cond_param_set_min; cond_param_set_max;
   pred_param_set_lambda; pred_param_set_scale_factor; pred_param_set_x0; tree_param_set_max;
   tree_param_set_min].
Definition free_bool_setters : list (sys -> bool -> sys) := [pred_param_set_evolve_eta;
   graph_param_set_evolve_cycles].

(** The documented ranges. *)
Definition range_i (p : ipar) (v : Z) : Prop :=
  v <= int_max /\
  match p with
  | i_OMP_NUM_THREADS => 1 <= v <= 1000
  | i_MAX_TRIALS => 1 <= v
  | i_PERF_TRIALS => 1 <= v
  | i_POP_SIZE => 1 <= v
  | i_TELETRANSPORTATION => 1 <= v
  | i_THETA_DEL => 0 <= v
  | i_M_PROBATION => 0 <= v
  | i_THETA_SUB => 0 <= v
  | i_X_DIM => 1 <= v
  | i_Y_DIM => 1 <= v
  | i_N_ACTIONS => 1 <= v
  | i_EA_LAMBDA => 2 <= v
  | i_COND_BITS => 1 <= v
  | i_COND_TYPE => 0 <= v
  | i_PRED_TYPE => 0 <= v
  | i_ACT_TYPE => 0 <= v
  | i_DGP_MAX_K => 1 <= v
  | i_DGP_MAX_T => 1 <= v
  | i_DGP_N => 1 <= v
  | i_DGP_N_INPUTS => 1 <= v
  | i_GP_N_INPUTS => 1 <= v
  | i_GP_N_CONSTANTS => 1 <= v
  | i_GP_INIT_DEPTH => 1 <= v
  | i_GP_MAX_LEN => 1 <= v
  | i_RANDOM_STATE => True
  | i_LOSS_FUNC => 0 <= v < 7
  | i_EA_SELECT_TYPE => 0 <= v <= 1
  end.
Definition range_d (p : dpar) (v : f64) : Prop :=
  match p with
  | d_HUBER_DELTA => from0 v
  | d_GAMMA => in01 v
  | d_P_EXPLORE => in01 v
  | d_ALPHA => in01 v
  | d_BETA => in01 v
  | d_DELTA => in01 v
  | d_E0 => from0 v
  | d_INIT_ERROR => from0 v
  | d_INIT_FITNESS => from0 v
  | d_NU => from0 v
  | d_EA_SELECT_SIZE => in01 v
  | d_EA_THETA => from0 v
  | d_EA_P_CROSSOVER => in01 v
  | d_EA_ERR_REDUC => in01 v
  | d_EA_FIT_REDUC => in01 v
  | d_COND_ETA => in01 v
  | d_COND_P_DONTCARE => in01 v
  | d_COND_SPREAD_MIN => from0 v
  | d_PRED_ETA => in01 v
  | d_PRED_ETA_MIN => in01 v
  | _ => is_nan v = false
  end.

(** Every parameter is set and in its range (explore is set by xcsf_init and by each trial), and the loss function
    called is the selected one. *)
Definition in_range (x : sys) : Prop :=
  (forall p, exists v, ints x p = Some v /\ range_i p v) /\
  (forall p, exists v, dbls x p = Some v /\ range_d p v) /\
  (forall p, p <> b_EXPLORE -> exists v, bools x p = Some v) /\
  loss_code x = ints x i_LOSS_FUNC.

(** One call of a setter, with any int, bool or string, or any double other than NaN. *)
Inductive call : sys -> sys -> Prop :=
| call_i f x a : In f int_setters -> a <= int_max -> call x (snd (f x a))
| call_d f x a : In f double_setters -> is_nan a = false -> call x (snd (f x a))
| call_b f x a : In f bool_setters -> call x (snd (f x a))
| call_ci f x a : In f clamped_int_setters -> a <= int_max -> call x (f x a)
| call_cd f x a : In f clamped_double_setters -> is_nan a = false -> call x (f x a)
| call_ad f x a : In f free_double_setters -> is_nan a = false -> call x (f x a)
| call_ab f x a : In f free_bool_setters -> call x (f x a)
| call_seed x a : a <= int_max -> call x (snd (param_set_random_state x a))
| call_file x a r : param_set_population_file x a = Ok r -> call x (snd r)
| call_loss x a x' : param_set_loss_func x a = Ok x' -> call x x'
| call_loss_name x s rest r : plain s -> param_set_loss_func_string x (arr s rest) = Ok r -> call x (snd r)
| call_ea x a : call x (snd (ea_param_set_select_type x a))
| call_type_name (f : sys -> list ascii -> outcome (Z * sys)) x s rest r :
    In f [ea_param_set_type_string; cond_param_set_type_string; pred_param_set_type_string; action_param_set_type_string] ->
    plain s -> f x (arr s rest) = Ok r -> call x (snd r).

Lemma in_range_put_i x p v : in_range x -> p <> i_LOSS_FUNC -> range_i p v -> in_range (put_i x p v).
Proof.
  intros (H1 & H2 & H3 & H4) Hp Hv. unfold in_range. cbn [ints dbls bools loss_code put_i]. split; [|split; [exact H2|split; [exact H3|]]].
  - intros q. destruct (ipar_eq q p) as [->|]; [exists v; auto|apply H1].
  - destruct (ipar_eq i_LOSS_FUNC p) as [<-|]; [contradiction|exact H4].
Qed.
Lemma in_range_put_d x p v : in_range x -> range_d p v -> in_range (put_d x p v).
Proof.
  intros (H1 & H2 & H3 & H4) Hv. unfold in_range. cbn [ints dbls bools loss_code put_d]. split; [exact H1|split; [|split; [exact H3|exact H4]]].
  intros q. destruct (dpar_eq q p) as [->|]; [exists v; auto|apply H2].
Qed.
Lemma in_range_put_b x p v : in_range x -> in_range (put_b x p v).
Proof.
  intros (H1 & H2 & H3 & H4). unfold in_range. cbn [ints dbls bools loss_code put_b]. split; [exact H1|split; [exact H2|split; [|exact H4]]].
  intros q Hq. destruct (bpar_eq q p) as [->|]; [exists v; auto|apply H3, Hq].
Qed.
Lemma in_range_loss x l f s : in_range x -> 0 <= l < 7 ->
  in_range (mkSys (ints (put_i x i_LOSS_FUNC l)) (dbls x) (bools x) f (Some l) s).
Proof.
  intros (H1 & H2 & H3 & H4) Hl. unfold in_range. cbn [ints dbls bools loss_code put_i]. split; [|split; [exact H2|split; [exact H3|]]].
  - intros q. destruct (ipar_eq q i_LOSS_FUNC) as [->|]; [|apply H1].
    exists l. split; [reflexivity|]. split; [|exact Hl]. unfold int_max. lia.
  - rewrite isame. reflexivity.
Qed.
Lemma in_range_rest x f s : in_range x -> in_range (mkSys (ints x) (dbls x) (bools x) f (loss_code x) s).
Proof. intros H. exact H. Qed.
Lemma in_range_seed x f v s : in_range x -> v <= int_max ->
  in_range (mkSys (ints (put_i x i_RANDOM_STATE v)) (dbls x) (bools x) f (loss_code x) s).
Proof. intros H Hv. apply (in_range_rest (put_i x i_RANDOM_STATE v)). apply in_range_put_i; [exact H|discriminate|split; [exact Hv|exact I]]. Qed.

(** What is stored by the setters of a loss function. *)
Lemma loss_set_put x l : loss_set_func (put_i x i_LOSS_FUNC l) =
  Ok (if (0 <=? l) && (l <? 7) then (l, mkSys (ints (put_i x i_LOSS_FUNC l)) (dbls x) (bools x) (file x) (Some l) (seed x)) else (-1, put_i x i_LOSS_FUNC l)).
Proof. unfold loss_set_func. cbn [ints put_i]. rewrite isame. reflexivity. Qed.
(** The system with a new loss function. *)
Definition with_loss (x : sys) (l : Z) : sys :=
  mkSys (fun q => if ipar_eq q i_LOSS_FUNC then Some l else ints x q) (dbls x) (bools x) (file x) (Some l) (seed x).
Lemma loss_setter_ok x a :
  (0 <= a < 7 /\ param_set_loss_func x a = Ok (with_loss x a)) \/
  (~ (0 <= a < 7) /\ param_set_loss_func x a = Exit).
Proof.
  unfold param_set_loss_func. destruct (Z.ltb_spec a 0); [right; split; [lia|reflexivity]|].
  destruct (Z.leb_spec 7 a); [right; split; [lia|reflexivity]|]. left. split; [lia|]. cbn [orb]. rewrite loss_set_put.
  rewrite (proj2 (Z.leb_le 0 a)), (proj2 (Z.ltb_lt a 7)) by lia. reflexivity.
Qed.
Lemma loss_names_code c s : In (c, s) loss_names -> 0 <= c < 7.
Proof. cbn. intros H. repeat (destruct H as [H|H]; [injection H as <- <-; lia|]). destruct H. Qed.
Lemma in_dec_s (s : string) (l : list string) : {In s l} + {~ In s l}.
Proof. apply in_dec. apply string_dec. Defined.
Lemma names_pick T fs fi rej s rest : names_ok T fs fi (fun s c => In (c, s) T) rej -> plain s ->
  (exists c, In (c, s) T /\ fi (arr s rest) = Ok c) \/ (~ In s (map snd T) /\ fi (arr s rest) = rej).
Proof.
  intros (_ & _ & _ & _ & H) Hs. destruct (H s rest Hs) as (H1 & H2). destruct (in_dec_s s (map snd T)) as [I|I].
  - left. apply in_map_iff in I as ((c & s') & E & I). cbn in E. subst s'. exists c. split; [exact I|apply H1, I].
  - right. split; [exact I|]. apply H2. intros c Hc. apply I. apply in_map_iff. exists (c, s). auto.
Qed.
Lemma loss_name_setter_ok x s rest : plain s ->
  (exists c, In (c, s) loss_names /\ param_set_loss_func_string x (arr s rest) = Ok (true, with_loss x c)) \/
  (~ In s (map snd loss_names) /\ param_set_loss_func_string x (arr s rest) = Ok (false, x)).
Proof.
  intros Hs. unfold param_set_loss_func_string. destruct (names_pick _ _ _ _ s rest loss_names_ok Hs) as [(c & I & ->)|(I & ->)].
  - left. exists c. split; [exact I|]. apply loss_names_code in I. cbn [obind].
    rewrite (proj2 (Z.eqb_neq c (-1))) by lia. rewrite loss_set_put.
    rewrite (proj2 (Z.leb_le 0 c)), (proj2 (Z.ltb_lt c 7)) by lia. cbn [andb obind fst snd].
    rewrite (proj2 (Z.eqb_neq c (-1))) by lia. reflexivity.
  - right. split; [exact I|]. reflexivity.
Qed.
Lemma ea_select_setter_ok x a :
  (0 <= a <= 1 /\ ea_param_set_select_type x a = (a, put_i x i_EA_SELECT_TYPE a)) \/
  (~ (0 <= a <= 1) /\ ea_param_set_select_type x a = (-1, x)).
Proof.
  unfold ea_param_set_select_type. destruct (Z.eqb_spec a 0); [left; split; [lia|subst; reflexivity]|].
  destruct (Z.eqb_spec a 1); [left; split; [lia|subst; reflexivity]|]. right. split; [lia|reflexivity].
Qed.
(** Setting a type by name. *)
Definition sets_name (f : sys -> list ascii -> outcome (Z * sys)) (p : ipar) (T : list (Z * string)) : Prop :=
  forall x s rest, plain s ->
  (exists c, In (c, s) T /\ f x (arr s rest) = Ok (c, put_i x p c)) \/
  (~ In s (map snd T) /\ f x (arr s rest) = Ok (-1, x)).
Lemma sets_name_intro f p T fs fi : names_ok T fs fi (fun s c => In (c, s) T) (Ok (-1)) -> Forall (fun q => 0 <= fst q) T ->
  (forall x a, f x a = (t <- fi a ;; Ok (t, if t =? -1 then x else put_i x p t))%out) -> sets_name f p T.
Proof.
  intros Hn HT Hf x s rest Hs. rewrite Hf. destruct (names_pick _ _ _ _ s rest Hn Hs) as [(c & I & ->)|(I & ->)].
  - left. exists c. split; [exact I|]. rewrite Forall_forall in HT. apply HT in I. cbn [fst] in I. cbn [obind].
    rewrite (proj2 (Z.eqb_neq c (-1))) by lia. reflexivity.
  - right. split; [exact I|reflexivity].
Qed.
Lemma name_setters_ok :
  sets_name ea_param_set_type_string i_EA_SELECT_TYPE ea_names /\
  sets_name cond_param_set_type_string i_COND_TYPE cond_names /\
  sets_name pred_param_set_type_string i_PRED_TYPE pred_names /\
  sets_name action_param_set_type_string i_ACT_TYPE act_names.
Proof.
  split; [|split; [|split]]; (eapply sets_name_intro; [first [exact ea_names_ok|exact cond_names_ok|exact pred_names_ok|exact act_names_ok]| |reflexivity]);
  repeat (apply Forall_cons; [cbn; lia|]); apply Forall_nil.
Qed.

Lemma call_in_range x x' : in_range x -> call x x' -> in_range x'.
Proof.
  intros H C. destruct C as [f x a Hf Ha|f x a Hf Ha|f x a Hf|f x a Hf Ha|f x a Hf Ha|f x a Hf Ha|f x a Hf|x a Ha|x a r Hr|x a y Hr|x s rest r Hs Hr|x a|f x s rest r Hf Hs Hr].
  - cbn in Hf. repeat (destruct Hf as [<-|Hf];
      [unfold param_set_omp_num_threads, param_set_max_trials, param_set_perf_trials, param_set_pop_size, param_set_teletransportation, param_set_theta_del, param_set_m_probation, param_set_theta_sub, param_set_x_dim, param_set_y_dim, param_set_n_actions, ea_param_set_lambda; match goal with |- in_range (snd (if ?b then _ else _)) => destruct b eqn:E; [exact H|] end;
       apply in_range_put_i; [exact H|discriminate|split; [exact Ha|]]; rewrite ?orb_false_iff, ?Z.ltb_ge in E; cbn; lia|]). destruct Hf.
  - cbn in Hf. repeat (destruct Hf as [<-|Hf];
      [unfold param_set_huber_delta, param_set_gamma, param_set_p_explore, param_set_alpha, param_set_beta, param_set_delta, param_set_e0, param_set_init_error, param_set_init_fitness, param_set_nu, ea_param_set_select_size, ea_param_set_theta, ea_param_set_p_crossover, ea_param_set_err_reduc, ea_param_set_fit_reduc; match goal with |- in_range (snd (if ?b then _ else _)) => destruct b eqn:E; [exact H|] end;
       apply in_range_put_d; [exact H|]; first [apply (cmp01 a Ha), E|apply (cmp0 a Ha), E]|]). destruct Hf.
  - cbn in Hf. repeat (destruct Hf as [<-|Hf]; [apply in_range_put_b; exact H|]). destruct Hf.
  - cbn in Hf. repeat (destruct Hf as [<-|Hf];
      [unfold cond_param_set_bits, cond_param_set_type, pred_param_set_type, action_param_set_type, graph_param_set_max_k, graph_param_set_max_t, graph_param_set_n, graph_param_set_n_inputs, tree_param_set_n_inputs, tree_param_set_n_constants, tree_param_set_init_depth, tree_param_set_max_len; apply in_range_put_i; [exact H|discriminate|]; match goal with |- context [if ?b then _ else _] => destruct b eqn:E end;
       rewrite ?Z.ltb_ge in E; split; cbn; unfold int_max in *; lia|]). destruct Hf.
  - cbn in Hf. repeat (destruct Hf as [<-|Hf]; [apply in_range_put_d; [exact H|]; first [apply clamp01, Ha|apply clamp0, Ha]|]). destruct Hf.
  - cbn in Hf. repeat (destruct Hf as [<-|Hf]; [apply in_range_put_d; [exact H|exact Ha]|]). destruct Hf.
  - cbn in Hf. repeat (destruct Hf as [<-|Hf]; [apply in_range_put_b; exact H|]). destruct Hf.
  - exact (in_range_seed x (file x) a _ H Ha).
  - unfold param_set_population_file in Hr. destruct (strnlen a MAX_LEN); try discriminate Hr. cbn [obind] in Hr.
    destruct (strncpy a (Datatypes.S a0)); try discriminate Hr. cbn [obind] in Hr. injection Hr as <-. exact (in_range_rest _ _ _ H).
  - destruct (loss_setter_ok x a) as [(Ha & E)|(_ & E)]; rewrite E in Hr; [|discriminate Hr]. injection Hr as <-.
    exact (in_range_loss _ _ _ _ H Ha).
  - destruct (loss_name_setter_ok x s rest Hs) as [(c & I & E)|(_ & E)]; rewrite E in Hr; injection Hr as <-; [|exact H].
    exact (in_range_loss _ _ _ _ H (loss_names_code _ _ I)).
  - destruct (ea_select_setter_ok x a) as [(Ha & ->)|(_ & ->)]; [|exact H].
    apply in_range_put_i; [exact H|discriminate|]. split; [unfold int_max; lia|exact Ha].
  - destruct name_setters_ok as (N1 & N2 & N3 & N4). cbn in Hf.
    destruct Hf as [<-|[<-|[<-|[<-|[]]]]];
    [destruct (N1 x s rest Hs) as [(c & I & E)|(I & E)]|destruct (N2 x s rest Hs) as [(c & I & E)|(I & E)]
    |destruct (N3 x s rest Hs) as [(c & I & E)|(I & E)]|destruct (N4 x s rest Hs) as [(c & I & E)|(I & E)]];
      rewrite E in Hr; injection Hr as <-; try exact H;
      (apply in_range_put_i; [exact H|discriminate|]; cbn in I; repeat (destruct I as [I|I]; [injection I as <- <-; split; cbn; unfold int_max; lia|]); destruct I).
Qed.

(** ** Default values *)

Lemma set_ea_param_set_select_size x : snd (ea_param_set_select_size x (dec 4 1)) = put_d x d_EA_SELECT_SIZE (dec 4 1).
Proof. unfold ea_param_set_select_size; assert (E : flt (dec 4 1) f0 || fgt (dec 4 1) f1 = false) by (vm_compute; reflexivity); rewrite E; reflexivity. Qed.
Lemma set_ea_param_set_theta x : snd (ea_param_set_theta x (of_Z 50)) = put_d x d_EA_THETA (of_Z 50).
Proof. unfold ea_param_set_theta; assert (E : flt (of_Z 50) f0 = false) by (vm_compute; reflexivity); rewrite E; reflexivity. Qed.
Lemma set_ea_param_set_lambda x : snd (ea_param_set_lambda x 2) = put_i x i_EA_LAMBDA 2.
Proof. reflexivity. Qed.
Lemma set_ea_param_set_p_crossover x : snd (ea_param_set_p_crossover x (dec 8 1)) = put_d x d_EA_P_CROSSOVER (dec 8 1).
Proof. unfold ea_param_set_p_crossover; assert (E : flt (dec 8 1) f0 || fgt (dec 8 1) f1 = false) by (vm_compute; reflexivity); rewrite E; reflexivity. Qed.
Lemma set_ea_param_set_subsumption x : snd (ea_param_set_subsumption x false) = put_b x b_EA_SUBSUMPTION false.
Proof. reflexivity. Qed.
Lemma set_ea_param_set_err_reduc x : snd (ea_param_set_err_reduc x f1) = put_d x d_EA_ERR_REDUC f1.
Proof. unfold ea_param_set_err_reduc; assert (E : flt f1 f0 || fgt f1 f1 = false) by (vm_compute; reflexivity); rewrite E; reflexivity. Qed.
Lemma set_ea_param_set_fit_reduc x : snd (ea_param_set_fit_reduc x (dec 1 1)) = put_d x d_EA_FIT_REDUC (dec 1 1).
Proof. unfold ea_param_set_fit_reduc; assert (E : flt (dec 1 1) f0 || fgt (dec 1 1) f1 = false) by (vm_compute; reflexivity); rewrite E; reflexivity. Qed.
Lemma set_ea_param_set_pred_reset x : snd (ea_param_set_pred_reset x false) = put_b x b_EA_PRED_RESET false.
Proof. reflexivity. Qed.
Lemma set_param_set_omp_num_threads x : snd (param_set_omp_num_threads x 8) = put_i x i_OMP_NUM_THREADS 8.
Proof. reflexivity. Qed.
Lemma set_param_set_pop_init x : snd (param_set_pop_init x true) = put_b x b_POP_INIT true.
Proof. reflexivity. Qed.
Lemma set_param_set_max_trials x : snd (param_set_max_trials x 100000) = put_i x i_MAX_TRIALS 100000.
Proof. reflexivity. Qed.
Lemma set_param_set_perf_trials x : snd (param_set_perf_trials x 1000) = put_i x i_PERF_TRIALS 1000.
Proof. reflexivity. Qed.
Lemma set_param_set_pop_size x : snd (param_set_pop_size x 2000) = put_i x i_POP_SIZE 2000.
Proof. reflexivity. Qed.
Lemma set_param_set_huber_delta x : snd (param_set_huber_delta x f1) = put_d x d_HUBER_DELTA f1.
Proof. unfold param_set_huber_delta; assert (E : flt f1 f0 = false) by (vm_compute; reflexivity); rewrite E; reflexivity. Qed.
Lemma set_param_set_e0 x : snd (param_set_e0 x (dec 1 2)) = put_d x d_E0 (dec 1 2).
Proof. unfold param_set_e0; assert (E : flt (dec 1 2) f0 = false) by (vm_compute; reflexivity); rewrite E; reflexivity. Qed.
Lemma set_param_set_alpha x : snd (param_set_alpha x (dec 1 1)) = put_d x d_ALPHA (dec 1 1).
Proof. unfold param_set_alpha; assert (E : flt (dec 1 1) f0 || fgt (dec 1 1) f1 = false) by (vm_compute; reflexivity); rewrite E; reflexivity. Qed.
Lemma set_param_set_nu x : snd (param_set_nu x (of_Z 5)) = put_d x d_NU (of_Z 5).
Proof. unfold param_set_nu; assert (E : flt (of_Z 5) f0 = false) by (vm_compute; reflexivity); rewrite E; reflexivity. Qed.
Lemma set_param_set_beta x : snd (param_set_beta x (dec 1 1)) = put_d x d_BETA (dec 1 1).
Proof. unfold param_set_beta; assert (E : flt (dec 1 1) f0 || fgt (dec 1 1) f1 = false) by (vm_compute; reflexivity); rewrite E; reflexivity. Qed.
Lemma set_param_set_delta x : snd (param_set_delta x (dec 1 1)) = put_d x d_DELTA (dec 1 1).
Proof. unfold param_set_delta; assert (E : flt (dec 1 1) f0 || fgt (dec 1 1) f1 = false) by (vm_compute; reflexivity); rewrite E; reflexivity. Qed.
Lemma set_param_set_theta_del x : snd (param_set_theta_del x 20) = put_i x i_THETA_DEL 20.
Proof. reflexivity. Qed.
Lemma set_param_set_init_fitness x : snd (param_set_init_fitness x (dec 1 2)) = put_d x d_INIT_FITNESS (dec 1 2).
Proof. unfold param_set_init_fitness; assert (E : flt (dec 1 2) f0 = false) by (vm_compute; reflexivity); rewrite E; reflexivity. Qed.
Lemma set_param_set_init_error x : snd (param_set_init_error x f0) = put_d x d_INIT_ERROR f0.
Proof. unfold param_set_init_error; assert (E : flt f0 f0 = false) by (vm_compute; reflexivity); rewrite E; reflexivity. Qed.
Lemma set_param_set_m_probation x : snd (param_set_m_probation x 10000) = put_i x i_M_PROBATION 10000.
Proof. reflexivity. Qed.
Lemma set_param_set_stateful x : snd (param_set_stateful x true) = put_b x b_STATEFUL true.
Proof. reflexivity. Qed.
Lemma set_param_set_compaction x : snd (param_set_compaction x false) = put_b x b_COMPACTION false.
Proof. reflexivity. Qed.
Lemma set_param_set_gamma x : snd (param_set_gamma x (dec 95 2)) = put_d x d_GAMMA (dec 95 2).
Proof. unfold param_set_gamma; assert (E : flt (dec 95 2) f0 || fgt (dec 95 2) f1 = false) by (vm_compute; reflexivity); rewrite E; reflexivity. Qed.
Lemma set_param_set_teletransportation x : snd (param_set_teletransportation x 50) = put_i x i_TELETRANSPORTATION 50.
Proof. reflexivity. Qed.
Lemma set_param_set_p_explore x : snd (param_set_p_explore x (dec 9 1)) = put_d x d_P_EXPLORE (dec 9 1).
Proof. unfold param_set_p_explore; assert (E : flt (dec 9 1) f0 || fgt (dec 9 1) f1 = false) by (vm_compute; reflexivity); rewrite E; reflexivity. Qed.
Lemma set_param_set_set_subsumption x : snd (param_set_set_subsumption x false) = put_b x b_SET_SUBSUMPTION false.
Proof. reflexivity. Qed.
Lemma set_param_set_theta_sub x : snd (param_set_theta_sub x 100) = put_i x i_THETA_SUB 100.
Proof. reflexivity. Qed.
Lemma set_ea_select x : snd (ea_param_set_select_type x 0) = put_i x i_EA_SELECT_TYPE 0.
Proof. reflexivity. Qed.
Lemma set_random x : snd (param_set_random_state x (-1)) =
  mkSys (fun q => if ipar_eq q i_RANDOM_STATE then Some (-1) else ints x q) (dbls x) (bools x) (file x) (loss_code x) None.
Proof. reflexivity. Qed.
Lemma set_loss x : param_set_loss_func x 0 = Ok (with_loss x 0).
Proof. destruct (loss_setter_ok x 0) as [(_ & ->)|(W & _)]; [reflexivity|exfalso; lia]. Qed.
Lemma clamp01_id a : flt a f0 = false -> fgt a f1 = false -> (if flt a f0 then f0 else if fgt a f1 then f1 else a) = a.
Proof. intros -> ->. reflexivity. Qed.
Lemma clamp0_id a : flt a f0 = false -> (if flt a f0 then f0 else a) = a.
Proof. intros ->. reflexivity. Qed.

Definition cond_defaults (x : sys) (n : Z) : sys :=
  put_i (put_i (put_i (put_i (put_d (put_d (put_b (put_i (put_i (put_i (put_i (put_i (put_d (put_d (put_d (put_d (put_d (put_i x
    i_COND_TYPE 1) d_COND_ETA f0) d_COND_MIN f0) d_COND_MAX f1) d_COND_SPREAD_MIN (dec 1 1)) d_COND_P_DONTCARE fhalf) i_COND_BITS 1)
    i_DGP_MAX_K 2) i_DGP_MAX_T 10) i_DGP_N 10) i_DGP_N_INPUTS n) b_DGP_EVOLVE_CYCLES true)
    d_GP_MAX f1) d_GP_MIN f0) i_GP_INIT_DEPTH 5) i_GP_MAX_LEN 10000) i_GP_N_CONSTANTS 100) i_GP_N_INPUTS n.
Lemma set_eta x : cond_param_set_eta x f0 = put_d x d_COND_ETA f0.
Proof. unfold cond_param_set_eta. rewrite clamp01_id by (vm_compute; reflexivity). reflexivity. Qed.
Lemma set_spread x : cond_param_set_spread_min x (dec 1 1) = put_d x d_COND_SPREAD_MIN (dec 1 1).
Proof. unfold cond_param_set_spread_min. rewrite clamp0_id by (vm_compute; reflexivity). reflexivity. Qed.
Lemma set_dontcare x : cond_param_set_p_dontcare x fhalf = put_d x d_COND_P_DONTCARE fhalf.
Proof. unfold cond_param_set_p_dontcare. rewrite clamp01_id by (vm_compute; reflexivity). reflexivity. Qed.
Lemma set_peta x : pred_param_set_eta x (dec 1 1) = put_d x d_PRED_ETA (dec 1 1).
Proof. unfold pred_param_set_eta. rewrite clamp01_id by (vm_compute; reflexivity). reflexivity. Qed.
Lemma set_petamin x : pred_param_set_eta_min x (dec 1 5) = put_d x d_PRED_ETA_MIN (dec 1 5).
Proof. unfold pred_param_set_eta_min. rewrite clamp01_id by (vm_compute; reflexivity). reflexivity. Qed.
Lemma cond_defaults_ok x n : ints x i_X_DIM = Some n -> 1 <= n -> cond_param_defaults x = Ok (cond_defaults x n).
Proof.
  intros Hn Hp. assert (P : (n <? 1) = false) by (apply Z.ltb_ge; exact Hp).
  unfold cond_param_defaults, cond_ternary_param_defaults. rewrite set_eta, set_spread, set_dontcare.
  unfold cond_dgp_param_defaults.
  match goal with |- (_ <- match ints ?t i_X_DIM with _ => _ end ;; _)%out = _ => assert (E : ints t i_X_DIM = Some n) by exact Hn; rewrite E; clear E end.
  cbn [obind]. unfold cond_gp_param_defaults.
  match goal with |- match ints ?t i_X_DIM with _ => _ end = _ => assert (E : ints t i_X_DIM = Some n) by exact Hn; rewrite E; clear E end.
  unfold tree_param_set_n_inputs, graph_param_set_n_inputs. rewrite P. reflexivity.
Qed.
Definition pred_defaults (x : sys) : sys :=
  put_b (put_d (put_d (put_d (put_d (put_d (put_i x i_PRED_TYPE 1) d_PRED_ETA (dec 1 1)) d_PRED_ETA_MIN (dec 1 5)) d_PRED_LAMBDA f1)
    d_PRED_SCALE_FACTOR (of_Z 1000)) d_PRED_X0 f1) b_PRED_EVOLVE_ETA true.
Lemma pred_defaults_ok x : pred_param_defaults x = pred_defaults x.
Proof. unfold pred_param_defaults. rewrite set_peta, set_petamin. reflexivity. Qed.

Ltac range01 := apply cmp01; [vm_compute; reflexivity|vm_compute; reflexivity].
Ltac range0 := apply cmp0; [vm_compute; reflexivity|vm_compute; reflexivity].

Lemma param_init_ok x xd yd na : 1 <= xd <= int_max -> 1 <= yd <= int_max -> 1 <= na <= int_max ->
  exists y, param_init x xd yd na = Ok y /\ in_range y /\
    ints y i_X_DIM = Some xd /\ ints y i_Y_DIM = Some yd /\ ints y i_N_ACTIONS = Some na /\
    ints y i_DGP_N_INPUTS = Some xd /\ ints y i_GP_N_INPUTS = Some xd.
Proof.
  intros Hx Hy Hn. unfold param_init, param_set_n_actions, param_set_x_dim, param_set_y_dim.
  rewrite (proj2 (Z.ltb_ge na 1)), (proj2 (Z.ltb_ge xd 1)), (proj2 (Z.ltb_ge yd 1)) by lia. cbn [snd done].
  rewrite set_random, set_param_set_omp_num_threads, set_param_set_pop_init, set_param_set_max_trials, set_param_set_perf_trials, set_param_set_pop_size. rewrite set_loss. cbn [obind]. rewrite set_param_set_huber_delta, set_param_set_e0, set_param_set_alpha, set_param_set_nu, set_param_set_beta, set_param_set_delta, set_param_set_theta_del, set_param_set_init_fitness, set_param_set_init_error, set_param_set_m_probation, set_param_set_stateful, set_param_set_compaction, set_param_set_gamma, set_param_set_teletransportation, set_param_set_p_explore, set_param_set_set_subsumption, set_param_set_theta_sub.
  unfold ea_param_defaults. rewrite set_ea_select, set_ea_param_set_select_size, set_ea_param_set_theta, set_ea_param_set_lambda, set_ea_param_set_p_crossover, set_ea_param_set_subsumption, set_ea_param_set_err_reduc, set_ea_param_set_fit_reduc, set_ea_param_set_pred_reset.
  rewrite (cond_defaults_ok _ xd); [|reflexivity|lia]. cbn [obind]. rewrite pred_defaults_ok.
  eexists. split; [reflexivity|]. split; [|repeat split].
  split; [|split; [|split]].
  - intros p. destruct p; eexists; (split; [reflexivity|]); split; cbn; unfold int_max in *; lia.
  - intros p. destruct p; eexists; (split; [reflexivity|]); first [range01|range0|vm_compute; reflexivity].
  - intros p Hp. destruct p; try contradiction; eexists; reflexivity.
  - reflexivity.
Qed.

(** With dimensions that are rejected, the number of inputs is never set. *)
Lemma param_init_refuted : exists x, param_init x 0 1 1 = UB Uninit.
Proof.
  exists (mkSys (fun _ => None) (fun _ => None) (fun _ => None) [] None None).
  unfold param_init. change (snd (param_set_x_dim ?x 0)) with x. rewrite set_random, set_param_set_omp_num_threads, set_param_set_pop_init, set_param_set_max_trials, set_param_set_perf_trials, set_param_set_pop_size. rewrite set_loss. cbn [obind]. rewrite set_param_set_huber_delta, set_param_set_e0, set_param_set_alpha, set_param_set_nu, set_param_set_beta, set_param_set_delta, set_param_set_theta_del, set_param_set_init_fitness, set_param_set_init_error, set_param_set_m_probation, set_param_set_stateful, set_param_set_compaction, set_param_set_gamma, set_param_set_teletransportation, set_param_set_p_explore, set_param_set_set_subsumption, set_param_set_theta_sub.
  unfold ea_param_defaults. rewrite set_ea_select, set_ea_param_set_select_size, set_ea_param_set_theta, set_ea_param_set_lambda, set_ea_param_set_p_crossover, set_ea_param_set_subsumption, set_ea_param_set_err_reduc, set_ea_param_set_fit_reduc, set_ea_param_set_pred_reset. reflexivity.
Qed.

(** ** The file name *)
Lemma strnlen_arr s r n : plain s -> strnlen (arr s r) n = Ok (Nat.min (String.length s) n).
Proof.
  revert s. induction n as [|n IH]; intros s Hs; [rewrite Nat.min_0_r; reflexivity|].
  destruct s as [|c s]; [reflexivity|]. cbn -[Ascii.eqb nul Nat.min]. destruct (Ascii.eqb_spec c nul) as [->|E]; [exfalso; apply Hs; left; reflexivity|].
  fold (chars s). fold (arr s r). rewrite IH by (intro H; apply Hs; right; exact H). cbn [obind]. f_equal.
Qed.
Lemma strncpy_arr s r : plain s -> strncpy (arr s r) (Datatypes.S (String.length s)) = Ok (chars s ++ [nul]).
Proof.
  induction s as [|c s IH]; intros Hs; [reflexivity|].
  change (strncpy (arr (String c s) r) (Datatypes.S (String.length (String c s)))) with
    (if Ascii.eqb c nul then Ok (repeat nul (Datatypes.S (String.length (String c s)))) else (m <- strncpy (arr s r) (Datatypes.S (String.length s)) ;; Ok (c :: m))%out).
  destruct (Ascii.eqb_spec c nul) as [->|E]; [exfalso; apply Hs; left; reflexivity|].
  rewrite IH by (intro H; apply Hs; right; exact H). reflexivity.
Qed.
Lemma strncpy_cut s r n : plain s -> (n <= String.length s)%nat -> exists f, strncpy (arr s r) n = Ok f /\ ~ In nul f /\ List.length f = n.
Proof.
  revert s. induction n as [|n IH]; intros s Hs Hl; [exists []; split; [reflexivity|split; [intros []|reflexivity]]|].
  destruct s as [|c s]; [cbn in Hl; lia|].
  change (strncpy (arr (String c s) r) (Datatypes.S n)) with
    (if Ascii.eqb c nul then Ok (repeat nul (Datatypes.S n)) else (m <- strncpy (arr s r) n ;; Ok (c :: m))%out).
  destruct (Ascii.eqb_spec c nul) as [->|E]; [exfalso; apply Hs; left; reflexivity|].
  destruct (IH s) as (f & -> & Hf & Ln); [intro H; apply Hs; right; exact H|cbn in Hl; lia|].
  exists (c :: f). split; [reflexivity|]. split; [intros [W|W]; [congruence|contradiction]|cbn; lia].
Qed.
(** The system with a new file name. *)
Definition with_file (x : sys) (f : list ascii) : sys := mkSys (ints x) (dbls x) (bools x) f (loss_code x) (seed x).
Lemma file_setter_ok x s rest : plain s -> (String.length s <= MAX_LEN)%nat ->
  param_set_population_file x (arr s rest) = Ok (true, with_file x (arr s [])).
Proof.
  intros Hs Hl. unfold param_set_population_file. rewrite strnlen_arr by exact Hs. cbn [obind].
  rewrite Nat.min_l by lia. rewrite strncpy_arr by exact Hs. reflexivity.
Qed.
Lemma file_setter_long x s rest : plain s -> (MAX_LEN < String.length s)%nat ->
  exists f, param_set_population_file x (arr s rest) = Ok (true, with_file x f) /\ ~ In nul f.
Proof.
  intros Hs Hl. unfold param_set_population_file. rewrite strnlen_arr by exact Hs. cbn [obind].
  rewrite Nat.min_r by lia. destruct (strncpy_cut s rest (Datatypes.S MAX_LEN) Hs) as (f & -> & Hf & _); [lia|].
  exists f. split; [reflexivity|exact Hf].
Qed.

(** ** Connection with the theorems about populations *)

(** The configuration used by the population model (Pop.v), read from the parameters; [K0] supplies what is not a
    parameter: the mathematical library, the loss functions, fuel. *)
Definition cfg_of (x : sys) (K0 : cfg) : option cfg :=
  match ints x i_N_ACTIONS, ints x i_X_DIM, ints x i_Y_DIM, ints x i_POP_SIZE, ints x i_THETA_DEL, ints x i_M_PROBATION, ints x i_THETA_SUB, ints x i_TELETRANSPORTATION with
  | Some na, Some xd, Some yd, Some ps, Some td, Some mp, Some ts, Some tp =>
    match dbls x d_ALPHA, dbls x d_BETA, dbls x d_DELTA, dbls x d_E0, dbls x d_INIT_ERROR, dbls x d_INIT_FITNESS, dbls x d_NU, dbls x d_GAMMA, dbls x d_P_EXPLORE with
    | Some al, Some be, Some de, Some e0, Some ie, Some ifi, Some nu, Some ga, Some pe =>
      match bools x b_POP_INIT, bools x b_SET_SUBSUMPTION, bools x b_COMPACTION, ints x i_EA_SELECT_TYPE, dbls x d_EA_SELECT_SIZE, dbls x d_EA_THETA, ints x i_EA_LAMBDA,
            bools x b_EA_SUBSUMPTION, bools x b_EA_PRED_RESET, dbls x d_EA_ERR_REDUC, dbls x d_EA_FIT_REDUC with
      | Some pi, Some ss, Some co, Some st, Some sz, Some th, Some la, Some es, Some pr, Some er, Some fr =>
          Some (mkCfg na xd yd ps td mp ts tp al be de e0 ie ifi nu ga pe pi ss co (st =? 1) sz th la es pr er fr
                  (loss_ptr K0) (lm K0) (loop_fuel K0) (vla0_is_ub K0))
      | _, _, _, _, _, _, _, _, _, _, _ => None
      end
    | _, _, _, _, _, _, _, _, _ => None
    end
  | _, _, _, _, _, _, _, _ => None
  end.

Lemma from0_fpos v : from0 v -> fpos v.
Proof.
  intros [(F & H)| ->]; [|reflexivity]. apply fpos_of_X; [apply fin_nn, F|]. rewrite X_finite by exact F. exact H.
Qed.
(** A configuration made by setters meets the assumptions of the population theorems, once the initial fitness is
    positive and at most 2^kf and the fitness reduction positive. *)
Lemma in_range_cfg x K0 kf : in_range x -> 0 <= kf <= 400 -> pow_ok (m_pow (lm K0)) ->
  (forall v, dbls x d_INIT_FITNESS = Some v -> fin_p (bpow radix2 kf) v) ->
  (forall v, dbls x d_EA_FIT_REDUC = Some v -> fin_p 1 v) ->
  exists K, cfg_of x K0 = Some K /\ cfg_ok K kf.
Proof.
  intros (HI & HD & HB & _) Hk Hp Hf Hr.
  unfold cfg_of.
  destruct (HI i_N_ACTIONS) as (v_N_ACTIONS & E_N_ACTIONS & M_N_ACTIONS & R_N_ACTIONS). cbn in R_N_ACTIONS. rewrite E_N_ACTIONS.
  destruct (HI i_X_DIM) as (v_X_DIM & E_X_DIM & M_X_DIM & R_X_DIM). cbn in R_X_DIM. rewrite E_X_DIM.
  destruct (HI i_Y_DIM) as (v_Y_DIM & E_Y_DIM & M_Y_DIM & R_Y_DIM). cbn in R_Y_DIM. rewrite E_Y_DIM.
  destruct (HI i_POP_SIZE) as (v_POP_SIZE & E_POP_SIZE & M_POP_SIZE & R_POP_SIZE). cbn in R_POP_SIZE. rewrite E_POP_SIZE.
  destruct (HI i_THETA_DEL) as (v_THETA_DEL & E_THETA_DEL & M_THETA_DEL & R_THETA_DEL). cbn in R_THETA_DEL. rewrite E_THETA_DEL.
  destruct (HI i_M_PROBATION) as (v_M_PROBATION & E_M_PROBATION & M_M_PROBATION & R_M_PROBATION). cbn in R_M_PROBATION. rewrite E_M_PROBATION.
  destruct (HI i_THETA_SUB) as (v_THETA_SUB & E_THETA_SUB & M_THETA_SUB & R_THETA_SUB). cbn in R_THETA_SUB. rewrite E_THETA_SUB.
  destruct (HI i_TELETRANSPORTATION) as (v_TELETRANSPORTATION & E_TELETRANSPORTATION & M_TELETRANSPORTATION & R_TELETRANSPORTATION). cbn in R_TELETRANSPORTATION. rewrite E_TELETRANSPORTATION.
  destruct (HI i_EA_SELECT_TYPE) as (v_EA_SELECT_TYPE & E_EA_SELECT_TYPE & M_EA_SELECT_TYPE & R_EA_SELECT_TYPE). cbn in R_EA_SELECT_TYPE. rewrite E_EA_SELECT_TYPE.
  destruct (HI i_EA_LAMBDA) as (v_EA_LAMBDA & E_EA_LAMBDA & M_EA_LAMBDA & R_EA_LAMBDA). cbn in R_EA_LAMBDA. rewrite E_EA_LAMBDA.
  destruct (HD d_ALPHA) as (v_ALPHA & E_ALPHA & R_ALPHA). cbn in R_ALPHA. rewrite E_ALPHA.
  destruct (HD d_BETA) as (v_BETA & E_BETA & R_BETA). cbn in R_BETA. rewrite E_BETA.
  destruct (HD d_DELTA) as (v_DELTA & E_DELTA & R_DELTA). cbn in R_DELTA. rewrite E_DELTA.
  destruct (HD d_E0) as (v_E0 & E_E0 & R_E0). cbn in R_E0. rewrite E_E0.
  destruct (HD d_INIT_ERROR) as (v_INIT_ERROR & E_INIT_ERROR & R_INIT_ERROR). cbn in R_INIT_ERROR. rewrite E_INIT_ERROR.
  destruct (HD d_INIT_FITNESS) as (v_INIT_FITNESS & E_INIT_FITNESS & R_INIT_FITNESS). cbn in R_INIT_FITNESS. rewrite E_INIT_FITNESS.
  destruct (HD d_NU) as (v_NU & E_NU & R_NU). cbn in R_NU. rewrite E_NU.
  destruct (HD d_GAMMA) as (v_GAMMA & E_GAMMA & R_GAMMA). cbn in R_GAMMA. rewrite E_GAMMA.
  destruct (HD d_P_EXPLORE) as (v_P_EXPLORE & E_P_EXPLORE & R_P_EXPLORE). cbn in R_P_EXPLORE. rewrite E_P_EXPLORE.
  destruct (HD d_EA_SELECT_SIZE) as (v_EA_SELECT_SIZE & E_EA_SELECT_SIZE & R_EA_SELECT_SIZE). cbn in R_EA_SELECT_SIZE. rewrite E_EA_SELECT_SIZE.
  destruct (HD d_EA_THETA) as (v_EA_THETA & E_EA_THETA & R_EA_THETA). cbn in R_EA_THETA. rewrite E_EA_THETA.
  destruct (HD d_EA_ERR_REDUC) as (v_EA_ERR_REDUC & E_EA_ERR_REDUC & R_EA_ERR_REDUC). cbn in R_EA_ERR_REDUC. rewrite E_EA_ERR_REDUC.
  destruct (HD d_EA_FIT_REDUC) as (v_EA_FIT_REDUC & E_EA_FIT_REDUC & R_EA_FIT_REDUC). cbn in R_EA_FIT_REDUC. rewrite E_EA_FIT_REDUC.
  destruct (HB b_POP_INIT) as (v_POP_INIT & E_POP_INIT); [discriminate|]. rewrite E_POP_INIT.
  destruct (HB b_SET_SUBSUMPTION) as (v_SET_SUBSUMPTION & E_SET_SUBSUMPTION); [discriminate|]. rewrite E_SET_SUBSUMPTION.
  destruct (HB b_COMPACTION) as (v_COMPACTION & E_COMPACTION); [discriminate|]. rewrite E_COMPACTION.
  destruct (HB b_EA_SUBSUMPTION) as (v_EA_SUBSUMPTION & E_EA_SUBSUMPTION); [discriminate|]. rewrite E_EA_SUBSUMPTION.
  destruct (HB b_EA_PRED_RESET) as (v_EA_PRED_RESET & E_EA_PRED_RESET); [discriminate|]. rewrite E_EA_PRED_RESET.
  eexists. split; [reflexivity|]. constructor; cbn; auto; try lia; try (apply from0_fpos; assumption); try (apply from0_fpos; left; unfold in01 in *; intuition; fail).
Qed.

Lemma calls_in_range x x' : in_range x -> clos_refl_trans _ call x x' -> in_range x'.
Proof. intros H C. induction C; eauto using call_in_range. Qed.
Lemma from_defaults x xd yd na y z : 1 <= xd <= int_max -> 1 <= yd <= int_max -> 1 <= na <= int_max ->
  param_init x xd yd na = Ok y -> clos_refl_trans _ call y z -> in_range z.
Proof.
  intros Hx Hy Hn E C. destruct (param_init_ok x xd yd na Hx Hy Hn) as (y' & E' & R & _). rewrite E' in E. injection E as <-.
  exact (calls_in_range _ _ R C).
Qed.
Lemma clamp_silent : exists x a, is_nan a = false /\ ~ in01 a /\ dbls (cond_param_set_eta x a) d_COND_ETA = Some f1 /\ dbls x d_COND_ETA = Some f0.
Proof.
  exists (mkSys (fun _ => None) (fun _ => Some f0) (fun _ => None) [] None None), (of_Z 2).
  split; [vm_compute; reflexivity|]. split; [intros H; apply cmp01 in H; [|vm_compute; reflexivity]; vm_compute in H; discriminate H|].
  split; [|reflexivity]. unfold cond_param_set_eta.
  assert (E : flt (of_Z 2) f0 = false) by (vm_compute; reflexivity). assert (G : fgt (of_Z 2) f1 = true) by (vm_compute; reflexivity). rewrite E, G. reflexivity.
Qed.
Lemma type_unchecked : forall x, ints (cond_param_set_type x 8) i_COND_TYPE = Some 8 /\ condition_type_as_string 8 = Exit.
Proof. intros x. split; reflexivity. Qed.
