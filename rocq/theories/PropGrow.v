(** * Conditions, actions and mutation rates under any sequence of operators (C25-C27). *)
From Coq Require Import ZArith Bool List Lia Reals Lra.
From Flocq Require Import Core BinarySingleNaN.
From Verif Require Import Outcome F64 F64Facts F64Bounds Rng RngFacts Pop PopSpec Arr ArrFacts Sam SamFacts Cond TernFacts RectFacts EllipFacts PredFacts.
Import ListNotations.
Open Scope Z_scope.

Section Grow.
Context (K : cfg) (P : cpar) (HX : 1 <= x_dim K) (LO : libm_ok (lm K)).
Notation xd := (x_dim K).
Notation SR := (src_normal_ok (lm K) LO).
Notation rtg := (rt gen_ok).

Lemma exp_pos z : normal_ok z -> fle f0 (m_exp (lm K) (fadd (fmul z f1) f0)) = true.
Proof.
  intros (F & B). apply (lo_exp _ LO).
  assert (B64 : (64 < bnd)%R) by (apply (lt_bnd 64); lia).
  destruct (fmul_R z f1 F f1_fin) as (F1 & E1).
  { rewrite f1_R, Rmult_1_r, rnd_B2R. apply Rabs_def1; lra. }
  rewrite f1_R, Rmult_1_r, rnd_B2R in E1.
  destruct (fadd_R (fmul z f1) f0 F1 f0_fin) as (F2 & _); [|exact F2].
  rewrite E1, f0_R, Rplus_0_r, rnd_B2R. apply Rabs_def1; lra.
Qed.
Lemma adapt1 mu : length mu = 1%nat -> Forall rate_ok mu ->
  rtg (sam_adapt (lm K) mu_type1 mu) (fun mu' => length mu' = 1%nat /\ Forall rate_ok mu').
Proof.
  intros L F. exact (sam_adapt_ok gen_ok (lm K) normal_ok SR exp_pos mu_type1 mu scheme1 L F).
Qed.

(** ** C26 *)
Fixpoint sam_adapts (n : nat) (types : list Z) (mu : list f64) : RM (list f64) :=
  match n with O => ret mu | S n => (mu' <- sam_adapt (lm K) types mu ;; sam_adapts n types mu')%rng end.
Lemma C26_lemma n types : Forall scheme_ok types ->
  rtg (mu <- sam_init types ;; sam_adapts n types mu)%rng (fun mu => length mu = length types /\ Forall rate_ok mu).
Proof.
  intros T. eapply rt_bind; [exact (sam_init_ok gen_ok (lm K) normal_ok SR types T)|]. induction n as [|n IH]; intros mu (L & R); [apply rt_ret; auto|].
  cbn [sam_adapts]. eapply rt_bind; [exact (sam_adapt_ok gen_ok (lm K) normal_ok SR exp_pos types mu T L R)|]. exact IH.
Qed.
Lemma C26_step_lemma types mu : Forall scheme_ok types -> length mu = length types -> Forall rate_ok mu ->
  rtg (sam_adapt (lm K) types mu) (fun mu' => length mu' = length types /\ Forall rate_ok mu').
Proof. intros T L F. exact (sam_adapt_ok gen_ok (lm K) normal_ok SR exp_pos types mu T L F). Qed.

(** ** C25, ternary *)
Section T.
Context (HB : 1 <= cp_bits P <= 31) (HP : m_pow (lm K) f2 (of_Z (cp_bits P)) = of_Z (2 ^ cp_bits P)).
Inductive grown_tern : ternary -> Prop :=
| gt_init g c g' : gen_ok g -> ternary_init K P g = Ok (c, g') -> grown_tern c
| gt_copy c : grown_tern c -> grown_tern (ternary_copy c)
| gt_cover c x g c' g' : grown_tern c -> len x = xd -> Forall nn x -> gen_ok g -> ternary_cover K P c x g = Ok (c', g') -> grown_tern c'
| gt_cross1 c1 c2 g d1 d2 ch g' : grown_tern c1 -> grown_tern c2 -> gen_ok g -> ternary_crossover P c1 c2 g = Ok ((d1, d2, ch), g') -> grown_tern d1
| gt_cross2 c1 c2 g d1 d2 ch g' : grown_tern c1 -> grown_tern c2 -> gen_ok g -> ternary_crossover P c1 c2 g = Ok ((d1, d2, ch), g') -> grown_tern d2
| gt_mutate c g d ch g' : grown_tern c -> gen_ok g -> ternary_mutate K c g = Ok ((d, ch), g') -> grown_tern d.

Definition good_tern (c : ternary) : Prop := wf_tern K P c /\ Forall rate_ok (t_mu c).
Lemma tern_init_g : rtg (ternary_init K P) good_tern.
Proof. eapply rt_mono; [exact (ternary_init_ok gen_ok K P normal_ok SR HX HB)|]. intros c (W & _ & R). split; assumption. Qed.
Lemma tern_cover_g c x : good_tern c -> len x = xd -> Forall nn x -> rtg (ternary_cover K P c x) good_tern.
Proof.
  intros (W & R) L N. eapply rt_mono; [exact (ternary_cover_ok gen_ok K P normal_ok SR HX HB HP c x W L N)|].
  intros c' (W' & M & _). split; [exact W'|]. now rewrite M.
Qed.
Lemma tern_cross_g c1 c2 : good_tern c1 -> good_tern c2 -> rtg (ternary_crossover P c1 c2) (fun r => good_tern (fst (fst r)) /\ good_tern (snd (fst r))).
Proof.
  intros (W1 & R1) (W2 & R2). eapply rt_mono; [exact (ternary_crossover_ok gen_ok K P normal_ok SR HX HB c1 c2 W1 W2)|].
  intros ((d1 & d2) & ch) (V1 & V2 & M1 & M2 & _). cbn [fst snd]. unfold good_tern. rewrite M1, M2. auto.
Qed.
Lemma tern_mutate_g c : good_tern c -> rtg (ternary_mutate K c) (fun r => good_tern (fst r)).
Proof.
  intros (W & R). eapply rt_mono; [exact (ternary_mutate_gen gen_ok K P normal_ok SR HX HB (Forall rate_ok) c W (adapt1 _ (proj2 (proj2 W)) R))|].
  intros (d & ch) (W' & R' & _). split; assumption.
Qed.
Ltac runs H E := let a := fresh in let g1 := fresh in let E1 := fresh in let Q := fresh in
  destruct H as (a & g1 & E1 & _ & Q); rewrite E in E1; injection E1 as <- <-; cbn [fst snd] in Q.
Lemma C25_ternary_lemma c : grown_tern c ->
  len (t_string c) = xd * cp_bits P /\ Forall trit (t_string c) /\ length (t_mu c) = 1%nat /\ Forall rate_ok (t_mu c) /\
  (forall x, len x = xd -> Forall nn x -> rtg (ternary_cover K P c x) grown_tern) /\
  (forall c2, grown_tern c2 -> rtg (ternary_crossover P c c2) (fun r => grown_tern (fst (fst r)) /\ grown_tern (snd (fst r)))) /\
  rtg (ternary_mutate K c) (fun r => grown_tern (fst r)).
Proof.
  assert (ALL : forall c, grown_tern c -> good_tern c).
  { intros c0 G. induction G as [g c0 g' J E|c0 G IH|c0 x g c' g' G IH L N J E|c1 c2 g d1 d2 ch g' G1 IH1 G2 IH2 J E|c1 c2 g d1 d2 ch g' G1 IH1 G2 IH2 J E|c0 g d ch g' G IH J E].
    - pose proof (tern_init_g g J) as H. runs H E. assumption.
    - exact IH.
    - pose proof (tern_cover_g c0 x IH L N g J) as H. runs H E. assumption.
    - pose proof (tern_cross_g c1 c2 IH1 IH2 g J) as H. runs H E. tauto.
    - pose proof (tern_cross_g c1 c2 IH1 IH2 g J) as H. runs H E. tauto.
    - pose proof (tern_mutate_g c0 IH g J) as H. runs H E. assumption. }
  intros G. pose proof (ALL c G) as ((L & T & M) & R). repeat (split; [assumption|]). split; [|split].
  - intros x Lx N g J. destruct (tern_cover_g c x (ALL c G) Lx N g J) as (a & g1 & E & J1 & _). exists a, g1. eauto using gt_cover.
  - intros c2 G2 g J. destruct (tern_cross_g c c2 (ALL c G) (ALL c2 G2) g J) as (((d1 & d2) & ch) & g1 & E & J1 & _). exists (d1, d2, ch), g1.
    split; [exact E|]. split; [exact J1|]. cbn [fst snd]. eauto using gt_cross1, gt_cross2.
  - intros g J. destruct (tern_mutate_g c (ALL c G) g J) as ((d & ch) & g1 & E & J1 & _). exists (d, ch), g1. eauto using gt_mutate.
Qed.
End T.
Ltac runs H E := let a := fresh in let g1 := fresh in let E1 := fresh in let Q := fresh in
  destruct H as (a & g1 & E1 & _ & Q); rewrite E in E1; injection E1 as <- <-; cbn [fst snd] in Q.

(** ** Numeric conditions: ranges. *)
Section R.
Hypothesis FMin : is_finite (cp_min P) = true.
Hypothesis FMax : is_finite (cp_max P) = true.
Hypothesis MM : (B2R (cp_min P) <= B2R (cp_max P))%R.
Hypothesis FD : is_finite (fsub (cp_max P) (cp_min P)) = true.
Hypothesis SM : fpos (cp_spread_min P).
Hypothesis SF : is_finite (cp_spread_min P) = true.
Notation inr := (fin_in (B2R (cp_min P)) (B2R (cp_max P))).

Lemma drawn_in v : drawn (cp_min P) (cp_max P) v -> inr v.
Proof. intros (m & ->). exact (uniform_between _ _ _ (draw_fin m) (draw_u m) FMin FMax MM FD). Qed.
Lemma spread_max_fpos : fpos (spread_max P).
Proof. apply fabs_fpos. now apply fin_nn. Qed.
Lemma spread_pos v : drawn (cp_spread_min P) (spread_max P) v -> fpos v.
Proof. intros (m & ->). exact (spread_value _ _ m SM SF spread_max_fpos). Qed.
Lemma clamp_in v : nn v -> inr (clamp v (cp_min P) (cp_max P)).
Proof.
  intros N. unfold clamp. destruct (flt v (cp_min P)) eqn:E1; [split; [exact FMin|lra]|].
  change (fgt v (cp_max P)) with (flt (cp_max P) v). destruct (flt (cp_max P) v) eqn:E2; [split; [exact FMax|lra]|].
  pose proof (fin_nn _ FMin) as N1. pose proof (fin_nn _ FMax) as N2.
  apply flt_X_false in E1; [|assumption..]. apply flt_X_false in E2; [|assumption..]. rewrite (X_finite _ FMin) in E1. rewrite (X_finite _ FMax) in E2.
  assert (F : is_finite v = true).
  { apply nn_X_finite; [exact N|]. pose proof (B2R_bnd (cp_min P)). pose proof (B2R_bnd (cp_max P)). lra. }
  split; [exact F|]. rewrite (X_finite _ F) in E1, E2. lra.
Qed.
(** A normal variate scaled by a mutation rate. *)
Lemma step_fin z m0 : normal_ok z -> rate_ok m0 -> fin_in (-64) 64 (fadd (fmul z m0) f0).
Proof.
  intros (F & B) R. apply rate_R in R. destruct R as (FR & BR). pose proof mu_eps_R as ME.
  assert (B64 : (64 < bnd)%R) by (apply (lt_bnd 64); lia).
  assert (RB : (-64 <= rnd (B2R z * B2R m0) <= 64)%R).
  { split; [apply rnd_ge_fmt; [apply fmt_opp, fmt_64|nra]|apply rnd_le_fmt; [apply fmt_64|nra]]. }
  destruct (fmul_R z m0 F FR) as (F1 & E1); [apply Rabs_def1; lra|].
  destruct (fadd_R (fmul z m0) f0 F1 f0_fin) as (F2 & E2).
  { rewrite E1, f0_R, Rplus_0_r. rewrite (round_generic radix2 fexp64 ZnearestE (rnd _)) by apply fmt_rnd. apply Rabs_def1; lra. }
  split; [exact F2|]. rewrite E2, E1, f0_R, Rplus_0_r. rewrite (round_generic radix2 fexp64 ZnearestE (rnd _)) by apply fmt_rnd. exact RB.
Qed.
Lemma fadd_nn a b : nn a -> is_finite b = true -> nn (fadd a b).
Proof.
  intros N F. destruct (is_finite a) eqn:FA; [exact (proj1 (fadd_fin a b FA F))|].
  destruct a as [s|s| |s m e H]; try discriminate; destruct b as [s'|s'| |s' m' e' H']; try discriminate; destruct s; reflexivity.
Qed.
Lemma nudge_clamp m0 a v : nn a -> rate_ok m0 -> nudged normal_ok (fun v => clamp v (cp_min P) (cp_max P)) m0 a v -> inr v.
Proof. intros N R (z & Zk & ->). apply clamp_in, fadd_nn; [exact N|]. apply (step_fin z m0 Zk R). Qed.
Lemma fmax_eps v : nn v -> nn (fmax dbl_epsilon v) /\ fle dbl_epsilon (fmax dbl_epsilon v) = true.
Proof.
  intros N. unfold fmax. change (is_nan dbl_epsilon) with false. cbn iota. rewrite N.
  destruct (flt dbl_epsilon v) eqn:E; [split; [exact N|now apply flt_fle]|split; reflexivity].
Qed.
Lemma nudge_spread m0 a v : nn a -> rate_ok m0 -> nudged normal_ok (fun v => fmax dbl_epsilon v) m0 a v -> fpos v /\ fle dbl_epsilon v = true.
Proof.
  intros N R (z & Zk & ->). destruct (fmax_eps (fadd a (fadd (fmul z m0) f0))) as (_ & E).
  - apply fadd_nn; [exact N|]. apply (step_fin z m0 Zk R).
  - split; [|exact E]. apply (fle_trans _ dbl_epsilon); [reflexivity|exact E].
Qed.
Lemma rate_first mu : length mu = 1%nat -> Forall rate_ok mu -> rate_ok (at_ f0 mu 0).
Proof. intros L F. destruct mu as [|m []]; try discriminate. inversion F. assumption. Qed.

(** Inputs within the configured range. *)
Definition x_in (x : list f64) : Prop := len x = xd /\ forall i, 0 <= i < xd -> inr (at_ f0 x i).

(** *** Hyperrectangles *)
Notation csr := (cp_type P =? COND_TYPE_HYPERRECTANGLE_CSR).
(** [gr_update] allows the update of the centres only when it is switched off. *)
Inductive grown_rect : rect -> Prop :=
| gr_init g c g' : gen_ok g -> rect_init K P g = Ok (c, g') -> grown_rect c
| gr_copy c d : grown_rect c -> rect_copy K c = Ok d -> grown_rect d
| gr_update c x d : grown_rect c -> flt f0 (cp_eta P) = false -> rect_update K P c x = Ok d -> grown_rect d
| gr_cover c x g c' g' : grown_rect c -> x_in x -> gen_ok g -> rect_cover K P c x g = Ok (c', g') -> grown_rect c'
| gr_cross1 c1 c2 g d1 d2 ch g' : grown_rect c1 -> grown_rect c2 -> gen_ok g -> rect_crossover K P c1 c2 g = Ok ((d1, d2, ch), g') -> grown_rect d1
| gr_cross2 c1 c2 g d1 d2 ch g' : grown_rect c1 -> grown_rect c2 -> gen_ok g -> rect_crossover K P c1 c2 g = Ok ((d1, d2, ch), g') -> grown_rect d2
| gr_mutate c g d ch g' : grown_rect c -> gen_ok g -> rect_mutate K P c g = Ok ((d, ch), g') -> grown_rect d.

(** Centre-spread form: centres in range, spreads not negative; unordered bounds: numbers. *)
Definition ranges (b1 b2 : list f64) : Prop := forall i, 0 <= i < xd ->
  if csr then inr (at_ f0 b1 i) /\ fpos (at_ f0 b2 i) else nn (at_ f0 b1 i) /\ nn (at_ f0 b2 i).
Definition good_rect (c : rect) : Prop := wf_rect K c /\ Forall rate_ok (r_mu c) /\ ranges (r_b1 c) (r_b2 c).

Lemma ranges_nn b1 b2 i : ranges b1 b2 -> 0 <= i < xd -> nn (at_ f0 b1 i) /\ nn (at_ f0 b2 i).
Proof.
  intros R Hi. specialize (R i Hi). destruct csr; [|exact R]. destruct R as (R1 & R2). split; [apply fin_nn, R1|apply fpos_nn, R2].
Qed.
Lemma rect_init_g : rtg (rect_init K P) good_rect.
Proof.
  eapply rt_mono; [exact (rect_init_ok gen_ok K P normal_ok SR HX)|]. intros c (W & I & R). split; [exact W|]. split; [exact R|].
  intros i Hi. destruct (I i Hi) as (A & C). destruct csr; [split; [now apply drawn_in|now apply spread_pos]|].
  split; apply fin_nn; now apply drawn_in.
Qed.
Lemma x_in_nn x i : x_in x -> 0 <= i < xd -> nn (at_ f0 x i).
Proof. intros (_ & R) Hi. apply fin_nn, (R i Hi). Qed.
Lemma half_nn r : fpos r -> fpos (fmul r fhalf).
Proof. apply half_alt. Qed.
Lemma add_pos_nn x r : is_finite x = true -> fpos r -> nn (fadd x r) /\ nn (fsub x r).
Proof.
  intros F Pr. destruct (fpos_cases r Pr) as [(Fr & _)| ->].
  - split; [exact (proj1 (fadd_fin x r F Fr))|exact (proj1 (fsub_fin x r F Fr))].
  - destruct x as [s|s| |s m e H]; try discriminate; split; reflexivity.
Qed.
Lemma rect_cover_g c x : good_rect c -> x_in x -> rtg (rect_cover K P c x) good_rect.
Proof.
  intros (W & R & _) XI. eapply rt_mono; [exact (rect_cover_ok gen_ok K P normal_ok SR HX c x W (proj1 XI))|].
  intros c' (W' & M & C). split; [exact W'|]. split; [now rewrite M|]. intros i Hi. specialize (C i Hi). cbv zeta in C.
  destruct csr.
  - destruct C as (E & S). rewrite E. split; [exact (proj2 XI i Hi)|now apply spread_pos].
  - destruct C as (r1 & r2 & S1 & S2 & -> & ->). pose proof (proj2 XI i Hi) as (F & _).
    split; [apply (add_pos_nn _ (fmul r1 fhalf) F)|apply (add_pos_nn _ (fmul r2 fhalf) F)]; now apply half_nn, spread_pos.
Qed.
Lemma exchanged_ranges a1 a2 b1 b2 p1 p2 q1 q2 : ranges a1 a2 -> ranges b1 b2 ->
  exchanged f0 xd a1 b1 p1 q1 -> exchanged f0 xd a2 b2 p2 q2 -> ranges p1 p2 /\ ranges q1 q2.
Proof.
  intros R1 R2 E1 E2. unfold ranges in *. split; intros i Hi; specialize (R1 i Hi); specialize (R2 i Hi); specialize (E1 i Hi); specialize (E2 i Hi);
    destruct csr, E1 as [(A1 & A2)|(A1 & A2)], E2 as [(A3 & A4)|(A3 & A4)]; rewrite ?A1, ?A2, ?A3, ?A4; tauto.
Qed.
Lemma rect_cross_g c1 c2 : good_rect c1 -> good_rect c2 -> rtg (rect_crossover K P c1 c2) (fun r => good_rect (fst (fst r)) /\ good_rect (snd (fst r))).
Proof.
  intros (W1 & R1 & Q1) (W2 & R2 & Q2). eapply rt_mono; [exact (rect_crossover_ok gen_ok K P normal_ok SR HX c1 c2 W1 W2)|].
  intros ((d1 & d2) & ch) (V1 & V2 & M1 & M2 & E1 & E2 & _). cbn [fst snd].
  destruct (exchanged_ranges _ _ _ _ _ _ _ _ Q1 Q2 E1 E2) as (P1 & P2). unfold good_rect. rewrite M1, M2. auto 10.
Qed.
Definition clamped (c : rect) : Prop := forall i, 0 <= i < xd -> inr (at_ f0 (r_b1 c) i) /\
  if csr then fle dbl_epsilon (at_ f0 (r_b2 c) i) = true else inr (at_ f0 (r_b2 c) i).
Lemma rect_mutate_g c : good_rect c -> rtg (rect_mutate K P c) (fun r => good_rect (fst r) /\ clamped (fst r)).
Proof.
  intros (W & R & Q). eapply rt_mono; [exact (rect_mutate_gen gen_ok K P normal_ok SR HX (Forall rate_ok) c W (adapt1 _ (proj2 (proj2 W)) R))|].
  intros (d & ch) (W' & R' & N & _). cbn [fst]. pose proof (rate_first _ (proj2 (proj2 W')) R') as R0.
  assert (CL : clamped d).
  { intros i Hi. destruct (N i Hi) as (N1 & N2). destruct (ranges_nn _ _ i Q Hi) as (B1 & B2).
    split; [exact (nudge_clamp _ _ _ B1 R0 N1)|]. destruct csr; [exact (proj2 (nudge_spread _ _ _ B2 R0 N2))|exact (nudge_clamp _ _ _ B2 R0 N2)]. }
  split; [|exact CL]. split; [exact W'|]. split; [exact R'|]. intros i Hi. destruct (CL i Hi) as (C1 & C2). destruct csr.
  - split; [exact C1|]. apply (fle_trans _ dbl_epsilon); [reflexivity|exact C2].
  - split; apply fin_nn; [apply C1|apply C2].
Qed.
Lemma grown_good_rect c : grown_rect c -> good_rect c.
Proof.
  intros G. induction G as [g c g' J E|c d G IH E|c x d G IH ET E|c x g c' g' G IH XI J E|c1 c2 g d1 d2 ch g' G1 IH1 G2 IH2 J E|c1 c2 g d1 d2 ch g' G1 IH1 G2 IH2 J E|c g d ch g' G IH J E].
  - pose proof (rect_init_g g J) as H. runs H E. assumption.
  - rewrite (rect_copy_ok K c (proj1 IH)) in E. now injection E as <-.
  - unfold rect_update in E. change (fgt (cp_eta P) f0) with (flt f0 (cp_eta P)) in E. rewrite ET, andb_false_r in E. now injection E as <-.
  - pose proof (rect_cover_g c x IH XI g J) as H. runs H E. assumption.
  - pose proof (rect_cross_g c1 c2 IH1 IH2 g J) as H. runs H E. tauto.
  - pose proof (rect_cross_g c1 c2 IH1 IH2 g J) as H. runs H E. tauto.
  - pose proof (rect_mutate_g c IH g J) as H. runs H E. tauto.
Qed.
Lemma C25_rectangle_lemma c : grown_rect c ->
  len (r_b1 c) = xd /\ len (r_b2 c) = xd /\ length (r_mu c) = 1%nat /\ Forall rate_ok (r_mu c) /\ ranges (r_b1 c) (r_b2 c) /\
  (forall x, x_in x -> rtg (rect_cover K P c x) grown_rect) /\
  (forall c2, grown_rect c2 -> rtg (rect_crossover K P c c2) (fun r => grown_rect (fst (fst r)) /\ grown_rect (snd (fst r)))) /\
  rtg (rect_mutate K P c) (fun r => grown_rect (fst r) /\ clamped (fst r)).
Proof.
  intros G. pose proof (grown_good_rect c G) as ((L1 & L2 & LM) & R & Q). do 5 (split; [assumption|]). split; [|split].
  - intros x XI g J. destruct (rect_cover_g c x (grown_good_rect c G) XI g J) as (a & g1 & E & J1 & _). exists a, g1. eauto using gr_cover.
  - intros c2 G2 g J. destruct (rect_cross_g c c2 (grown_good_rect c G) (grown_good_rect c2 G2) g J) as (((d1 & d2) & ch) & g1 & E & J1 & _).
    exists (d1, d2, ch), g1. split; [exact E|]. split; [exact J1|]. cbn [fst snd]. eauto using gr_cross1, gr_cross2.
  - intros g J. destruct (rect_mutate_g c (grown_good_rect c G) g J) as ((d & ch) & g1 & E & J1 & _ & C). exists (d, ch), g1. eauto 6 using gr_mutate.
Qed.

(** *** Hyperellipsoids *)
Inductive grown_ellip : ellip -> Prop :=
| ge_init g c g' : gen_ok g -> ellip_init K P g = Ok (c, g') -> grown_ellip c
| ge_copy c d : grown_ellip c -> ellip_copy K c = Ok d -> grown_ellip d
| ge_update c x d : grown_ellip c -> flt f0 (cp_eta P) = false -> ellip_update K P c x = Ok d -> grown_ellip d
| ge_cover c x g c' g' : grown_ellip c -> x_in x -> gen_ok g -> ellip_cover K P c x g = Ok (c', g') -> grown_ellip c'
| ge_cross1 c1 c2 g d1 d2 ch g' : grown_ellip c1 -> grown_ellip c2 -> gen_ok g -> ellip_crossover K P c1 c2 g = Ok ((d1, d2, ch), g') -> grown_ellip d1
| ge_cross2 c1 c2 g d1 d2 ch g' : grown_ellip c1 -> grown_ellip c2 -> gen_ok g -> ellip_crossover K P c1 c2 g = Ok ((d1, d2, ch), g') -> grown_ellip d2
| ge_mutate c g d ch g' : grown_ellip c -> gen_ok g -> ellip_mutate K P c g = Ok ((d, ch), g') -> grown_ellip d.
Definition e_ranges (a b : list f64) : Prop := forall i, 0 <= i < xd -> inr (at_ f0 a i) /\ fpos (at_ f0 b i).
Definition good_ellip (c : ellip) : Prop := wf_ellip K c /\ Forall rate_ok (e_mu c) /\ e_ranges (e_center c) (e_spread c).
Lemma ellip_init_g : rtg (ellip_init K P) good_ellip.
Proof.
  eapply rt_mono; [exact (ellip_init_ok gen_ok K P normal_ok SR HX)|]. intros c (W & I & R). split; [exact W|]. split; [exact R|].
  intros i Hi. destruct (I i Hi) as (A & C). split; [now apply drawn_in|now apply spread_pos].
Qed.
Lemma ellip_cover_g c x : good_ellip c -> x_in x -> rtg (ellip_cover K P c x) good_ellip.
Proof.
  intros (W & R & _) XI. eapply rt_mono; [exact (ellip_cover_ok gen_ok K P normal_ok SR HX c x W (proj1 XI))|].
  intros c' (W' & M & C). split; [exact W'|]. split; [now rewrite M|]. intros i Hi. destruct (C i Hi) as (-> & S).
  split; [exact (proj2 XI i Hi)|now apply spread_pos].
Qed.
Lemma ellip_cross_g c1 c2 : good_ellip c1 -> good_ellip c2 -> rtg (ellip_crossover K P c1 c2) (fun r => good_ellip (fst (fst r)) /\ good_ellip (snd (fst r))).
Proof.
  intros (W1 & R1 & Q1) (W2 & R2 & Q2). eapply rt_mono; [exact (ellip_crossover_ok gen_ok K P normal_ok SR HX c1 c2 W1 W2)|].
  intros ((d1 & d2) & ch) (V1 & V2 & M1 & M2 & E1 & E2 & _). cbn [fst snd].
  assert (P1 : e_ranges (e_center d1) (e_spread d1) /\ e_ranges (e_center d2) (e_spread d2)).
  { split; intros i Hi; specialize (Q1 i Hi); specialize (Q2 i Hi); specialize (E1 i Hi); specialize (E2 i Hi);
      destruct E1 as [(A1 & A2)|(A1 & A2)], E2 as [(A3 & A4)|(A3 & A4)]; rewrite ?A1, ?A2, ?A3, ?A4; tauto. }
  destruct P1. unfold good_ellip. rewrite M1, M2. auto 10.
Qed.
Definition e_clamped (c : ellip) : Prop := forall i, 0 <= i < xd -> inr (at_ f0 (e_center c) i) /\ fle dbl_epsilon (at_ f0 (e_spread c) i) = true.
Lemma ellip_mutate_g c : good_ellip c -> rtg (ellip_mutate K P c) (fun r => good_ellip (fst r) /\ e_clamped (fst r)).
Proof.
  intros (W & R & Q). eapply rt_mono; [exact (ellip_mutate_gen gen_ok K P normal_ok SR HX (Forall rate_ok) c W (adapt1 _ (proj2 (proj2 W)) R))|].
  intros (d & ch) (W' & R' & N & _). cbn [fst]. pose proof (rate_first _ (proj2 (proj2 W')) R') as R0.
  assert (CL : e_clamped d).
  { intros i Hi. destruct (N i Hi) as (N1 & N2). destruct (Q i Hi) as (B1 & B2).
    split; [exact (nudge_clamp _ _ _ (fin_nn _ (proj1 B1)) R0 N1)|exact (proj2 (nudge_spread _ _ _ (fpos_nn _ B2) R0 N2))]. }
  split; [|exact CL]. split; [exact W'|]. split; [exact R'|]. intros i Hi. destruct (CL i Hi) as (C1 & C2).
  split; [exact C1|]. apply (fle_trans _ dbl_epsilon); [reflexivity|exact C2].
Qed.
Lemma grown_good_ellip c : grown_ellip c -> good_ellip c.
Proof.
  intros G. induction G as [g c g' J E|c d G IH E|c x d G IH ET E|c x g c' g' G IH XI J E|c1 c2 g d1 d2 ch g' G1 IH1 G2 IH2 J E|c1 c2 g d1 d2 ch g' G1 IH1 G2 IH2 J E|c g d ch g' G IH J E].
  - pose proof (ellip_init_g g J) as H. runs H E. assumption.
  - rewrite (ellip_copy_ok K c (proj1 IH)) in E. now injection E as <-.
  - unfold ellip_update in E. change (fgt (cp_eta P) f0) with (flt f0 (cp_eta P)) in E. rewrite ET in E. now injection E as <-.
  - pose proof (ellip_cover_g c x IH XI g J) as H. runs H E. assumption.
  - pose proof (ellip_cross_g c1 c2 IH1 IH2 g J) as H. runs H E. tauto.
  - pose proof (ellip_cross_g c1 c2 IH1 IH2 g J) as H. runs H E. tauto.
  - pose proof (ellip_mutate_g c IH g J) as H. runs H E. tauto.
Qed.
Lemma C25_ellipsoid_lemma c : grown_ellip c ->
  len (e_center c) = xd /\ len (e_spread c) = xd /\ length (e_mu c) = 1%nat /\ Forall rate_ok (e_mu c) /\ e_ranges (e_center c) (e_spread c) /\
  (forall x, x_in x -> rtg (ellip_cover K P c x) grown_ellip) /\
  (forall c2, grown_ellip c2 -> rtg (ellip_crossover K P c c2) (fun r => grown_ellip (fst (fst r)) /\ grown_ellip (snd (fst r)))) /\
  rtg (ellip_mutate K P c) (fun r => grown_ellip (fst r) /\ e_clamped (fst r)).
Proof.
  intros G. pose proof (grown_good_ellip c G) as ((L1 & L2 & LM) & R & Q). do 5 (split; [assumption|]). split; [|split].
  - intros x XI g J. destruct (ellip_cover_g c x (grown_good_ellip c G) XI g J) as (a & g1 & E & J1 & _). exists a, g1. eauto using ge_cover.
  - intros c2 G2 g J. destruct (ellip_cross_g c c2 (grown_good_ellip c G) (grown_good_ellip c2 G2) g J) as (((d1 & d2) & ch) & g1 & E & J1 & _).
    exists (d1, d2, ch), g1. split; [exact E|]. split; [exact J1|]. cbn [fst snd]. eauto using ge_cross1, ge_cross2.
  - intros g J. destruct (ellip_mutate_g c (grown_good_ellip c G) g J) as ((d & ch) & g1 & E & J1 & _ & C). exists (d, ch), g1. eauto 6 using ge_mutate.
Qed.
End R.

(** ** C27 *)
Context (HN : 1 <= n_actions K <= int_max).
Inductive grown_act : actint -> Prop :=
| ga_init g a g' : gen_ok g -> actint_init K g = Ok (a, g') -> grown_act a
| ga_copy a : grown_act a -> grown_act (actint_copy a)
| ga_cover a n : grown_act a -> 0 <= n < n_actions K -> grown_act (actint_cover a n)
| ga_mutate a g b ch g' : grown_act a -> gen_ok g -> actint_mutate K a g = Ok ((b, ch), g') -> grown_act b.

Lemma C27_lemma a : grown_act a -> 0 <= actint_compute a < n_actions K /\ Forall rate_ok (a_mu a) /\
  rtg (actint_mutate K a) (fun r => 0 <= actint_compute (fst r) < n_actions K).
Proof.
  intros G. assert (W : act_wf K a /\ Forall rate_ok (a_mu a)).
  { induction G as [g a g' J E|a G (W & R)|a n G (W & R) Hn|a g b ch g' G (W & R) J E].
    - destruct (actint_init_ok gen_ok K normal_ok SR HN g J) as (a1 & g1 & E1 & _ & Q). rewrite E in E1. injection E1 as <- <-. exact Q.
    - split; assumption.
    - destruct W as (_ & L). split; [split; assumption|exact R].
    - pose proof (actint_mutate_gen gen_ok K normal_ok SR HN (Forall rate_ok) a W (adapt1 _ (proj2 W) R)) as M.
      destruct (M g J) as (r & g1 & E1 & _ & Q). rewrite E in E1. injection E1 as <- <-. destruct Q as (W' & R' & _). auto. }
  destruct W as (W & R). split; [exact (proj1 W)|]. split; [exact R|].
  eapply rt_mono; [exact (actint_mutate_gen gen_ok K normal_ok SR HN (Forall rate_ok) a W (adapt1 _ (proj2 W) R))|].
  intros (b & ch) (W' & _). exact (proj1 W').
Qed.
End Grow.

(** ** C27, populations *)
From Verif Require Import PopInv PopRL PopOps PopSeq PropPop.
Section Pop.
Context {B : Type} (FO : Prop) (V : vtab B) (K : cfg) (kf : Z) (wf : B -> Prop) (mt : B -> list f64 -> Prop)
  {dom : list f64 -> Prop} {E : Type} (VE : env E) (einv : E -> Prop).
Hypothesis CO : cfg_ok K kf.
Hypothesis VO : vt_ok (dom := dom) FO V K wf mt.
Hypothesis HT : ea_tournament K = true -> FO.
Hypothesis EO : env_ok (dom := dom) FO K VE einv.
Lemma C27_population_lemma os s : (forall l, s_heap s l = None) -> Forall (op_ok (dom := dom) FO K kf wf einv) os ->
  costs K os <= 2 ^ 53 ->
  hpost FO ((xcsf_init V K ;;; run_ops V K VE os)%m s) (fun _ s' =>
    forall l c, s_heap s' l = Some c -> 0 <= c_action c < n_actions K).
Proof.
  intros HE F LE. apply (life_use FO V K kf wf mt VE einv CO VO HT EO os s _ HE F LE). intros s' G l c Hl.
  exact (ro_action (i_ok (g_inv G) l c Hl)).
Qed.
End Pop.
