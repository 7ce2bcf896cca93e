(** * Self-adaptive mutation rates stay in [MU_EPSILON, 1]. *)
From Coq Require Import ZArith Bool List Lia Reals Lra.
From Flocq Require Import Core BinarySingleNaN.
From Verif Require Import Outcome F64 F64Facts F64Bounds Rng RngFacts Pop PopSpec Arr ArrFacts Sam.
Import ListNotations.
Open Scope Z_scope.

(** What is assumed of log, cos, sin and exp: bounds only, no accuracy. *)
Record libm_ok (lm : libm) : Prop := {
  lo_log : forall u, is_finite u = true -> (0 < B2R u < 1)%R ->
    is_finite (m_log lm u) = true /\ (-1000 <= B2R (m_log lm u) <= 0)%R;
  lo_cos : forall a, is_finite a = true -> is_finite (m_cos lm a) = true /\ (-1 <= B2R (m_cos lm a) <= 1)%R;
  lo_sin : forall a, is_finite a = true -> is_finite (m_sin lm a) = true /\ (-1 <= B2R (m_sin lm a) <= 1)%R;
  lo_exp : forall a, is_finite a = true -> fle f0 (m_exp lm a) = true
}.

(** A normal variate: finite and at most 64 in magnitude. *)
Definition normal_ok (z : f64) : Prop := fin_in (-64) 64 z.
(** The generator's cached variate is one. *)
Definition gen_ok (g : rng) : Prop := r_generate g = true -> normal_ok (r_z1 g).

Definition rate_ok (m : f64) : Prop := fle mu_epsilon m = true /\ fle m f1 = true.

Local Open Scope R_scope.
Lemma fsqrt_in x : is_finite x = true -> 0 <= B2R x <= 2000 -> fin_in 0 64 (fsqrt x).
Proof.
  intros F B. destruct (Bsqrt_correct 53 1024 _ _ mode_NE x) as (E1 & E2 & _).
  change (Bsqrt mode_NE x) with (fsqrt x) in *.
  assert (R64 : fmt64 64) by (apply (format_IZR 64); lia).
  assert (SB : 0 <= sqrt (B2R x) <= 64).
  { split; [apply sqrt_pos|]. rewrite <- (sqrt_square 64) by lra. apply sqrt_le_1_alt. lra. }
  split.
  - rewrite E2. destruct x as [s|s| |s m e H]; cbn in *; try reflexivity; try discriminate.
    destruct s; [|reflexivity]. exfalso.
    pose proof (F2R_lt_0 radix2 (Float radix2 (Zneg m) e) ltac:(cbn; lia)) as L. unfold B2R in B. cbn in B, L. lra.
  - rewrite E1. change (round radix2 (SpecFloat.fexp 53 1024) (round_mode mode_NE) (sqrt (B2R x))) with (rnd (sqrt (B2R x))).
    split; [apply rnd_ge_0; apply SB|apply rnd_le_fmt; [exact R64|apply SB]].
Qed.

Lemma fmt_64 : fmt64 64. Proof. apply (format_IZR 64). lia. Qed.
Lemma fmt_2000 : fmt64 2000. Proof. apply (format_IZR 2000). lia. Qed.
Lemma lt_bnd z : (Z.abs z < 2 ^ 53)%Z -> IZR z < bnd.
Proof.
  intros H. apply Rlt_trans with (IZR (2 ^ 53)); [apply IZR_lt; lia|].
  change (2 ^ 53)%Z with (Zpower radix2 53). rewrite IZR_Zpower by lia. apply bpow_lt. lia.
Qed.

Lemma fin_between lo hi x : is_finite lo = true -> is_finite hi = true ->
  fle lo x = true -> fle x hi = true -> fin_in (B2R lo) (B2R hi) x.
Proof.
  intros Fl Fh H1 H2. destruct (fle_nn _ _ H1) as (N1 & N2). destruct (fle_nn _ _ H2) as (_ & N3).
  apply (fle_X _ _ N1 N2) in H1. apply (fle_X _ _ N2 N3) in H2. rewrite (X_finite lo) in H1 by exact Fl. rewrite (X_finite hi) in H2 by exact Fh.
  assert (F : is_finite x = true).
  { apply nn_X_finite; [exact N2|]. pose proof (B2R_bnd lo). pose proof (B2R_bnd hi). lra. }
  rewrite X_finite in H1, H2 by exact F. split; [exact F|lra].
Qed.

Lemma src_normal_ok lm : libm_ok lm -> src lm gen_ok normal_ok.
Proof.
  intros L. split.
  - intros t p ge z H. exact H.
  - intros mu sigma g G. unfold rand_normal. destruct (r_generate g) eqn:EG.
    + exists (r_z1 g). eexists. split; [|split; [exact (G EG)|reflexivity]]. intros H. discriminate.
    + unfold bind, genrand. cbn [r_tape r_pos].
      set (u1 := draw_value _). set (u2 := draw_value _).
      assert (F1 : is_finite u1 = true) by apply draw_fin. assert (F2 : is_finite u2 = true) by apply draw_fin.
      pose proof (draw_value_01 (r_tape g (r_pos g))) as B1. fold u1 in B1.
      pose proof (draw_value_01 (r_tape g (S (r_pos g)))) as B2. fold u2 in B2.
      destruct (lo_log _ L u1 F1 B1) as (FL & BL).
      assert (RR : fin_in 0 64 (fsqrt (fmul (of_Z (-2)) (m_log lm u1)))).
      { assert (Z2 : (Z.abs (-2) <= 2 ^ 53)%Z) by (cbn; lia). destruct (of_Z_fin (-2) Z2) as (F & E).
        destruct (fmul_in 0 2000 fmt_0 fmt_2000 ltac:(pose proof bnd_pos; lra) (lt_bnd 2000 ltac:(cbn; lia)) (of_Z (-2)) (m_log lm u1) F FL) as (F3 & B3).
        - rewrite E. lra.
        - apply fsqrt_in; assumption. }
      set (r := fsqrt _) in *. destruct RR as (Fr & Br).
      assert (TP : fin_in 0 64 (fmul two_pi u2)).
      { assert (P : fin_in 0 8 two_pi).
        { destruct (of_Z_fin 8 ltac:(cbn; lia)) as (F8 & E8).
          pose proof (fin_between f0 (of_Z 8) two_pi f0_fin F8 eq_refl eq_refl) as H. rewrite f0_R, E8 in H. exact H. }
        destruct P as (FP & BP).
        apply (fmul_in 0 64 fmt_0 fmt_64 ltac:(pose proof bnd_pos; lra) (lt_bnd 64 ltac:(cbn; lia))); try assumption.
        nra. }
      destruct TP as (FT & _).
      assert (PROD : forall c, is_finite c = true -> -1 <= B2R c <= 1 -> normal_ok (fmul r c)).
      { intros c Fc Bc. apply (fmul_in (-64) 64 (fmt_opp _ fmt_64) fmt_64); try assumption;
          try (pose proof (lt_bnd 64 ltac:(cbn; lia)); lra). nra. }
      eexists. eexists. split; [|split; [|reflexivity]].
      * intros _. cbn [r_z1]. apply PROD; apply (lo_sin _ L _ FT).
      * apply PROD; apply (lo_cos _ L _ FT).
Qed.

Lemma mu_eps_R : 0 < B2R mu_epsilon <= 1.
Proof.
  pose proof (proj1 (flt_X f0 mu_epsilon eq_refl eq_refl) eq_refl) as H1.
  pose proof (proj1 (fle_X mu_epsilon f1 eq_refl eq_refl) eq_refl) as H2.
  rewrite X_f0, X_finite in H1 by reflexivity. rewrite X_f1, X_finite in H2 by reflexivity. lra.
Qed.
Lemma mu_eps_fin : is_finite mu_epsilon = true. Proof. reflexivity. Qed.

Lemma rate_R m : rate_ok m <-> fin_in (B2R mu_epsilon) 1 m.
Proof.
  split.
  - intros (H1 & H2). destruct (fle_nn _ _ H1) as (N1 & N2). apply (fle_X _ _ N1 N2) in H1. apply (fle_X _ _ N2 nn_f1) in H2.
    rewrite X_f1 in H2. rewrite (X_finite mu_epsilon) in H1 by reflexivity. pose proof mu_eps_R.
    assert (F : is_finite m = true) by (apply nn_X_finite; [exact N2|]; pose proof one_lt_bnd; lra).
    rewrite X_finite in H1, H2 by exact F. split; [exact F|lra].
  - intros (F & B). split; apply fle_X; try (apply fin_nn; assumption); try reflexivity; try apply nn_f1.
    + rewrite !X_finite by (assumption || reflexivity). lra.
    + rewrite X_f1, X_finite by assumption. lra.
Qed.

Lemma rate_clamp v : nn v -> rate_ok (clamp v mu_epsilon f1).
Proof.
  intros N. unfold clamp. destruct (flt v mu_epsilon) eqn:E1.
  - split; [apply fle_refl; reflexivity|]. apply fle_X; try reflexivity. rewrite X_f1, X_finite by reflexivity. apply mu_eps_R.
  - unfold fgt. fold (flt f1 v). destruct (flt f1 v) eqn:E2.
    + split; [|apply fle_refl; reflexivity]. apply fle_X; try reflexivity. rewrite X_f1, X_finite by reflexivity. apply mu_eps_R.
    + split; apply flt_false_fle; try assumption; try reflexivity.
Qed.

Lemma rate_uniform m : rate_ok (fadd mu_epsilon (fmul (draw_value m) (fsub f1 mu_epsilon))).
Proof.
  apply rate_R. destruct (uniform_between (draw_value m) mu_epsilon f1 (draw_fin m) (draw_u m)) as (F & B); try reflexivity.
  - rewrite f1_R. apply mu_eps_R.
  - rewrite f1_R in B. split; assumption.
Qed.

Lemma mrates_ok : Forall rate_ok mrates.
Proof. repeat constructor. Qed.

Local Open Scope Z_scope.
Section Sam.
Context (J : rng -> Prop) (lm : libm) (Zok : f64 -> Prop) (SR : src lm J Zok).
Hypothesis EX : forall z, Zok z -> fle f0 (m_exp lm (fadd (fmul z f1) f0)) = true.
Notation rt := (rt J).

Definition scheme_ok (t : Z) : Prop := t = SAM_LOG_NORMAL \/ t = SAM_RATE_SELECT \/ t = SAM_UNIFORM.

Lemma pick_rate_ok : rt pick_rate rate_ok.
Proof.
  eapply rt_bind; [apply (rt_uniform_int J lm Zok SR 10); unfold int_max; lia|]. intros i Hi.
  cbv beta in Hi. assert (L : len mrates = 10) by reflexivity.
  eapply rt_lift; [apply (rd_ok f0); lia|].
  apply (proj1 (Forall_at rate_ok f0 mrates) mrates_ok i). lia.
Qed.
Lemma sam_init1_ok t : scheme_ok t -> rt (sam_init1 t) rate_ok.
Proof.
  intros [-> |[-> | ->]]; unfold sam_init1; cbn [Z.eqb orb SAM_LOG_NORMAL SAM_RATE_SELECT SAM_UNIFORM].
  - eapply rt_mono; [apply (rt_uniform J lm Zok SR)|]. intros a (m & ->). apply rate_uniform.
  - apply pick_rate_ok.
  - eapply rt_mono; [apply (rt_uniform J lm Zok SR)|]. intros a (m & ->). apply rate_uniform.
Qed.
Lemma sam_init_ok types : Forall scheme_ok types -> rt (sam_init types) (fun mu => length mu = length types /\ Forall rate_ok mu).
Proof.
  induction 1 as [|t ts Ht _ IH]; cbn [sam_init].
  - apply rt_ret. split; constructor.
  - eapply rt_bind; [apply sam_init1_ok, Ht|]. intros m Hm. eapply rt_bind; [exact IH|]. intros ms (L & F).
    apply rt_ret. split; [cbn; congruence|constructor; assumption].
Qed.
Lemma sam_adapt1_ok t m : scheme_ok t -> rate_ok m -> rt (sam_adapt1 lm t m) rate_ok.
Proof.
  intros [-> |[-> | ->]] Hm; unfold sam_adapt1; cbn [Z.eqb orb SAM_LOG_NORMAL SAM_RATE_SELECT SAM_UNIFORM].
  - eapply rt_bind; [apply (rt_normal J lm Zok SR)|]. intros z (z' & Hz & ->). apply rt_ret. apply rate_clamp.
    pose proof (EX z' Hz) as E. apply rate_R in Hm. destruct Hm as (F & B). pose proof mu_eps_R.
    destruct (fpos_cases _ E) as [(FE & BE)| ->].
    + apply (fmul_fin _ _ F FE).
    + destruct m as [s|s| |s mm e HH]; try discriminate; [cbn in B; lra|reflexivity].
  - eapply rt_bind; [apply (rt_uniform J lm Zok SR)|]. intros u _. destruct (flt u (lit 1 10)); [apply pick_rate_ok|apply rt_ret, Hm].
  - eapply rt_bind; [apply (rt_uniform J lm Zok SR)|]. intros u _. destruct (flt u (lit 1 10)); [|apply rt_ret, Hm].
    eapply rt_mono; [apply (rt_uniform J lm Zok SR)|]. intros a (k & ->). apply rate_uniform.
Qed.
Lemma sam_adapt_ok types : forall mu, Forall scheme_ok types -> length mu = length types -> Forall rate_ok mu ->
  rt (sam_adapt lm types mu) (fun mu' => length mu' = length types /\ Forall rate_ok mu').
Proof.
  induction types as [|t ts IH]; intros mu HT L F; cbn [sam_adapt].
  - apply rt_ret. auto.
  - destruct mu as [|m ms]; [discriminate|]. inversion HT; inversion F; subst. cbn in L.
    eapply rt_bind; [apply sam_adapt1_ok; assumption|]. intros m' Hm. eapply rt_bind; [apply IH; try assumption; congruence|].
    intros ms' (L' & F'). apply rt_ret. split; [cbn; congruence|constructor; assumption].
Qed.
End Sam.

(** Lengths alone, with no assumption on libm or the generator. *)
Section SamLen.
Context (J : rng -> Prop) (lm : libm) (Zok : f64 -> Prop) (SR : src lm J Zok).
Lemma sam_init_len types : Forall scheme_ok types -> rt J (sam_init types) (fun mu => length mu = length types).
Proof.
  intros H. eapply rt_mono; [apply (sam_init_ok J lm Zok SR types H)|]. intros mu (L & _). exact L.
Qed.
Lemma sam_adapt_len types : forall mu, Forall scheme_ok types -> length mu = length types ->
  rt J (sam_adapt lm types mu) (fun mu' => length mu' = length types).
Proof.
  induction types as [|t ts IH]; intros mu HT L; cbn [sam_adapt].
  - apply rt_ret. exact L.
  - destruct mu as [|m ms]; [discriminate|]. inversion HT; subst. cbn in L.
    eapply rt_bind with (P := fun _ => True).
    { destruct H1 as [-> |[-> | ->]]; unfold sam_adapt1; cbn [Z.eqb orb SAM_LOG_NORMAL SAM_RATE_SELECT SAM_UNIFORM].
      - eapply rt_bind; [apply (rt_normal J lm Zok SR)|]. intros z _. now apply rt_ret.
      - eapply rt_bind; [apply (rt_uniform J lm Zok SR)|]. intros u _. destruct (flt u (lit 1 10)); [|now apply rt_ret].
        eapply rt_mono; [apply (pick_rate_ok J lm Zok SR)|trivial].
      - eapply rt_bind; [apply (rt_uniform J lm Zok SR)|]. intros u _. destruct (flt u (lit 1 10)); [|now apply rt_ret].
        eapply rt_mono; [apply (rt_uniform J lm Zok SR)|trivial]. }
    intros m' _. eapply rt_bind; [apply IH; try assumption; congruence|]. intros ms' L'. apply rt_ret. cbn. congruence.
Qed.
End SamLen.
