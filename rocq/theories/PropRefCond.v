(** * Counterexamples to properties of conditions (C21, C24). *)
From Coq Require Import ZArith Bool List Reals Lia Lra.
From Flocq Require Import Core BinarySingleNaN.
From Verif Require Import Outcome F64 F64Facts F64Bounds Rng RngFacts Pop PopSpec Arr ArrFacts Cond SamFacts TernFacts RectFacts EllipFacts Demo.
Import ListNotations.
Open Scope Z_scope.

Lemma demo_libm_ok : libm_ok demo_lm.
Proof.
  assert (H : fin_in 0 1 fhalf) by (apply fle_01_in; reflexivity).
  split; cbn [m_log m_cos m_sin m_exp demo_lm].
  - intros _ _ _. split; [reflexivity|]. change (B2R (fneg f1)) with (IZR (Zaux.cond_Zopp true (Zpos (4503599627370496))) * bpow radix2 (-52))%R.
    change (bpow radix2 (-52)) with (/ IZR (2 ^ 52))%R. change (Zaux.cond_Zopp true (Zpos 4503599627370496)) with (- (2 ^ 52)). rewrite opp_IZR.
    rewrite Ropp_mult_distr_l_reverse, Rinv_r by (apply not_0_IZR; discriminate). lra.
  - intros _ _. destruct H as (F & B). split; [exact F|lra].
  - intros _ _. destruct H as (F & B). split; [exact F|lra].
  - intros _ _. reflexivity.
Qed.

(** Nothing bounds the number of bits from above (cond_param_set_bits); with 32 the
    conversion of the scaled input to an int is undefined. *)
Definition wide (bits : Z) : cpar := mkCpar COND_TYPE_TERNARY f0 f1 f0 fhalf (lit 1 10) bits (lit 8 10).
Definition blank_tern (bits : Z) : ternary := mkTernary (repeat DONT_CARE (Z.to_nat (2 * bits))) [fhalf].
Lemma pow_wide k : feq f2 f2 && fge (of_Z k) f1 = true -> to_int (of_Z k) = Some k -> m_pow (lm K2) f2 (of_Z k) = of_Z (2 ^ k).
Proof. intros E1 E2. change (m_pow (lm K2)) with demo_pow. unfold demo_pow. rewrite E1, E2. reflexivity. Qed.
Lemma C21_wide_lemma : exists K P c x, x_dim K = 2 /\ cp_bits P = 32 /\
  m_pow (lm K) f2 (of_Z 32) = of_Z (2 ^ 32) /\ wf_tern K P c /\ len x = 2 /\ Forall (fin_in 0 1) x /\
  ternary_match K P c x = UB BadCast.
Proof.
  exists K2, (wide 32), (blank_tern 32), [fhalf; f0]. split; [reflexivity|]. split; [reflexivity|]. split; [apply pow_wide; vm_compute; reflexivity|].
  split; [|split; [reflexivity|split; [|vm_compute; reflexivity]]].
  - split; [reflexivity|]. split; [|reflexivity]. cbn [blank_tern t_string]. apply Forall_forall. intros t H. apply repeat_spec in H. subst t.
    unfold trit. auto.
  - unfold app, e_center, e_spread; repeat (apply Forall_nil || (apply Forall_cons; [apply fle_01_in; vm_compute; reflexivity|])).
Qed.
Lemma C21_nan_lemma : exists K P c x, x_dim K = 2 /\ 1 <= cp_bits P <= 31 /\
  m_pow (lm K) f2 (of_Z (cp_bits P)) = of_Z (2 ^ cp_bits P) /\ wf_tern K P c /\ len x = 2 /\
  ternary_match K P c x = UB BadCast.
Proof.
  exists K2, (wide 2), (blank_tern 2), [B754_nan; f0]. cbn [wide cp_bits]. split; [reflexivity|]. split; [lia|]. split; [apply pow_wide; vm_compute; reflexivity|].
  split; [|split; [reflexivity|vm_compute; reflexivity]].
  split; [reflexivity|]. split; [|reflexivity]. cbn [blank_tern t_string]. apply Forall_forall. intros t H. apply repeat_spec in H. subst t.
  unfold trit. auto.
Qed.

(** The test looks at the tips of the axes only. *)
Definition big : ellip := mkEllip [f0; f0] [f1; f1] [fhalf].
Definition tall : ellip := mkEllip [lit 58 100; f0] [lit 4 10; lit 8 10] [fhalf].
Lemma C24_refuted_lemma : exists K c1 c2 x, x_dim K = 2 /\ wf_ellip K c1 /\ wf_ellip K c2 /\ len x = 2 /\
  Forall (fin_in 0 1) (e_center c1 ++ e_spread c1 ++ e_center c2 ++ e_spread c2 ++ x) /\
  ellip_general K c1 c2 = Ok true /\ ellip_match K c2 x = Ok true /\ ellip_match K c1 x = Ok false.
Proof.
  exists K2, big, tall, [lit 86 100; lit 56 100]. split; [reflexivity|]. do 2 (split; [repeat split|]). split; [reflexivity|].
  split; [unfold app, e_center, e_spread; repeat (apply Forall_nil || (apply Forall_cons; [apply fle_01_in; vm_compute; reflexivity|]))|]. repeat split; vm_compute; reflexivity.
Qed.
(** A covered ellipsoid of zero extent does not match: 0/0 is not less than 1. *)
Definition flat : cpar := mkCpar COND_TYPE_HYPERELLIPSOID f0 f1 f1 fhalf f0 2 (lit 8 10).
Lemma C24_flat_lemma : exists K P c x g c' g', x_dim K = 2 /\ fpos (cp_spread_min P) /\ is_finite (cp_spread_min P) = true /\
  is_finite (spread_max P) = true /\ wf_ellip K c /\ len x = 2 /\ Forall (fin_in 0 1) x /\
  ellip_cover K P c x g = Ok (c', g') /\ ellip_match K c' x = Ok false.
Proof.
  assert (H : match ellip_cover K2 flat big [fhalf; fhalf] (demo_rng 1) with Ok (c', _) => ellip_match K2 c' [fhalf; fhalf] | _ => Ok true end = Ok false)
    by (vm_compute; reflexivity).
  destruct (ellip_cover K2 flat big [fhalf; fhalf] (demo_rng 1)) as [(c' & g')| | |] eqn:E; try discriminate.
  exists K2, flat, big, [fhalf; fhalf], (demo_rng 1), c', g'. split; [reflexivity|]. do 3 (split; [reflexivity|]).
  split; [repeat split|]. split; [reflexivity|]. split; [repeat (apply Forall_nil || (apply Forall_cons; [apply fle_01_in; vm_compute; reflexivity|]))|].
  split; assumption.
Qed.

(** Two circles around (1/2, 1/2). *)
From Verif Require Import PropBox.
Definition circle (r : f64) : ellip := mkEllip [fhalf; fhalf] [r; r] [fhalf].
Lemma circles : wider K2 (circle f1) (circle fhalf).
Proof.
  split; [reflexivity|]. intros i Hi. change (x_dim K2) with 2 in Hi.
  assert (i = 0 \/ i = 1) as [-> | ->] by lia; cbv zeta; cbn [circle e_spread at_ nth Z.to_nat Pos.to_nat Pos.iter_op Nat.add];
    (split; [reflexivity|split; [reflexivity|]]); change (0 < B2R fhalf <= B2R f1)%R; rewrite f1_R, fhalf_R; lra.
Qed.
