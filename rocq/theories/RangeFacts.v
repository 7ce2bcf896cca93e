(** * Ranges of activation functions, connected layers and softmax layers, in doubles. *)
From Coq Require Import ZArith Bool List Reals Lia Lra Psatz.
From Flocq Require Import Core BinarySingleNaN.
From Verif Require Import Outcome F64 F64Facts F64Bounds Rng RngFacts Sam SamFacts Pop PopSpec Arr ArrFacts Blas BlasFacts LossFacts Clock Act Image Layer LayerFacts MutFacts PropMut Net NetFacts NetLayer NetChain.
Import ListNotations.
Open Scope Z_scope.

(** [lo <= x <= hi] as the C code would test it; false for NaN. *)
Definition between (lo hi x : f64) : Prop := fle lo x = true /\ fle x hi = true.
Definition unit_range := between f0 f1.
Definition sym_range := between (of_Z (-1)) f1.
Definition state_range := between (of_Z NEURON_MIN) (of_Z NEURON_MAX).

(** What math.h is trusted to do: exp is >= 0 and at most 1 at and below 0; exp 0 is 1;
    tanh, sin and cos stay within [-1,1]; expm1 is in [-1,0] below 0; log1p is >= 0 at and above
    0; and none of them overflows on the range of neuron states. *)
Record range_ok (lm : libm) : Prop := {
  ro_exp : forall x, F64Facts.nn x -> fle f0 (m_exp lm x) = true;
  ro_exp_le : forall x, fle x f0 = true -> fle (m_exp lm x) f1 = true;
  ro_exp_0 : forall x, feq x f0 = true -> feq (m_exp lm x) f1 = true;
  ro_exp_big : forall x, fle x (of_Z 100) = true -> fle (m_exp lm x) (of_Z (2 ^ 145)) = true;
  ro_tanh : forall x, F64Facts.nn x -> sym_range (m_tanh lm x);
  ro_sin : forall x, is_finite x = true -> sym_range (m_sin lm x);
  ro_cos : forall x, is_finite x = true -> sym_range (m_cos lm x);
  ro_expm1_neg : forall x, fle x f0 = true -> between (of_Z (-1)) f0 (m_expm1 lm x);
  ro_expm1_pos : forall x, between f0 (of_Z 100) x -> is_finite (m_expm1 lm x) = true;
  ro_log1p : forall x, fle f0 x = true -> fle f0 (m_log1p lm x) = true;
  ro_log1p_big : forall x, between f0 (of_Z (2 ^ 145)) x -> fle (m_log1p lm x) (of_Z 101) = true
}.

(** The range of each activation function. *)
Definition in_range (a : Z) (y : f64) : Prop :=
  if (a =? LOGISTIC) || (a =? GAUSSIAN) then unit_range y
  else if (a =? TANH) || (a =? LOGGY) || (a =? SIN) || (a =? COS) then sym_range y
  else if (a =? RELU) || (a =? SOFT_PLUS) then fle f0 y = true
  else is_nan y = false.

Open Scope R_scope.
Lemma between_fin lo hi x : is_finite lo = true -> is_finite hi = true -> between lo hi x <-> fin_in (B2R lo) (B2R hi) x.
Proof.
  intros L H. split.
  - intros (A & B). pose proof (fle_nn _ _ A) as (N1 & N2). pose proof (fle_nn _ _ B) as (_ & N3).
    apply fle_X in A; [|assumption..]. apply fle_X in B; [|assumption..]. rewrite (X_finite lo L) in A. rewrite (X_finite hi H) in B.
    assert (F : is_finite x = true).
    { apply nn_X_finite; [exact N2|]. pose proof (B2R_bnd lo). pose proof (B2R_bnd hi). lra. }
    split; [exact F|]. rewrite <- (X_finite x F). lra.
  - intros (F & A & B). split; (apply fle_X; [now apply fin_nn..|]); rewrite !X_finite by assumption; assumption.
Qed.
Lemma fin_of_Z z : (Z.abs z <= 2 ^ 53)%Z -> is_finite (of_Z z) = true. Proof. intros H. apply of_Z_fin, H. Qed.
Lemma R_of_Z z : (Z.abs z <= 2 ^ 53)%Z -> B2R (of_Z z) = IZR z. Proof. intros H. apply of_Z_fin, H. Qed.
Lemma between_Z lo hi x : (Z.abs lo <= 2 ^ 53)%Z -> (Z.abs hi <= 2 ^ 53)%Z -> between (of_Z lo) (of_Z hi) x <-> fin_in (IZR lo) (IZR hi) x.
Proof. intros A B. rewrite between_fin by now apply fin_of_Z. now rewrite !R_of_Z. Qed.
Lemma fin_in_imp lo hi lo' hi' x : fin_in lo hi x -> lo' <= lo -> hi <= hi' -> fin_in lo' hi' x.
Proof. intros (A & B & C) D E. split; [exact A|lra]. Qed.
Lemma fmt_Z z : (Z.abs z <= 2 ^ 53)%Z -> fmt64 (IZR z). Proof. apply format_IZR. Qed.
Lemma small_bnd r : Rabs r <= IZR (2 ^ 60) -> - bnd < r < bnd.
Proof.
  intros H. assert (B : IZR (2 ^ 60) < bnd) by (change (2 ^ 60)%Z with (Zpower radix2 60); rewrite IZR_Zpower by lia; apply bpow_lt; lia).
  revert H. unfold Rabs. destruct (Rcase_abs r); lra.
Qed.
Lemma fmt_scaled z k : (Z.abs z <= 2 ^ 53)%Z -> (-1074 <= k)%Z -> fmt64 (IZR z * bpow radix2 k).
Proof.
  intros H K. destruct (Z.eq_dec (Z.abs z) (2 ^ 53)) as [E|E].
  - replace (IZR z * bpow radix2 k) with (IZR (Z.sgn z) * bpow radix2 (53 + k)).
    + assert (D : Z.sgn z = 1%Z \/ Z.sgn z = (-1)%Z) by lia. destruct D as [->| ->].
      * rewrite Rmult_1_l. apply format_bpow. lia.
      * replace (IZR (-1) * bpow radix2 (53 + k)) with (- bpow radix2 (53 + k)) by ring. apply fmt_opp, format_bpow. lia.
    + rewrite bpow_plus. assert (Z0 : z = (Z.sgn z * 2 ^ 53)%Z) by lia. rewrite Z0 at 2. rewrite mult_IZR.
      change (2 ^ 53)%Z with (Zpower radix2 53). rewrite IZR_Zpower by lia. ring.
  - apply generic_format_FLT. exists (Float radix2 z k); [reflexivity|cbn; lia|cbn; lia].
Qed.
(** Operations with whole-number bounds. *)
Lemma Z_bnd z : (Z.abs z <= 2 ^ 53)%Z -> - bnd < IZR z < bnd.
Proof. intros H. apply small_bnd. rewrite <- abs_IZR. apply IZR_le. apply (Z.le_trans _ _ _ H). apply Z.pow_le_mono_r; lia. Qed.
Section ZBounds.
Variables lo hi : Z.
Hypothesis Hlo : (Z.abs lo <= 2 ^ 53)%Z.
Hypothesis Hhi : (Z.abs hi <= 2 ^ 53)%Z.
Lemma addZ x y : is_finite x = true -> is_finite y = true -> IZR lo <= B2R x + B2R y <= IZR hi -> fin_in (IZR lo) (IZR hi) (fadd x y).
Proof. apply fadd_in; try apply fmt_Z; try apply Z_bnd; assumption. Qed.
Lemma subZ x y : is_finite x = true -> is_finite y = true -> IZR lo <= B2R x - B2R y <= IZR hi -> fin_in (IZR lo) (IZR hi) (fsub x y).
Proof. apply fsub_in; try apply fmt_Z; try apply Z_bnd; assumption. Qed.
Lemma mulZ x y : is_finite x = true -> is_finite y = true -> IZR lo <= B2R x * B2R y <= IZR hi -> fin_in (IZR lo) (IZR hi) (fmul x y).
Proof. apply fmul_in; try apply fmt_Z; try apply Z_bnd; assumption. Qed.
Lemma divZ x y : is_finite x = true -> is_finite y = true -> B2R y <> 0 -> IZR lo <= B2R x / B2R y <= IZR hi -> fin_in (IZR lo) (IZR hi) (fdiv x y).
Proof. apply fdiv_in; try apply fmt_Z; try apply Z_bnd; assumption. Qed.
End ZBounds.
Lemma le0_R x : fle x f0 = true -> is_finite x = true -> B2R x <= 0.
Proof. intros H F. apply fle_X in H; [|now apply fin_nn|reflexivity]. rewrite (X_finite x F), X_f0 in H. exact H. Qed.

Section Act.
Context (lm : libm) (RO : range_ok lm).
Notation A := (f64_arith lm).

(** 1 + exp(-x) *)
Lemma denom_ge1 x : is_finite x = true -> F64Facts.nn (fadd f1 (m_exp lm (fneg x))) /\ 1 <= X (fadd f1 (m_exp lm (fneg x))).
Proof.
  intros F. destruct (X_fneg x (fin_nn _ F)) as (N & _). pose proof (ro_exp lm RO _ N) as E. fold (fpos (m_exp lm (fneg x))) in E.
  assert (P1 : fpos f1) by (apply fpos_of_X; [apply nn_f1|rewrite X_f1; lra]).
  pose proof (fadd_ge_l f1 _ P1 E) as G. pose proof (fle_nn _ _ G) as (_ & N2). split; [exact N2|].
  apply fle_X in G; [|apply nn_f1|exact N2]. rewrite X_f1 in G. exact G.
Qed.
Lemma logistic_in x : is_finite x = true -> fin_in 0 1 (logistic_activate A x).
Proof.
  intros F. destruct (denom_ge1 x F) as (N & G). pose proof (fdiv_ge1 1 f1 _ ltac:(split; [apply f1_fin|rewrite f1_R; lra]) N G) as H.
  rewrite f1_R in H. exact H.
Qed.
Lemma loggy_in x : is_finite x = true -> fin_in (-1) 1 (loggy_activate A x).
Proof.
  intros F. destruct (denom_ge1 x F) as (N & G).
  pose proof (fdiv_ge1 2 (of_Z 2) _ ltac:(split; [now apply fin_of_Z|rewrite R_of_Z; [lra|reflexivity || lia]]) N G) as H.
  rewrite R_of_Z in H by lia. destruct H as (H1 & H2). change (loggy_activate A x) with (fsub (fdiv (of_Z 2) (fadd f1 (m_exp lm (fneg x)))) f1). apply (subZ (-1) 1); try lia; [exact H1|apply f1_fin|]. rewrite f1_R. lra.
Qed.
Lemma unit_fin y : fle f0 y = true -> fle y f1 = true -> fin_in 0 1 y.
Proof. intros P Q. apply (between_Z 0 1); [lia..|]. split; assumption. Qed.
Lemma opp_sq_le0 x : is_finite x = true -> fle (fmul (fneg x) x) f0 = true.
Proof.
  intros F. assert (FN : is_finite (fneg x) = true) by (destruct x; (discriminate F || reflexivity)).
  assert (RN : B2R (fneg x) = - B2R x) by apply B2R_Bopp.
  destruct (fmul_fin (fneg x) x FN F) as (N & E). apply fle_X; [exact N|reflexivity|]. rewrite E, X_f0, RN. apply sat_le_0, rnd_le_0. nra.
Qed.
Lemma gaussian_in x : is_finite x = true -> fin_in 0 1 (gaussian_activate A x).
Proof.
  intros F. pose proof (opp_sq_le0 x F) as L. apply unit_fin; [apply (ro_exp lm RO); apply (fle_nn _ _ L)|apply (ro_exp_le lm RO), L].
Qed.
Lemma zero_mul b x : is_finite x = true -> b = of_Z 0 -> is_finite (fmul x b) = true /\ B2R (fmul x b) = 0.
Proof.
  intros F ->. destruct (mulZ 0 0 ltac:(lia) ltac:(lia) x (of_Z 0)) as (P & Q); [exact F|reflexivity|rewrite R_of_Z by lia; lra|]. split; [exact P|lra].
Qed.
Lemma mul_zero b x : is_finite x = true -> b = of_Z 0 -> is_finite (fmul b x) = true /\ B2R (fmul b x) = 0.
Proof.
  intros F ->. destruct (mulZ 0 0 ltac:(lia) ltac:(lia) (of_Z 0) x) as (P & Q); [reflexivity|exact F|rewrite R_of_Z by lia; lra|]. split; [exact P|lra].
Qed.
Lemma mul_one x : is_finite x = true -> is_finite (fmul x f1) = true /\ B2R (fmul x f1) = B2R x.
Proof.
  intros F. destruct (fmul_R x f1 F f1_fin) as (P & Q); rewrite f1_R, Rmult_1_r in *; [|rewrite rnd_B2R in Q; auto].
  rewrite rnd_B2R. pose proof (B2R_bnd x). apply Rabs_def1; lra.
Qed.
Lemma one_mul x : is_finite x = true -> is_finite (fmul f1 x) = true /\ B2R (fmul f1 x) = B2R x.
Proof.
  intros F. destruct (fmul_R f1 x f1_fin F) as (P & Q); rewrite f1_R, Rmult_1_l in *; [|rewrite rnd_B2R in Q; auto].
  rewrite rnd_B2R. pose proof (B2R_bnd x). apply Rabs_def1; lra.
Qed.
(** A rectified value is the value or zero. *)
Lemma relu_in x : is_finite x = true -> is_finite (relu_activate A x) = true /\ B2R (relu_activate A x) = Rmax 0 (B2R x).
Proof.
  intros F. unfold relu_activate, truth. change (a_lt A (a_Z A 0) x) with (flt f0 x). destruct (flt f0 x) eqn:L.
  - apply flt_X in L; [|reflexivity|now apply fin_nn]. rewrite X_f0, (X_finite x F) in L.
    destruct (mul_one x F) as (P & Q). split; [exact P|]. etransitivity; [exact Q|]. rewrite Rmax_right; lra.
  - apply flt_X_false in L; [|reflexivity|now apply fin_nn]. rewrite X_f0, (X_finite x F) in L.
    destruct (zero_mul (of_Z 0) x F eq_refl) as (P & Q). split; [exact P|]. etransitivity; [exact Q|]. rewrite Rmax_left; lra.
Qed.
Lemma tenth_in : fin_in 0 1 (lit 1 10). Proof. apply fle_01_in; vm_compute; reflexivity. Qed.
Lemma leaky_in x b : is_finite x = true -> fmt64 b -> b < bnd -> Rabs (B2R x) <= b -> fin_in (- b) b (leaky_activate A x).
Proof.
  intros F FB BB L. apply Rabs_le_inv in L. unfold leaky_activate. destruct (a_lt A (a_Z A 0) x); [split; [exact F|lra]|].
  destruct tenth_in as (P & Q1 & Q2). apply fmul_in; [now apply fmt_opp|exact FB|lra|lra|exact P|exact F|].
  change (B2R (a_lit A 1 10)) with (B2R (lit 1 10)). nra.
Qed.
Lemma c1_in : fin_in 1 2 (lit 10507 10000) /\ (B2R (lit 10507 10000) <= 120 / 100).
Proof.
  split; [apply (between_Z 1 2); [lia..|split; vm_compute; reflexivity]|].
  assert (H : fle (lit 10507 10000) (lit 9 8) = true) by (vm_compute; reflexivity). apply fle_X in H; [|vm_compute; reflexivity..].
  rewrite !X_finite in H by (vm_compute; reflexivity).
  assert (E : fin_in (9 / 8) (9 / 8) (lit 9 8)).
  { assert (F : fmt64 (9 / 8)) by (replace (9 / 8) with (IZR 9 * bpow radix2 (-3)) by (cbn; lra); apply fmt_scaled; lia).
    assert (B : - bnd < 9 / 8 < bnd) by (apply small_bnd; rewrite Rabs_right; lra).
    apply fdiv_in; try assumption; try tauto; try reflexivity; [rewrite R_of_Z by lia; apply Rgt_not_eq; lra|rewrite !R_of_Z by lia; lra]. }
  destruct E.
  lra.
Qed.
Lemma c12_in : fin_in 1 2 (fmul (fmul f1 (lit 10507 10000)) (lit 16732 10000)).
Proof. apply (between_Z 1 2); [lia..|split; vm_compute; reflexivity]. Qed.
Lemma selu_in x : fin_in (-100) 100 x -> fin_in (-2) 120 (selu_activate A x).
Proof.
  intros (F & L1 & L2). unfold selu_activate, truth.
  change (a_le A (a_Z A 0) x) with (fle f0 x). change (a_lt A x (a_Z A 0)) with (flt x f0).
  change (nadd (a_num A)) with fadd. change (nmul (a_num A)) with fmul. change (a_Z A) with of_Z. change (a_lit A) with lit. change (a_expm1 A) with (m_expm1 lm).
  fold f1. destruct (fle f0 x) eqn:G.
  - assert (P : 0 <= B2R x) by (apply fle_X in G; [|reflexivity|now apply fin_nn]; rewrite X_f0, (X_finite x F) in G; exact G).
    replace (flt x f0) with false by (symmetry; apply flt_X_false; [now apply fin_nn|reflexivity|rewrite X_f0, (X_finite x F); exact P]).
    assert (FE : is_finite (m_expm1 lm x) = true) by (apply (ro_expm1_pos lm RO), (between_Z 0 100); [lia..|split; [exact F|lra]]).
    destruct c1_in as ((C1 & C2 & C3) & C4). destruct (one_mul _ C1) as (D1 & D2). set (k := fmul f1 (lit 10507 10000)) in *.
    assert (M : fin_in 0 120 (fmul k x)) by (apply (mulZ 0 120); try lia; try assumption; rewrite D2; nra).
    assert (Z0 : is_finite (fmul (of_Z 0) (lit 10507 10000)) = true /\ B2R (fmul (of_Z 0) (lit 10507 10000)) = 0) by (apply mul_zero; auto).
    assert (E0 : fmul (fmul (of_Z 0) (lit 10507 10000)) (lit 16732 10000) = of_Z 0) by (vm_compute; reflexivity).
    rewrite E0. destruct (mul_zero (of_Z 0) (m_expm1 lm x) FE eq_refl) as (H1 & H2). destruct M as (M1 & M2).
    apply (addZ (-2) 120); try lia; try assumption. rewrite H2. lra.
  - assert (P : B2R x < 0) by (apply fle_X_false in G; [|reflexivity|now apply fin_nn]; rewrite X_f0, (X_finite x F) in G; exact G).
    replace (flt x f0) with true by (symmetry; apply flt_X; [now apply fin_nn|reflexivity|rewrite X_f0, (X_finite x F); exact P]).
    assert (E : fin_in (-1) 0 (m_expm1 lm x)).
    { apply (between_Z (-1) 0); [lia..|]. apply (ro_expm1_neg lm RO). apply fle_X; [now apply fin_nn|reflexivity|]. rewrite X_f0, (X_finite x F). lra. }
    destruct c12_in as (C1 & C2 & C3). set (k := fmul (fmul f1 (lit 10507 10000)) (lit 16732 10000)) in *. destruct E as (E1 & E2 & E3).
    assert (M : fin_in (-2) 0 (fmul k (m_expm1 lm x))) by (apply (mulZ (-2) 0); try lia; try assumption; nra).
    assert (E0 : fmul (of_Z 0) (lit 10507 10000) = of_Z 0) by (vm_compute; reflexivity). rewrite E0.
    destruct (mul_zero (of_Z 0) x F eq_refl) as (H1 & H2). destruct M as (M1 & M2).
    apply (addZ (-2) 120); try lia; try assumption. rewrite H2. lra.
Qed.
Lemma soft_plus_in x : is_finite x = true -> fle f0 (soft_plus_activate A x) = true.
Proof. intros F. apply (ro_log1p lm RO), (ro_exp lm RO), fin_nn, F. Qed.
Lemma big_fin : is_finite (of_Z (2 ^ 145)) = true. Proof. vm_compute. reflexivity. Qed.
Lemma soft_plus_le x : fin_in (-100) 100 x -> fin_in 0 101 (soft_plus_activate A x).
Proof.
  intros (F & L1 & L2). apply (between_Z 0 101); [lia..|]. split; [now apply soft_plus_in|]. apply (ro_log1p_big lm RO). split; [apply (ro_exp lm RO), fin_nn, F|].
  apply (ro_exp_big lm RO). apply fle_X; [now apply fin_nn|reflexivity|]. rewrite (X_finite x F), X_of_Z by lia. lra.
Qed.
End Act.

(** ** Activation functions *)
Definition act_of {T} (A : arith T) (a : Z) (x : T) : T :=
  match neural_activate A a x with Ok y => y | _ => x end.
Lemma act_of_ok {T} (A : arith T) a x : (0 <= a < NUM_ACTIVATIONS)%Z -> neural_activate A a x = Ok (act_of A a x).
Proof.
  intros H. unfold act_of, neural_activate. unfold NUM_ACTIVATIONS in H.
  assert (D : (a = 0 \/ a = 1 \/ a = 2 \/ a = 3 \/ a = 4 \/ a = 5 \/ a = 6 \/ a = 7 \/ a = 8 \/ a = 9 \/ a = 10)%Z) by lia.
  repeat (destruct D as [->|D]; [reflexivity|]). subst a. reflexivity.
Qed.
Lemma act_cases a : (0 <= a < NUM_ACTIVATIONS)%Z ->
  (a = 0 \/ a = 1 \/ a = 2 \/ a = 3 \/ a = 4 \/ a = 5 \/ a = 6 \/ a = 7 \/ a = 8 \/ a = 9 \/ a = 10)%Z.
Proof. unfold NUM_ACTIVATIONS. lia. Qed.
Section Act2.
Context (lm : libm) (RO : range_ok lm).
Notation A := (f64_arith lm).
Lemma fin_unit y : fin_in 0 1 y -> unit_range y. Proof. intros H. now apply (between_Z 0 1). Qed.
Lemma fin_sym y : fin_in (-1) 1 y -> sym_range y. Proof. intros H. now apply (between_Z (-1) 1). Qed.
Lemma sym_fin y : sym_range y -> fin_in (-1) 1 y. Proof. intros H. now apply (between_Z (-1) 1) in H. Qed.
Lemma fin_ge0 y b : fin_in 0 b y -> fle f0 y = true.
Proof. intros (F & L & _). apply fle_X; [reflexivity|now apply fin_nn|]. rewrite X_f0, (X_finite y F). exact L. Qed.

Lemma act_range a x : (0 <= a < NUM_ACTIVATIONS)%Z -> is_finite x = true -> (a = SELU -> fin_in (-100) 100 x) -> in_range a (act_of A a x).
Proof.
  intros H F SE. destruct (act_cases a H) as [->|[->|[->|[->|[->|[->|[->|[->|[->|[->| ->]]]]]]]]]]; unfold in_range; cbn [Z.eqb Pos.eqb orb LOGISTIC GAUSSIAN TANH LOGGY SIN COS RELU SOFT_PLUS].
  - apply fin_unit, logistic_in; assumption.
  - destruct (relu_in lm x F) as (P & Q). apply (fin_ge0 _ (Rmax 0 (B2R x))). split; [exact P|]. change (act_of A 1 x) with (relu_activate A x). rewrite Q. split; [apply Rmax_l|lra].
  - apply (ro_tanh lm RO). now apply fin_nn.
  - now apply fin_nn.
  - apply fin_unit, gaussian_in; assumption.
  - now apply (ro_sin lm RO).
  - now apply (ro_cos lm RO).
  - now apply soft_plus_in.
  - pose proof (B2R_bnd x) as B. destruct (leaky_in lm x (Rabs (B2R x)) F) as (P & _).
    + unfold Rabs. destruct (Rcase_abs (B2R x)); [apply fmt_opp|]; apply generic_format_B2R.
    + apply Rabs_def1; lra.
    + lra.
    + apply (fin_nn _ P).
  - destruct (selu_in lm RO x (SE eq_refl)) as (P & _). apply (fin_nn _ P).
  - apply fin_sym, loggy_in; assumption.
Qed.
Lemma act_bound a x : (0 <= a < NUM_ACTIVATIONS)%Z -> fin_in (-100) 100 x -> fin_in (-128) 128 (act_of A a x).
Proof.
  intros H X0. pose proof X0 as (F & L1 & L2). destruct (act_cases a H) as [->|[->|[->|[->|[->|[->|[->|[->|[->|[->| ->]]]]]]]]]].
  - eapply fin_in_imp; [apply logistic_in; assumption|lra|lra].
  - destruct (relu_in lm x F) as (P & Q). split; [exact P|]. change (act_of A 1 x) with (relu_activate A x). rewrite Q. unfold Rmax. destruct (Rle_dec 0 (B2R x)); lra.
  - eapply fin_in_imp; [apply sym_fin, (ro_tanh lm RO); now apply fin_nn|lra|lra].
  - split; [exact F|]. change (act_of A 3 x) with x. lra.
  - eapply fin_in_imp; [apply gaussian_in; assumption|lra|lra].
  - eapply fin_in_imp; [apply sym_fin; now apply (ro_sin lm RO)|lra|lra].
  - eapply fin_in_imp; [apply sym_fin; now apply (ro_cos lm RO)|lra|lra].
  - eapply fin_in_imp; [apply soft_plus_le; assumption|lra|lra].
  - eapply fin_in_imp; [apply (leaky_in lm x 128 F); [apply (fmt_Z 128); lia|apply (Z_bnd 128); lia|apply Rabs_le; lra]|lra|lra].
  - eapply fin_in_imp; [apply selu_in; assumption|lra|lra].
  - eapply fin_in_imp; [apply loggy_in; assumption|lra|lra].
Qed.

(** ** Connected layers *)
Lemma clamp_in v : F64Facts.nn v -> fin_in (-100) 100 (aclamp A v (a_Z A NEURON_MIN) (a_Z A NEURON_MAX)).
Proof.
  intros N. unfold aclamp. change (a_lt A) with flt. change (a_Z A NEURON_MIN) with (of_Z (-100)). change (a_Z A NEURON_MAX) with (of_Z 100).
  destruct (flt v (of_Z (-100))) eqn:E1; [split; [reflexivity|rewrite R_of_Z by lia; lra]|].
  destruct (flt (of_Z 100) v) eqn:E2; [split; [reflexivity|rewrite R_of_Z by lia; lra]|].
  apply flt_X_false in E1; [|exact N|apply nn_of_Z]. apply flt_X_false in E2; [|apply nn_of_Z|exact N]. rewrite X_of_Z in * by lia.
  assert (F : is_finite v = true) by (apply nn_X_finite; [exact N|pose proof (Z_bnd 100 ltac:(lia)); lra]).
  rewrite (X_finite v F) in *. split; [exact F|lra].
Qed.
Lemma scaled_bnd n k : (0 <= n <= 2 ^ 40)%Z -> (k <= 980)%Z -> IZR n * bpow radix2 k < bnd.
Proof.
  intros N K. apply Rle_lt_trans with (bpow radix2 40 * bpow radix2 k).
  - apply Rmult_le_compat_r; [apply bpow_ge_0|]. change (bpow radix2 40) with (IZR (2 ^ 40)). apply IZR_le. lia.
  - rewrite <- bpow_plus. apply bpow_lt. lia.
Qed.
Lemma sum_in k (m : nat) (f : Z -> f64) : (-1074 <= k <= 980)%Z -> (Z.of_nat m <= 2 ^ 40)%Z -> (forall i, (0 <= i < Z.of_nat m)%Z -> fin_in (- bpow radix2 k) (bpow radix2 k) (f i)) ->
  fin_in (- (IZR (Z.of_nat m) * bpow radix2 k)) (IZR (Z.of_nat m) * bpow radix2 k) (sum_from f64_num f0 (Z.of_nat m) f).
Proof.
  intros K. induction m as [|m IH]; intros M H.
  - split; [reflexivity|]. change (Z.of_nat 0) with 0%Z. change (B2R (sum_from f64_num f0 0 f)) with 0. lra.
  - replace (Z.of_nat (S m)) with (Z.of_nat m + 1)%Z in * by lia. rewrite sum_from_S by lia.
    destruct IH as (F1 & L1); [lia|intros i Hi; apply H; lia|]. destruct (H (Z.of_nat m) ltac:(lia)) as (F2 & L2).
    pose proof (scaled_bnd (Z.of_nat m + 1) k ltac:(lia) ltac:(lia)) as B.
    assert (FM : fmt64 (IZR (Z.of_nat m + 1) * bpow radix2 k)) by (apply fmt_scaled; lia).
    apply fadd_in; [now apply fmt_opp|exact FM|lra|exact B|exact F1|exact F2|]. rewrite plus_IZR. lra.
Qed.
(** Weights, biases and inputs small enough for no sum to overflow. *)
Definition within (k : Z) (l : list f64) : Prop := Forall (fin_in (- bpow radix2 k) (bpow radix2 k)) l.
Lemma within_at k l i : within k l -> (0 <= i < len l)%Z -> fin_in (- bpow radix2 k) (bpow radix2 k) (at_ f0 l i).
Proof. intros H. apply (proj1 (Forall_at _ f0 l)). exact H. Qed.
Lemma net_in_fin l x kw ki i : conn_shape l -> (l_n_inputs l <= 2 ^ 31)%Z -> (l_n_inputs l <= len x)%Z -> (0 <= kw)%Z -> (0 <= ki)%Z -> (kw + ki <= 980)%Z ->
  within kw (l_weights l) -> within kw (l_biases l) -> (forall j, (0 <= j < l_n_inputs l)%Z -> fin_in (- bpow radix2 ki) (bpow radix2 ki) (at_ f0 x j)) ->
  (0 <= i < l_n_outputs l)%Z -> is_finite (net_in A l x i) = true.
Proof.
  intros C NI LX K1 K2 K3 W B HX HI. destruct C. unfold net_in, gemm_entry.
  change (n0 (a_num A)) with f0. change (nadd (a_num A)) with fadd. change (nmul (a_num A)) with fmul. change (a_Z A 1) with f1. change (a_num A) with f64_num.
  pose proof (within_at kw (l_biases l) i B ltac:(lia)) as (FB & LB). destruct (mul_one _ FB) as (FB1 & RB1).
  set (f := fun k : Z => _). assert (Hf : forall j, (0 <= j < l_n_inputs l)%Z -> fin_in (- bpow radix2 (kw + ki)) (bpow radix2 (kw + ki)) (f j)).
  { intros j Hj. unfold f, op_at. change (n0 f64_num) with f0. cbn [Z.mul]. change (0 + j)%Z with j. destruct (HX j Hj) as (FX & LXX).
    destruct (one_mul _ FX) as (F1 & R1). pose proof (within_at kw (l_weights l) (i * l_n_inputs l + j) W ltac:(nia)) as (FW & LW).
    apply fmul_in; [apply fmt_opp, format_bpow; lia|apply format_bpow; lia| | |exact F1|exact FW|].
    - pose proof (bpow_lt_bnd (kw + ki) ltac:(lia)). lra.
    - apply bpow_lt_bnd. lia.
    - rewrite R1, bpow_plus. pose proof (bpow_gt_0 radix2 kw). pose proof (bpow_gt_0 radix2 ki). nra. }
  pose proof (sum_in (kw + ki) (Z.to_nat (l_n_inputs l)) f ltac:(lia) ltac:(lia)) as SI. rewrite Z2Nat.id in SI by lia. destruct (SI Hf) as (FS & LS).
  assert (KB : bpow radix2 kw <= bpow radix2 (kw + ki)) by (apply bpow_le; lia).
  set (n := l_n_inputs l) in *. pose proof (scaled_bnd (n + 1) (kw + ki) ltac:(lia) ltac:(lia)) as BB.
  assert (FM : fmt64 (IZR (n + 1) * bpow radix2 (kw + ki))) by (apply fmt_scaled; lia).
  apply (fadd_in (- (IZR (n + 1) * bpow radix2 (kw + ki))) (IZR (n + 1) * bpow radix2 (kw + ki))); try assumption; [now apply fmt_opp|lra|].
  rewrite RB1, plus_IZR. lra.
Qed.
Lemma connected_range l x kw ki : conn_shape l -> (0 <= l_function l < NUM_ACTIVATIONS)%Z -> (l_n_inputs l <= 2 ^ 31)%Z -> (l_n_inputs l <= len x)%Z ->
  (0 <= kw)%Z -> (0 <= ki)%Z -> (kw + ki <= 980)%Z -> within kw (l_weights l) -> within kw (l_biases l) ->
  (forall j, (0 <= j < l_n_inputs l)%Z -> fin_in (- bpow radix2 ki) (bpow radix2 ki) (at_ f0 x j)) ->
  exists st out, connected_forward A l x = Ok (set_state st (set_output out l)) /\ len st = l_n_outputs l /\ len out = l_n_outputs l /\
    Forall state_range st /\ Forall (fun y => in_range (l_function l) y /\ fin_in (-128) 128 y) out.
Proof.
  intros C FN NI LX K1 K2 K3 W B HX.
  destruct (connected_forward_ok A l x (act_of A (l_function l)) C LX (fun y => act_of_ok A _ y FN)) as (st & out & E & L1 & L2 & H).
  exists st, out. split; [exact E|]. split; [exact L1|]. split; [exact L2|]. change (n0 (a_num A)) with f0 in H.
  assert (HS : forall i, (0 <= i < l_n_outputs l)%Z -> fin_in (-100) 100 (at_ f0 st i)).
  { intros i Hi. rewrite (proj1 (H i Hi)). apply clamp_in, fin_nn. eapply (net_in_fin l x kw ki); eassumption. }
  split; apply (Forall_at _ f0); intros i Hi.
  - apply (between_Z (-100) 100); [lia..|]. apply HS. lia.
  - rewrite (proj2 (H i ltac:(lia))). pose proof (HS i ltac:(lia)) as S1. split; [apply act_range; [exact FN|apply S1|intros _; exact S1]|apply act_bound; assumption].
Qed.
End Act2.

(** ** Softmax layers *)
Section Soft.
Context (lm : libm) (RO : range_ok lm).
Notation A := (f64_arith lm).
Lemma softmax_range l x ki ks : plain_shape l -> (l_n_inputs l <= len x)%Z -> (0 <= ki)%Z -> (0 <= ks)%Z -> (ki + ks <= 980)%Z ->
  (forall j, (0 <= j < l_n_inputs l)%Z -> fin_in (- bpow radix2 ki) (bpow radix2 ki) (at_ f0 x j)) ->
  is_finite (l_scale l) = true -> bpow radix2 (- ks) <= B2R (l_scale l) ->
  exists out, softmax_forward A l x = Ok (set_output out l) /\ len out = l_n_outputs l /\ Forall unit_range out.
Proof.
  intros P LX K1 K2 K3 HX FS LS. destruct P as [N EQ LO _ _]. unfold N_OUTPUTS_MAX in N. set (n := l_n_inputs l) in *. set (s := l_scale l) in *.
  unfold softmax_forward. change (l_n_inputs l) with n. change (l_scale l) with s. rewrite (rd_ok f0) by lia. cbn [obind].
  (* the largest input *)
  match goal with |- exists _, obind (ofor _ ?f ?s0) _ = _ /\ _ =>
    destruct (ofor_ind (fun i m => exists j, (0 <= j < i + 1)%Z /\ m = at_ f0 x j /\ forall k, (0 <= k < i + 1)%Z -> B2R (at_ f0 x k) <= B2R m) f (n - 1) s0) as (lg & E & j & Hj & EJ & MX); [lia| | |] end.
  { exists 0%Z. split; [lia|]. split; [reflexivity|]. intros k Hk. replace k with 0%Z by lia. lra. }
  { intros i m Hi (j & Hj & -> & MX). rewrite (rd_ok f0) by lia. cbn [obind]. eexists. split; [reflexivity|].
    change (a_lt A) with flt. destruct (HX j ltac:(lia)) as (Fj & _). destruct (HX (i + 1)%Z ltac:(lia)) as (Fi & _).
    destruct (flt (at_ f0 x j) (at_ f0 x (i + 1))) eqn:G.
    - apply flt_X in G; [|now apply fin_nn..]. rewrite !X_finite in G by assumption.
      exists (i + 1)%Z. split; [lia|]. split; [reflexivity|]. intros k Hk. destruct (Z.eq_dec k (i + 1)) as [->|NE]; [lra|].
      pose proof (MX k ltac:(lia)). lra.
    - apply flt_X_false in G; [|now apply fin_nn..]. rewrite !X_finite in G by assumption.
      exists j. split; [lia|]. split; [reflexivity|]. intros k Hk. destruct (Z.eq_dec k (i + 1)) as [->|NE]; [lra|]. apply MX. lia. }
  rewrite E. cbn [obind]. clear E. replace (n - 1 + 1)%Z with n in * by lia.
  (* the scaled inputs *)
  change (ndiv (a_num A)) with fdiv. change (nsub (a_num A)) with fsub. change (nadd (a_num A)) with fadd. change (a_exp A) with (m_exp lm).
  assert (SP : 0 < B2R s) by (pose proof (bpow_gt_0 radix2 (- ks)); lra).
  set (M := bpow radix2 (ki + ks)). assert (FM : fmt64 M) by (apply format_bpow; lia).
  assert (BM : 2 * M < bnd) by (unfold M; replace (2 * bpow radix2 (ki + ks)) with (bpow radix2 (1 + (ki + ks))) by (rewrite bpow_plus; cbn; lra); apply bpow_lt; lia).
  assert (MP : 0 < M) by apply bpow_gt_0.
  assert (SI : 0 < / B2R s <= bpow radix2 ks).
  { split; [now apply Rinv_0_lt_compat|]. replace (bpow radix2 ks) with (/ bpow radix2 (- ks)) by (rewrite bpow_opp, Rinv_inv; reflexivity).
    apply Rinv_le_contravar; [apply bpow_gt_0|exact LS]. }
  assert (Q : forall k, (0 <= k < n)%Z -> fin_in (- M) M (fdiv (at_ f0 x k) s) /\ B2R (fdiv (at_ f0 x k) s) = rnd (B2R (at_ f0 x k) / B2R s)).
  { intros k Hk. destruct (HX k Hk) as (FX & LXX). assert (IN : - M <= B2R (at_ f0 x k) / B2R s <= M).
    { unfold Rdiv, M. rewrite bpow_plus. pose proof (bpow_gt_0 radix2 ki). nra. }
    split; [apply fdiv_in; try assumption; [now apply fmt_opp|lra|lra|lra]|]. apply fdiv_R; try assumption; [lra|].
    apply (rnd_in_abs (- M) M); [now apply fmt_opp|assumption|lra|lra|exact IN]. }
  set (e := fun k => m_exp lm (fsub (fdiv (at_ f0 x k) s) (fdiv lg s))).
  assert (DI : forall k, (0 <= k < n)%Z -> fin_in (- (2 * M)) 0 (fsub (fdiv (at_ f0 x k) s) (fdiv lg s))).
  { intros k Hk. destruct (Q k Hk) as ((F1 & L1) & R1). destruct (Q j Hj) as ((F2 & L2) & R2). rewrite <- EJ in F2, L2, R2.
    assert (LE : rnd (B2R (at_ f0 x k) / B2R s) <= rnd (B2R lg / B2R s)).
    { apply rnd_le. unfold Rdiv. apply Rmult_le_compat_r; [lra|]. apply MX, Hk. }
    apply fsub_in; try assumption; [apply fmt_opp; replace (2 * M) with (bpow radix2 (1 + (ki + ks))) by (rewrite bpow_plus; unfold M; cbn; lra); apply format_bpow; lia|apply fmt_0|lra|pose proof bnd_pos; lra|]. rewrite R1, R2 in *. lra. }
  assert (EI : forall k, (0 <= k < n)%Z -> fin_in 0 1 (e k)).
  { intros k Hk. destruct (DI k Hk) as (F & L). unfold e. apply unit_fin; [apply (ro_exp lm RO), fin_nn, F|apply (ro_exp_le lm RO)].
    apply fle_X; [now apply fin_nn|reflexivity|]. rewrite X_f0, (X_finite _ F). lra. }
  assert (EJ1 : B2R (e j) = 1).
  { destruct (Q j Hj) as ((F2 & L2) & R2). assert (D0 : feq (fsub (fdiv (at_ f0 x j) s) (fdiv lg s)) f0 = true).
    { destruct (DI j Hj) as (F & _). rewrite EJ in *. destruct (fsub_R (fdiv (at_ f0 x j) s) (fdiv (at_ f0 x j) s) F2 F2) as (F3 & R3).
      - rewrite Rminus_diag_eq, rnd_0, Rabs_R0 by reflexivity. apply bnd_pos.
      - apply feq_X; [now apply fin_nn|reflexivity|]. rewrite X_f0, (X_finite _ F), R3, Rminus_diag_eq by reflexivity. apply rnd_0. }
    pose proof (ro_exp_0 lm RO _ D0) as G. destruct (EI j Hj) as (F4 & _). apply feq_X in G; [|now apply fin_nn|apply nn_f1]. rewrite X_f1 in G.
    fold (e j) in G. rewrite (X_finite _ F4) in G. exact G. }
  match goal with |- exists _, obind (ofor _ ?f ?s0) _ = _ /\ _ =>
    destruct (ofor_ind (fun i (so : f64 * list f64) => fin_in 0 (IZR i) (fst so) /\ len (snd so) = len (l_output l) /\
      forall k, (0 <= k < i)%Z -> at_ f0 (snd so) k = e k /\ B2R (e k) <= B2R (fst so)) f n s0) as ((S0 & out1) & E & FS0 & L1 & HO); [lia| | |] end.
  { split; [split; [reflexivity|]|split; [reflexivity|intros k Hk; lia]]. cbn [fst]. change (B2R (a_Z A 0)) with 0. lra. }
  { intros i (S0 & o) Hi (FS0 & L1 & HO). cbn [fst snd] in *. rewrite (rd_ok f0) by lia. cbn [obind].
    destruct (wr_ok o i (e i) ltac:(lia)) as (o' & E & L2 & A1 & A2 & _). change (m_exp lm (fsub (fdiv (at_ f0 x i) s) (fdiv lg s))) with (e i). cbv zeta. rewrite E. cbn [obind].
    eexists. split; [reflexivity|]. cbn [fst snd]. destruct FS0 as (F1 & G1). destruct (EI i Hi) as (F2 & G2).
    assert (SM : fin_in 0 (IZR (i + 1)) (fadd S0 (e i))) by (apply (addZ 0 (i + 1)); try lia; try assumption; rewrite plus_IZR; lra).
    split; [exact SM|]. split; [lia|]. destruct (fadd_R S0 (e i) F1 F2) as (_ & R3).
    { apply (rnd_in_abs 0 (IZR (i + 1))); [apply fmt_0|apply fmt_Z; lia|pose proof bnd_pos; lra|apply Z_bnd; lia|rewrite plus_IZR; lra]. }
    intros k Hk. rewrite R3. destruct (Z.eq_dec k i) as [->|NE].
    - split; [apply A1|]. apply rnd_ge_B2R. lra.
    - rewrite A2 by lia. destruct (HO k ltac:(lia)) as (B1 & B2). split; [exact B1|]. apply Rle_trans with (B2R S0); [exact B2|]. apply rnd_ge_B2R. lra. }
  rewrite E. cbn [obind fst snd] in *. clear E. 
  destruct (loop_points f64_num n (fun i => i) (fun _ o => fdiv o S0) (fun i out => modify_at out i (fun o => fdiv o S0)) out1) as (out & E & L2 & HP & _); [lia|intros; lia|auto|intros i C Hi LC; apply (modify_ok f64_num C i (fun o => fdiv o S0)); lia|].
  rewrite E. cbn [obind]. exists out. split; [reflexivity|]. assert (LOO : len out = l_n_outputs l) by (exact (eq_trans L2 (eq_trans L1 LO))). split; [exact LOO|]. apply (Forall_at _ f0). intros i Hi.
  change (n0 f64_num) with f0 in HP. rewrite HP by lia. destruct (HO i ltac:(lia)) as (B1 & B2). destruct (HO j Hj) as (_ & B3). rewrite B1.
  destruct (EI i ltac:(lia)) as (F2 & G2). destruct FS0 as (F1 & G1). apply fin_unit. apply (divZ 0 1); try lia; try assumption; [lra|].
  rewrite EJ1 in B3. unfold Rdiv. assert (IP : 0 < / B2R S0) by (apply Rinv_0_lt_compat; lra). split; [nra|].
  apply (Rmult_le_reg_r (B2R S0)); [lra|]. rewrite Rmult_assoc, Rinv_l by lra. lra.
Qed.
End Soft.

(** ** Networks outside of training *)
Section Whole.
Context (J : rng -> Prop) (lm : libm) (Zok : f64 -> Prop) (SR : src lm J Zok) (RO : range_ok lm).
(** The weights and scales of a layer are not extreme. *)
Definition moderate (kw ks : Z) (l : layer f64) : Prop :=
  (l_type l = CONNECTED -> within kw (l_weights l) /\ within kw (l_biases l)) /\
  (l_type l = SOFTMAX -> is_finite (l_scale l) = true /\ bpow radix2 (- ks) <= B2R (l_scale l)).
(** The outputs of a layer are in range. *)
Definition tame (ki : Z) (l : layer f64) : Prop := within ki (l_output l) /\
  (l_type l = CONNECTED -> Forall state_range (l_state l) /\ Forall (in_range (l_function l)) (l_output l)) /\
  (l_type l = SOFTMAX -> Forall unit_range (l_output l)).

Lemma type_cases l : sound l -> l_type l = CONNECTED \/ l_type l = SOFTMAX \/ l_type l = DROPOUT \/ l_type l = NOISE.
Proof. intros [(T & _)|(T & _)]; [auto|]. destruct T as [T|[T|T]]; auto. Qed.
Lemma weak_in k : (7 <= k)%Z -> forall y, fin_in (-128) 128 y -> fin_in (- bpow radix2 k) (bpow radix2 k) y.
Proof. intros K y H. assert (B : 128 <= bpow radix2 k) by (change 128 with (bpow radix2 7); apply bpow_le; lia). eapply fin_in_imp; [exact H|lra|lra]. Qed.
Lemma layer_tame kw ks ki l x : (0 <= kw)%Z -> (0 <= ks)%Z -> (7 <= ki)%Z -> (kw + ki <= 980)%Z -> (ki + ks <= 980)%Z ->
  sound l -> moderate kw ks l -> (l_n_inputs l <= len x)%Z -> (forall j, (0 <= j < l_n_inputs l)%Z -> fin_in (- bpow radix2 ki) (bpow radix2 ki) (at_ f0 x j)) ->
  rt J (layer_forward lm false l x) (fun l' => passed l l' /\ tame ki l').
Proof.
  intros K1 K2 K3 K4 K5 SO (MC & MS) LX HX g JG.
  destruct (forward_ok J lm Zok SR false l x SO LX g JG) as (l' & g' & E & JG' & P). exists l', g'. split; [exact E|]. split; [exact JG'|]. split; [exact P|].
  destruct SO as [(T & C & TI & G & F)|(T & PS)].
  - destruct (MC T) as (W & B). destruct G as [G1 G2 G3 G4 G5 G6].
    destruct (connected_range lm RO l x kw ki C F ltac:(unfold N_WEIGHTS_MAX in *; nia) LX K1 ltac:(lia) K4 W B HX) as (st & out & EC & _ & _ & HS & HO).
    unfold layer_forward in E. rewrite T, Z.eqb_refl in E. rewrite EC in E. cbn in E. injection E as <- _.
    split; [|split].
    + change (within ki out). eapply Forall_impl; [|exact HO]. intros y (_ & Hy). apply weak_in; assumption.
    + intros _. split; [exact HS|]. change (Forall (in_range (l_function l)) out). eapply Forall_impl; [|exact HO]. intros y (Hy & _). exact Hy.
    + intros X0. change (l_type l = SOFTMAX) in X0. rewrite T in X0. discriminate X0.
  - unfold layer_forward in E. destruct (plain_not _ T) as (E1 & E2 & E3 & E4 & E5). rewrite E1, E2, E3, E4, E5 in E.
    destruct PS as [N EQ LO LD LS]. destruct T as [T|T].
    + rewrite T in E. change (SOFTMAX =? DROPOUT)%Z with false in E. change (SOFTMAX =? NOISE)%Z with false in E. change (SOFTMAX =? SOFTMAX)%Z with true in E. cbn [andb] in E.
      destruct (MS T) as (F & B). destruct (softmax_range lm RO l x ki ks ltac:(constructor; assumption) LX ltac:(lia) K2 K5 HX F B) as (out & ES & _ & HO).
      rewrite ES in E. cbn in E. injection E as <- _. split; [|split].
      * change (within ki out). eapply Forall_impl; [|exact HO]. intros y Hy. apply weak_in; [assumption|]. apply (between_Z 0 1) in Hy; [|lia..]. eapply fin_in_imp; [exact Hy|lra|lra].
      * intros X0. change (l_type l = CONNECTED) in X0. rewrite T in X0. discriminate X0.
      * intros _. exact HO.
    + destruct (copy_n_ok f0 (l_n_inputs l) x (l_output l) ltac:(lia) ltac:(lia)) as (o & EC & L & HC & _).
      assert (W : within ki o) by (apply (Forall_at _ f0); intros i Hi; rewrite HC by lia; apply HX; lia).
      assert (NC : l_type l <> CONNECTED /\ l_type l <> SOFTMAX) by (destruct T as [->| ->]; split; discriminate).
      assert (R : l' = set_output o l).
      { destruct T as [T|T]; rewrite T in E.
        - change (DROPOUT =? DROPOUT)%Z with true in E. cbn [andb] in E. unfold dropout_forward in E. cbn [negb] in E. rewrite EC in E. cbn in E. now injection E as <- _.
        - change (NOISE =? DROPOUT)%Z with false in E. change (NOISE =? NOISE)%Z with true in E. cbn [andb] in E. unfold noise_forward in E. cbn [negb] in E. rewrite EC in E. cbn in E. now injection E as <- _. }
      subst l'. split; [exact W|]. split; intros X0; [change (l_type l = CONNECTED) in X0|change (l_type l = SOFTMAX) in X0]; tauto.
Qed.
Lemma forward_tame kw ks ki ls : (0 <= kw)%Z -> (0 <= ks)%Z -> (7 <= ki)%Z -> (kw + ki <= 980)%Z -> (ki + ks <= 980)%Z ->
  forall n x, chained n ls -> Forall (moderate kw ks) ls -> (n <= len x)%Z -> (forall j, (0 <= j < n)%Z -> fin_in (- bpow radix2 ki) (bpow radix2 ki) (at_ f0 x j)) ->
  rt J (forward_from lm false ls x) (Forall (tame ki)).
Proof.
  intros K1 K2 K3 K4 K5. induction ls as [|l r IH]; intros n x C M LX HX; cbn [forward_from]; [apply rt_ret; constructor|].
  destruct C as (SO & NI & C). inversion M as [|? ? M1 M2]; subst. eapply rt_bind; [apply (layer_tame kw ks ki l x); assumption|]. intros l' (P & TM).
  pose proof (passed_sound l l' SO P) as S'. destruct (sound_out l' S') as (LO & _).
  assert (NO : l_n_outputs l' = l_n_outputs l) by (destruct P as (st & out & -> & _); reflexivity).
  eapply rt_bind; [apply (IH (l_n_outputs l) (l_output l') C M2); [lia|]|].
  - intros j Hj. apply within_at; [apply TM|lia].
  - intros r' F. apply rt_ret. constructor; assumption.
Qed.
End Whole.
