(** * Facts about the double operations of [F64]. *)
From Coq Require Import ZArith Bool List Reals Lra Lia Psatz SpecFloat.
From Flocq Require Import Core BinarySingleNaN.
From Verif Require Import F64.

Open Scope R_scope.

Notation fexp64 := (SpecFloat.fexp 53 1024).
Notation rnd := (round radix2 fexp64 ZnearestE).
Notation bnd := (bpow radix2 1024).

#[export] Instance fexp64_valid : Valid_exp fexp64 := fexp_correct 53 1024 _.
#[export] Instance fexp64_mono : Monotone_exp fexp64 := fexp_monotone 53 1024.

Lemma bnd_pos : 0 < bnd. Proof. apply bpow_gt_0. Qed.

Lemma rnd_le x y : x <= y -> rnd x <= rnd y.
Proof. intros H; apply round_le; [typeclasses eauto|typeclasses eauto|exact H]. Qed.
Lemma rnd_0 : rnd 0 = 0.
Proof. apply round_0; typeclasses eauto. Qed.
Lemma rnd_opp x : rnd (- x) = - rnd x.
Proof. apply round_NE_opp. Qed.
Lemma rnd_B2R (x : f64) : rnd (B2R x) = B2R x.
Proof. apply round_generic; [typeclasses eauto|apply generic_format_B2R]. Qed.

Lemma rnd_ge_0 x : 0 <= x -> 0 <= rnd x.
Proof. intros H; rewrite <- rnd_0; apply rnd_le; exact H. Qed.
Lemma rnd_le_0 x : x <= 0 -> rnd x <= 0.
Proof. intros H; rewrite <- rnd_0; apply rnd_le; exact H. Qed.

(** Bound by a representable number. *)
Lemma rnd_le_B2R x (y : f64) : x <= B2R y -> rnd x <= B2R y.
Proof. intros H; rewrite <- (rnd_B2R y); apply rnd_le; exact H. Qed.
Lemma rnd_ge_B2R x (y : f64) : B2R y <= x -> B2R y <= rnd x.
Proof. intros H; rewrite <- (rnd_B2R y); apply rnd_le; exact H. Qed.

Lemma format_bpow e : (-1074 <= e)%Z -> generic_format radix2 fexp64 (bpow radix2 e).
Proof.
  intros He. apply generic_format_bpow. unfold SpecFloat.fexp, SpecFloat.emin. lia.
Qed.
Lemma rnd_bpow e : (-1074 <= e)%Z -> rnd (bpow radix2 e) = bpow radix2 e.
Proof.
  intros He. apply round_generic; [typeclasses eauto|]. apply format_bpow; exact He.
Qed.

Lemma format_IZR (z : Z) : (Z.abs z <= 2 ^ 53)%Z -> generic_format radix2 fexp64 (IZR z).
Proof.
  intros Hz.
  destruct (Z.eq_dec (Z.abs z) (2 ^ 53)) as [E|E].
  - assert (Hb : generic_format radix2 fexp64 (bpow radix2 53)) by (apply format_bpow; lia).
    destruct (Z.abs_spec z) as [[_ A]|[_ A]]; rewrite A in E.
    + subst z. change (IZR (2 ^ 53)) with (bpow radix2 53). exact Hb.
    + replace z with (- (2 ^ 53))%Z by lia. rewrite opp_IZR.
      apply generic_format_opp. change (IZR (2 ^ 53)) with (bpow radix2 53). exact Hb.
  - apply (generic_format_FLT radix2 (-1074) 53).
    exists (Float radix2 z 0); simpl.
    + unfold F2R; simpl. ring.
    + change (Z.pow_pos 2 53) with (2 ^ 53)%Z. lia.
    + lia.
Qed.
Lemma rnd_IZR (z : Z) : (Z.abs z <= 2 ^ 53)%Z -> rnd (IZR z) = IZR z.
Proof. intros Hz; apply round_generic; [typeclasses eauto|apply format_IZR; exact Hz]. Qed.

(** ** The extended real view: infinities are +-2^1024. *)
Definition X (x : f64) : R :=
  match x with
  | B754_infinity false => bnd
  | B754_infinity true => - bnd
  | _ => B2R x
  end.

Definition sat (r : R) : R :=
  if Rlt_bool (Rabs r) bnd then r else if Rlt_bool r 0 then - bnd else bnd.

Lemma X_finite x : is_finite x = true -> X x = B2R x.
Proof. destruct x as [s|[|]| |s m e H]; simpl; easy. Qed.

Lemma B2R_bnd (x : f64) : - bnd < B2R x < bnd.
Proof.
  pose proof (abs_B2R_lt_emax 53 1024 x) as H. apply Rabs_lt_inv in H. exact H.
Qed.

Lemma X_bnd (x : f64) : - bnd <= X x <= bnd.
Proof.
  pose proof (B2R_bnd x) as H. pose proof bnd_pos as H0.
  destruct x as [s|[|]| |s m e Hb]; cbn [X]; cbn [B2R] in *; lra.
Qed.

Lemma sat_bnd r : - bnd <= sat r <= bnd.
Proof.
  pose proof bnd_pos as H0. unfold sat.
  destruct (Rlt_bool_spec (Rabs r) bnd) as [H|H].
  - apply Rabs_lt_inv in H. lra.
  - destruct (Rlt_bool r 0); lra.
Qed.

Lemma sat_id r : - bnd <= r <= bnd -> sat r = r.
Proof.
  pose proof bnd_pos as H0. intros H. unfold sat.
  destruct (Rlt_bool_spec (Rabs r) bnd) as [H1|H1]; [reflexivity|].
  destruct (Rlt_bool_spec r 0) as [H2|H2].
  - rewrite Rabs_left in H1 by lra. lra.
  - rewrite Rabs_pos_eq in H1 by lra. lra.
Qed.

Lemma sat_le x y : x <= y -> sat x <= sat y.
Proof.
  pose proof bnd_pos as H0. intros H. unfold sat.
  destruct (Rlt_bool_spec (Rabs x) bnd) as [Hx|Hx];
  destruct (Rlt_bool_spec (Rabs y) bnd) as [Hy|Hy]; [exact H| | |].
  - apply Rabs_lt_inv in Hx. destruct (Rlt_bool_spec y 0) as [H2|H2]; [|lra].
    rewrite Rabs_left in Hy by lra. lra.
  - apply Rabs_lt_inv in Hy. destruct (Rlt_bool_spec x 0) as [H2|H2]; [lra|].
    rewrite Rabs_pos_eq in Hx by lra. lra.
  - destruct (Rlt_bool_spec x 0) as [H2|H2]; destruct (Rlt_bool_spec y 0) as [H3|H3]; lra.
Qed.

Lemma sat_B2R (x : f64) : sat (B2R x) = B2R x.
Proof. apply sat_id. pose proof (B2R_bnd x); lra. Qed.

Lemma sat_ge_0 r : 0 <= r -> 0 <= sat r.
Proof.
  intros H. rewrite <- (sat_id 0). apply sat_le; exact H.
  pose proof bnd_pos; lra.
Qed.
Lemma sat_le_0 r : r <= 0 -> sat r <= 0.
Proof.
  intros H. rewrite <- (sat_id 0). apply sat_le; exact H.
  pose proof bnd_pos; lra.
Qed.

(** ** Comparisons. *)
Definition nn (x : f64) : Prop := is_nan x = false.

Lemma fin_nn (x : f64) : is_finite x = true -> nn x.
Proof. destruct x; easy. Qed.

Lemma Bcompare_X (x y : f64) : nn x -> nn y -> Bcompare x y = Some (Rcompare (X x) (X y)).
Proof.
  intros Hx Hy. pose proof bnd_pos as H0.
  pose proof (B2R_bnd x) as Bx. pose proof (B2R_bnd y) as By.
  destruct (is_finite x) eqn:Fx; destruct (is_finite y) eqn:Fy.
  - rewrite !X_finite by assumption. apply Bcompare_correct; assumption.
  - rewrite (X_finite x) by assumption.
    destruct y as [s|[|]| |s m e Hb]; try discriminate; cbn [X].
    + rewrite Rcompare_Gt by lra. destruct x as [s|[|]| |[|] m e Hb]; try discriminate; reflexivity.
    + rewrite Rcompare_Lt by lra. destruct x as [s|[|]| |[|] m e Hb]; try discriminate; reflexivity.
  - rewrite (X_finite y) by assumption.
    destruct x as [s|[|]| |s m e Hb]; try discriminate; cbn [X].
    + rewrite Rcompare_Lt by lra. destruct y as [s|[|]| |[|] m e Hb]; try discriminate; reflexivity.
    + rewrite Rcompare_Gt by lra. destruct y as [s|[|]| |[|] m e Hb]; try discriminate; reflexivity.
  - destruct x as [s|[|]| |s m e Hb]; try discriminate; destruct y as [s'|[|]| |s' m' e' Hb']; try discriminate; cbn [X];
      [rewrite Rcompare_Eq by lra|rewrite Rcompare_Lt by lra|rewrite Rcompare_Gt by lra|rewrite Rcompare_Eq by lra]; reflexivity.
Qed.

Lemma fle_nn x y : fle x y = true -> nn x /\ nn y.
Proof.
  unfold fle, Bleb, SFleb, nn.
  destruct x as [s|[|]| |s m e Hb]; destruct y as [s'|[|]| |s' m' e' Hb']; cbn; try easy.
Qed.
Lemma flt_nn x y : flt x y = true -> nn x /\ nn y.
Proof.
  unfold flt, Bltb, SFltb, nn.
  destruct x as [s|[|]| |s m e Hb]; destruct y as [s'|[|]| |s' m' e' Hb']; cbn; try easy.
Qed.
Lemma feq_nn x y : feq x y = true -> nn x /\ nn y.
Proof.
  unfold feq, Beqb, SFeqb, nn.
  destruct x as [s|[|]| |s m e Hb]; destruct y as [s'|[|]| |s' m' e' Hb']; cbn; try easy.
Qed.

Lemma fle_X x y : nn x -> nn y -> (fle x y = true <-> X x <= X y).
Proof.
  intros Hx Hy. pose proof (Bcompare_X x y Hx Hy) as H.
  unfold fle, Bleb, SFleb. unfold Bcompare in H. rewrite H.
  destruct (Rcompare_spec (X x) (X y)); split; intros; try easy; lra.
Qed.
Lemma flt_X x y : nn x -> nn y -> (flt x y = true <-> X x < X y).
Proof.
  intros Hx Hy. pose proof (Bcompare_X x y Hx Hy) as H.
  unfold flt, Bltb, SFltb. unfold Bcompare in H. rewrite H.
  destruct (Rcompare_spec (X x) (X y)); split; intros; try easy; lra.
Qed.
Lemma feq_X x y : nn x -> nn y -> (feq x y = true <-> X x = X y).
Proof.
  intros Hx Hy. pose proof (Bcompare_X x y Hx Hy) as H.
  unfold feq, Beqb, SFeqb. unfold Bcompare in H. rewrite H.
  destruct (Rcompare_spec (X x) (X y)); split; intros; try easy; lra.
Qed.
Lemma flt_X_false x y : nn x -> nn y -> (flt x y = false <-> X y <= X x).
Proof.
  intros Hx Hy. pose proof (flt_X x y Hx Hy) as H.
  destruct (flt x y); split; intros; try easy.
  - destruct H as [H _]; specialize (H eq_refl); lra.
  - destruct (Rlt_or_le (X x) (X y)) as [A|A]; [|exact A].
    apply H in A; discriminate.
Qed.
Lemma fle_X_false x y : nn x -> nn y -> (fle x y = false <-> X y < X x).
Proof.
  intros Hx Hy. pose proof (fle_X x y Hx Hy) as H.
  destruct (fle x y); split; intros; try easy.
  - destruct H as [H _]; specialize (H eq_refl); lra.
  - destruct (Rle_or_lt (X x) (X y)) as [A|A]; [|exact A].
    apply H in A; discriminate.
Qed.

Lemma fle_refl x : nn x -> fle x x = true.
Proof. intros H; apply fle_X; try assumption; lra. Qed.
Lemma fle_trans x y z : fle x y = true -> fle y z = true -> fle x z = true.
Proof.
  intros H1 H2. destruct (fle_nn _ _ H1) as [Nx Ny]. destruct (fle_nn _ _ H2) as [_ Nz].
  apply fle_X in H1; try assumption. apply fle_X in H2; try assumption.
  apply fle_X; try assumption. lra.
Qed.
Lemma flt_fle x y : flt x y = true -> fle x y = true.
Proof.
  intros H. destruct (flt_nn _ _ H) as [Nx Ny]. apply flt_X in H; try assumption.
  apply fle_X; try assumption. lra.
Qed.
Lemma flt_irrefl x : flt x x = false.
Proof.
  destruct (is_nan x) eqn:E.
  - destruct x; try discriminate; reflexivity.
  - apply flt_X_false; try exact E. lra.
Qed.
Lemma flt_fle_trans x y z : flt x y = true -> fle y z = true -> flt x z = true.
Proof.
  intros H1 H2. destruct (flt_nn _ _ H1) as [Nx Ny]. destruct (fle_nn _ _ H2) as [_ Nz].
  apply flt_X in H1; try assumption. apply fle_X in H2; try assumption.
  apply flt_X; try assumption. lra.
Qed.
Lemma fle_flt_trans x y z : fle x y = true -> flt y z = true -> flt x z = true.
Proof.
  intros H1 H2. destruct (fle_nn _ _ H1) as [Nx Ny]. destruct (flt_nn _ _ H2) as [_ Nz].
  apply fle_X in H1; try assumption. apply flt_X in H2; try assumption.
  apply flt_X; try assumption. lra.
Qed.
Lemma fle_false_flt x y : nn x -> nn y -> fle x y = false -> flt y x = true.
Proof. intros Hx Hy H. apply flt_X; try assumption. apply fle_X_false; assumption. Qed.
Lemma flt_false_fle x y : nn x -> nn y -> flt x y = false -> fle y x = true.
Proof. intros Hx Hy H. apply fle_X; try assumption. apply flt_X_false; assumption. Qed.

(** ** Real value of the operations on finite arguments. *)
Lemma X_of_B2SF_overflow (z : f64) s :
  B2SF z = binary_overflow 53 1024 mode_NE s -> nn z /\ X z = (if s then - bnd else bnd).
Proof.
  unfold binary_overflow. simpl. intros H.
  destruct z as [s'|s'| |s' m e Hb]; try discriminate. simpl in H. injection H as ->.
  split; [reflexivity|]. destruct s; reflexivity.
Qed.

Lemma Rsign_sat (r : R) (b : bool) :
  bnd <= Rabs r -> (b = true -> r <= 0) -> (b = false -> 0 <= r) ->
  (if b then - bnd else bnd) = sat r.
Proof.
  intros H H1 H2. unfold sat. rewrite Rlt_bool_false by exact H.
  pose proof bnd_pos as H0.
  destruct b.
  - specialize (H1 eq_refl). rewrite Rlt_bool_true; [reflexivity|].
    destruct (Req_dec r 0) as [E|E]; [|lra]. rewrite E, Rabs_R0 in H. lra.
  - specialize (H2 eq_refl). rewrite Rlt_bool_false; [reflexivity|lra].
Qed.

Lemma Bsign_neg_le (x : f64) : Bsign x = true -> B2R x <= 0.
Proof.
  destruct x as [s|s| |s m e Hb]; simpl; intros H; try lra.
  subst s. apply Rlt_le, F2R_lt_0. reflexivity.
Qed.
Lemma Bsign_pos_ge (x : f64) : Bsign x = false -> 0 <= B2R x.
Proof.
  destruct x as [s|s| |s m e Hb]; simpl; intros H; try lra.
  subst s. apply Rlt_le, F2R_gt_0. reflexivity.
Qed.

Lemma fadd_fin x y : is_finite x = true -> is_finite y = true ->
  nn (fadd x y) /\ X (fadd x y) = sat (rnd (B2R x + B2R y)).
Proof.
  intros Fx Fy. pose proof (Bplus_correct 53 1024 _ _ mode_NE x y Fx Fy) as H.
  change (round_mode mode_NE) with ZnearestE in H.
  destruct (Rlt_bool_spec (Rabs (rnd (B2R x + B2R y))) bnd) as [Hb|Hb].
  - destruct H as (H1 & H2 & _). split; [apply fin_nn; exact H2|].
    unfold fadd. rewrite X_finite by exact H2. rewrite H1.
    rewrite sat_id; [reflexivity|]. apply Rabs_lt_inv in Hb. lra.
  - destruct H as (H1 & H2). apply X_of_B2SF_overflow in H1. destruct H1 as [N H1].
    split; [exact N|]. unfold fadd. rewrite H1.
    apply Rsign_sat; [exact Hb| |]; intros E.
    + apply rnd_le_0. rewrite E in H2. pose proof (Bsign_neg_le x E). pose proof (Bsign_neg_le y (eq_sym H2)). lra.
    + apply rnd_ge_0. rewrite E in H2. pose proof (Bsign_pos_ge x E). pose proof (Bsign_pos_ge y (eq_sym H2)). lra.
Qed.

Lemma fsub_fin x y : is_finite x = true -> is_finite y = true ->
  nn (fsub x y) /\ X (fsub x y) = sat (rnd (B2R x - B2R y)).
Proof.
  intros Fx Fy. pose proof (Bminus_correct 53 1024 _ _ mode_NE x y Fx Fy) as H.
  change (round_mode mode_NE) with ZnearestE in H.
  destruct (Rlt_bool_spec (Rabs (rnd (B2R x - B2R y))) bnd) as [Hb|Hb].
  - destruct H as (H1 & H2 & _). split; [apply fin_nn; exact H2|].
    unfold fsub. rewrite X_finite by exact H2. rewrite H1.
    rewrite sat_id; [reflexivity|]. apply Rabs_lt_inv in Hb. lra.
  - destruct H as (H1 & H2). apply X_of_B2SF_overflow in H1. destruct H1 as [N H1].
    split; [exact N|]. unfold fsub. rewrite H1.
    apply Rsign_sat; [exact Hb| |]; intros E.
    + apply rnd_le_0. rewrite E in H2. pose proof (Bsign_neg_le x E).
      destruct (Bsign y) eqn:Ey; try discriminate. pose proof (Bsign_pos_ge y Ey). lra.
    + apply rnd_ge_0. rewrite E in H2. pose proof (Bsign_pos_ge x E).
      destruct (Bsign y) eqn:Ey; try discriminate. pose proof (Bsign_neg_le y Ey). lra.
Qed.

Lemma Bsign_mult_sign (x y : f64) :
  (xorb (Bsign x) (Bsign y) = true -> B2R x * B2R y <= 0) /\
  (xorb (Bsign x) (Bsign y) = false -> 0 <= B2R x * B2R y).
Proof.
  destruct (Bsign x) eqn:Ex; destruct (Bsign y) eqn:Ey; simpl; split; intros; try discriminate;
  try (apply Bsign_neg_le in Ex); try (apply Bsign_pos_ge in Ex);
  try (apply Bsign_neg_le in Ey); try (apply Bsign_pos_ge in Ey); nra.
Qed.

Lemma fmul_fin x y : is_finite x = true -> is_finite y = true ->
  nn (fmul x y) /\ X (fmul x y) = sat (rnd (B2R x * B2R y)).
Proof.
  intros Fx Fy. pose proof (Bmult_correct 53 1024 _ _ mode_NE x y) as H.
  change (round_mode mode_NE) with ZnearestE in H.
  destruct (Rlt_bool_spec (Rabs (rnd (B2R x * B2R y))) bnd) as [Hb|Hb].
  - destruct H as (H1 & H2 & _). rewrite Fx, Fy in H2. split; [apply fin_nn; exact H2|].
    unfold fmul. rewrite X_finite by exact H2. rewrite H1.
    rewrite sat_id; [reflexivity|]. apply Rabs_lt_inv in Hb. lra.
  - apply X_of_B2SF_overflow in H. destruct H as [N H1].
    split; [exact N|]. unfold fmul. rewrite H1.
    destruct (Bsign_mult_sign x y) as [S1 S2].
    apply Rsign_sat; [exact Hb| |]; intros E.
    + apply rnd_le_0. auto.
    + apply rnd_ge_0. auto.
Qed.

Lemma fdiv_fin x y : is_finite x = true -> is_finite y = true -> B2R y <> 0 ->
  nn (fdiv x y) /\ X (fdiv x y) = sat (rnd (B2R x / B2R y)).
Proof.
  intros Fx Fy Ny. pose proof (Bdiv_correct 53 1024 _ _ mode_NE x y Ny) as H.
  change (round_mode mode_NE) with ZnearestE in H.
  destruct (Rlt_bool_spec (Rabs (rnd (B2R x / B2R y))) bnd) as [Hb|Hb].
  - destruct H as (H1 & H2 & _). rewrite Fx in H2. split; [apply fin_nn; exact H2|].
    unfold fdiv. rewrite X_finite by exact H2. rewrite H1.
    rewrite sat_id; [reflexivity|]. apply Rabs_lt_inv in Hb. lra.
  - apply X_of_B2SF_overflow in H. destruct H as [N H1].
    split; [exact N|]. unfold fdiv. rewrite H1.
    destruct (Bsign_mult_sign x y) as [S1 S2].
    assert (D : B2R x / B2R y = (B2R x * B2R y) * (/ B2R y * / B2R y)) by (field; exact Ny).
    assert (P : 0 < / B2R y * / B2R y).
    { rewrite <- Rinv_mult. apply Rinv_0_lt_compat. nra. }
    apply Rsign_sat; [exact Hb| |]; intros E; rewrite D.
    + apply rnd_le_0. specialize (S1 E). nra.
    + apply rnd_ge_0. specialize (S2 E). nra.
Qed.

(** Finiteness from a bound on the extended value. *)
Lemma nn_X_finite (x : f64) : nn x -> - bnd < X x < bnd -> is_finite x = true.
Proof.
  intros N H. destruct x as [s|[|]| |s m e Hb]; cbn [X] in H; try reflexivity; try discriminate; lra.
Qed.

Lemma of_Z_fin (z : Z) : (Z.abs z <= 2 ^ 53)%Z ->
  is_finite (of_Z z) = true /\ B2R (of_Z z : f64) = IZR z.
Proof.
  intros Hz.
  pose proof (binary_normalize_correct 53 1024 _ _ mode_NE z 0 false) as H. cbv zeta in H.
  change (round_mode mode_NE) with ZnearestE in H.
  replace (F2R (Float radix2 z 0)) with (IZR z) in H by (unfold F2R; simpl; ring).
  rewrite rnd_IZR in H by exact Hz.
  rewrite Rlt_bool_true in H.
  - destruct H as (H1 & H2 & _). split; assumption.
  - rewrite <- abs_IZR. change bnd with (IZR (2 ^ 1024)). apply IZR_lt.
    apply Z.le_lt_trans with (2 ^ 53)%Z; [exact Hz|]. apply Z.pow_lt_mono_r; lia.
Qed.

Lemma X_of_Z (z : Z) : (Z.abs z <= 2 ^ 53)%Z -> X (of_Z z) = IZR z.
Proof. intros H; destruct (of_Z_fin z H) as [F E]; rewrite X_finite by exact F; exact E. Qed.

Lemma f0_fin : is_finite f0 = true. Proof. reflexivity. Qed.
Lemma f0_R : B2R f0 = 0. Proof. reflexivity. Qed.
Lemma f1_fin : is_finite f1 = true. Proof. apply (of_Z_fin 1); lia. Qed.
Lemma f1_R : B2R f1 = 1. Proof. apply (of_Z_fin 1); lia. Qed.
Lemma X_f0 : X f0 = 0. Proof. reflexivity. Qed.
Lemma X_f1 : X f1 = 1. Proof. rewrite X_finite by apply f1_fin. apply f1_R. Qed.
Lemma nn_f0 : nn f0. Proof. reflexivity. Qed.
Lemma nn_f1 : nn f1. Proof. apply fin_nn, f1_fin. Qed.
Lemma nn_of_Z z : nn (of_Z z). Proof. apply is_nan_binary_normalize. Qed.

(** Non-finite non-NaN values. *)
Lemma nn_cases (x : f64) : nn x ->
  is_finite x = true \/ x = B754_infinity false \/ x = B754_infinity true.
Proof. destruct x as [s|[|]| |s m e Hb]; intros N; try discriminate; auto. Qed.

(** ** Monotonicity of addition, including infinities. *)
Lemma fadd_mono a a' b b' :
  fle a a' = true -> fle b b' = true -> nn (fadd a b) -> nn (fadd a' b') ->
  fle (fadd a b) (fadd a' b') = true.
Proof.
  intros Ha Hb N N'.
  destruct (fle_nn _ _ Ha) as [Na Na']. destruct (fle_nn _ _ Hb) as [Nb Nb'].
  apply fle_X; try assumption.
  apply fle_X in Ha; try assumption. apply fle_X in Hb; try assumption.
  pose proof (X_bnd (fadd a b)) as B1. pose proof (X_bnd (fadd a' b')) as B2.
  pose proof bnd_pos as H0.
  destruct (nn_cases a Na) as [Fa|[Ea|Ea]]; destruct (nn_cases b Nb) as [Fb|[Eb|Eb]];
  destruct (nn_cases a' Na') as [Fa'|[Ea'|Ea']]; destruct (nn_cases b' Nb') as [Fb'|[Eb'|Eb']];
  try (subst; cbn in N; discriminate); try (subst; cbn in N'; discriminate).
  1: { destruct (fadd_fin a b Fa Fb) as [_ E1]. destruct (fadd_fin a' b' Fa' Fb') as [_ E2].
       rewrite E1, E2. rewrite !X_finite in Ha, Hb by assumption.
       apply sat_le, rnd_le. lra. }
  all: try (assert (E2 : X (fadd a' b') = bnd)
        by (subst; repeat match goal with
              | H : is_finite ?z = true |- _ => destruct z as [?|[|]| |[|] ? ? ?]; try discriminate; clear H end; reflexivity);
        rewrite E2; lra).
  all: try (assert (E1 : X (fadd a b) = - bnd)
        by (subst; repeat match goal with
              | H : is_finite ?z = true |- _ => destruct z as [?|[|]| |[|] ? ? ?]; try discriminate; clear H end; reflexivity);
        rewrite E1; lra).
  all: exfalso; subst; cbn [X] in *;
    repeat match goal with H : is_finite ?z = true |- _ =>
       rewrite (X_finite z H) in *; pose proof (B2R_bnd z); clear H end; lra.
Qed.

(** Sum of two non-negative numbers (possibly infinite). *)
Definition fpos (x : f64) : Prop := fle f0 x = true.   (* 0 <= x, not NaN *)

Lemma fpos_nn x : fpos x -> nn x.
Proof. intros H; destruct (fle_nn _ _ H); assumption. Qed.
Lemma fpos_X x : fpos x -> 0 <= X x.
Proof. intros H. pose proof (fpos_nn x H) as N. apply fle_X in H; [rewrite X_f0 in H; exact H|reflexivity|exact N]. Qed.
Lemma fpos_of_X x : nn x -> 0 <= X x -> fpos x.
Proof. intros N H. apply fle_X; [reflexivity|exact N|rewrite X_f0; exact H]. Qed.

Lemma fpos_cases x : fpos x -> (is_finite x = true /\ 0 <= B2R x) \/ x = finf.
Proof.
  intros H. pose proof (fpos_X x H) as HX.
  destruct (nn_cases x (fpos_nn x H)) as [F|[E|E]].
  - left. split; [exact F|]. rewrite X_finite in HX by exact F. exact HX.
  - right; exact E.
  - subst x. cbn [X] in HX. pose proof bnd_pos; lra.
Qed.

Lemma fadd_inf_l x : fpos x -> fadd finf x = finf.
Proof.
  intros H. destruct (fpos_cases x H) as [[F _]| ->]; [|reflexivity].
  destruct x as [s|[|]| |s m e Hb]; try discriminate; reflexivity.
Qed.
Lemma fadd_inf_r x : fpos x -> fadd x finf = finf.
Proof.
  intros H. destruct (fpos_cases x H) as [[F _]| ->]; [|reflexivity].
  destruct x as [s|[|]| |s m e Hb]; try discriminate; reflexivity.
Qed.

Lemma fpos_add x y : fpos x -> fpos y -> fpos (fadd x y).
Proof.
  intros Hx Hy.
  destruct (fpos_cases x Hx) as [[Fx Px]| ->]; [|rewrite fadd_inf_l by exact Hy; reflexivity].
  destruct (fpos_cases y Hy) as [[Fy Py]| ->]; [|rewrite fadd_inf_r by exact Hx; reflexivity].
  destruct (fadd_fin x y Fx Fy) as [N E]. apply fpos_of_X; [exact N|]. rewrite E.
  apply sat_ge_0, rnd_ge_0. lra.
Qed.

Lemma fadd_ge_l x y : fpos x -> fpos y -> fle x (fadd x y) = true.
Proof.
  intros Hx Hy. pose proof (fpos_add x y Hx Hy) as Hs.
  apply fle_X; [apply fpos_nn; exact Hx|apply fpos_nn; exact Hs|].
  destruct (fpos_cases x Hx) as [[Fx Px]| ->]; [|rewrite fadd_inf_l by exact Hy; lra].
  destruct (fpos_cases y Hy) as [[Fy Py]| ->]; [|rewrite fadd_inf_r by exact Hx; apply X_bnd].
  destruct (fadd_fin x y Fx Fy) as [N E]. rewrite E. rewrite X_finite by exact Fx.
  rewrite <- (sat_B2R x) at 1. apply sat_le. apply rnd_ge_B2R. lra.
Qed.

Lemma fadd_0_l x : fpos x -> X (fadd f0 x) = X x.
Proof.
  intros Hx. destruct (fpos_cases x Hx) as [[Fx Px]| ->]; [|reflexivity].
  destruct (fadd_fin f0 x f0_fin Fx) as [N E]. rewrite E, f0_R, Rplus_0_l, rnd_B2R, sat_B2R.
  rewrite X_finite by exact Fx. reflexivity.
Qed.

(** Product of non-negative numbers. *)
Lemma fpos_mul x y : is_finite x = true -> is_finite y = true -> fpos x -> fpos y -> fpos (fmul x y).
Proof.
  intros Fx Fy Hx Hy. destruct (fmul_fin x y Fx Fy) as [N E].
  apply fpos_of_X; [exact N|]. rewrite E. apply sat_ge_0, rnd_ge_0.
  apply fpos_X in Hx. apply fpos_X in Hy. rewrite X_finite in Hx, Hy by assumption. nra.
Qed.
