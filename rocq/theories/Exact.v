(** * The same code in exact arithmetic. *)
From Coq Require Import ZArith Bool List Lia Reals Lra Psatz.
From Verif Require Import Outcome F64 Rng Arr ArrFacts Blas BlasFacts Sam Pop Pred PredFacts.
Import ListNotations.
Open Scope R_scope.

Definition R_num : num R := mkNum R 0 1 Rplus Rminus Rmult Rdiv Ropp (fun a b => if Req_EM_T a b then false else true).

Lemma len_nil {A} : len (@nil A) = 0%Z. Proof. reflexivity. Qed.

(** Sum of [f 0 ... f (n-1)]. *)
Fixpoint sumn (n : nat) (f : Z -> R) : R := match n with O => 0 | S n => sumn n f + f (Z.of_nat n) end.
Definition rsum (n : Z) (f : Z -> R) : R := sumn (Z.to_nat n) f.

Lemma iota_nat_S n : iota (Z.of_nat (S n)) = iota (Z.of_nat n) ++ [Z.of_nat n].
Proof. rewrite Nat2Z.inj_succ. apply iota_S. lia. Qed.
Lemma sum_from_R s n f : (0 <= n)%Z -> sum_from R_num s n f = s + rsum n f.
Proof.
  intros H. unfold rsum. rewrite <- (Z2Nat.id n H) at 1. induction (Z.to_nat n) as [|m IH].
  - cbn. lra.
  - rewrite Nat2Z.inj_succ, <- Z.add_1_r, sum_from_S by lia. rewrite IH. cbn. lra.
Qed.
Lemma sumn_ext n f g : (forall k, (0 <= k < Z.of_nat n)%Z -> f k = g k) -> sumn n f = sumn n g.
Proof. induction n as [|n IH]; intros H; cbn [sumn]; [reflexivity|]. rewrite IH, H by (intros; try apply H; lia). reflexivity. Qed.
Lemma rsum_ext n f g : (forall k, (0 <= k < n)%Z -> f k = g k) -> rsum n f = rsum n g.
Proof. intros H. apply sumn_ext. intros k Hk. apply H. lia. Qed.
Lemma sumn_plus n f g : sumn n (fun k => f k + g k) = sumn n f + sumn n g.
Proof. induction n as [|n IH]; cbn [sumn]; [lra|]. rewrite IH. lra. Qed.
Lemma rsum_plus n f g : rsum n (fun k => f k + g k) = rsum n f + rsum n g.
Proof. apply sumn_plus. Qed.
Lemma sumn_scal n a f : sumn n (fun k => a * f k) = a * sumn n f.
Proof. induction n as [|n IH]; cbn [sumn]; [lra|]. rewrite IH. lra. Qed.
Lemma rsum_scal n a f : rsum n (fun k => a * f k) = a * rsum n f.
Proof. apply sumn_scal. Qed.
Lemma sumn_swap n m (F : Z -> Z -> R) : sumn n (fun i => sumn m (F i)) = sumn m (fun j => sumn n (fun i => F i j)).
Proof.
  induction n as [|n IH]; cbn [sumn].
  - induction m as [|m IH]; cbn [sumn]; [reflexivity|]. rewrite <- IH. lra.
  - rewrite IH, <- sumn_plus. reflexivity.
Qed.
Lemma rsum_swap n m F : rsum n (fun i => rsum m (F i)) = rsum m (fun j => rsum n (fun i => F i j)).
Proof. apply sumn_swap. Qed.
Lemma sumn_nonneg n f : (forall k, (0 <= k < Z.of_nat n)%Z -> 0 <= f k) -> 0 <= sumn n f.
Proof. induction n as [|n IH]; intros H; cbn [sumn]; [lra|]. pose proof (H (Z.of_nat n) ltac:(lia)). pose proof (IH ltac:(intros; apply H; lia)). lra. Qed.
Lemma rsum_nonneg n f : (forall k, (0 <= k < n)%Z -> 0 <= f k) -> 0 <= rsum n f.
Proof. intros H. apply sumn_nonneg. intros k Hk. apply H. lia. Qed.
Lemma sumn_delta n i f : (0 <= i < Z.of_nat n)%Z -> sumn n (fun k => if (i =? k)%Z then f k else 0) = f i.
Proof.
  induction n as [|n IH]; intros H; [lia|]. cbn [sumn]. destruct (Z.eqb_spec i (Z.of_nat n)) as [E|NE].
  - subst i. rewrite (sumn_ext n _ (fun _ => 0 * 0)), sumn_scal; [lra|]. intros k Hk. destruct (Z.eqb_spec (Z.of_nat n) k); [lia|lra].
  - rewrite IH by lia. lra.
Qed.
Lemma rsum_delta n i f : (0 <= i < n)%Z -> rsum n (fun k => if (i =? k)%Z then f k else 0) = f i.
Proof. intros H. apply sumn_delta. lia. Qed.
Lemma rsum_1 n f : (0 <= n)%Z -> rsum (1 + n) f = f 0%Z + rsum n (fun k => f (1 + k)%Z).
Proof.
  intros H. unfold rsum. replace (Z.to_nat (1 + n)) with (S (Z.to_nat n)) by lia. induction (Z.to_nat n) as [|m IH]; [cbn; lra|].
  cbn [sumn] in *. rewrite IH. replace (Z.of_nat (S m)) with (1 + Z.of_nat m)%Z by lia. lra.
Qed.

Notation at0 := (at_ 0).

(** ** Matrix products (C49). *)
Lemma gemm_entry_R TA TB K alpha A lda B ldb beta i j c : (0 <= K)%Z ->
  gemm_entry R_num TA TB K alpha A lda B ldb beta i j c =
  alpha * rsum K (fun k => op_at R_num TA A lda i k * op_at R_num TB B ldb k j) + beta * c.
Proof.
  intros HK. unfold gemm_entry. destruct TB; rewrite sum_from_R by exact HK; cbn [n0 nadd nmul R_num].
  - rewrite <- rsum_scal. rewrite (rsum_ext K _ (fun k => alpha * (op_at R_num TA A lda i k * op_at R_num true B ldb k j))) by (intros; cbn; ring). lra.
  - rewrite <- rsum_scal. rewrite (rsum_ext K _ (fun k => alpha * (op_at R_num TA A lda i k * op_at R_num false B ldb k j))) by (intros; cbn; ring). lra.
Qed.

(** ** NLMS (C30). *)
Lemma axpy1_R a x y : axpy1 R_num a x y = y + a * x.
Proof. unfold axpy1. cbn. destruct (Req_EM_T a 1) as [-> |]; cbn; lra. Qed.
Lemma predicted_R n w f i : (0 <= n)%Z -> predicted R_num n w f i = rsum n (fun k => at0 w (i * n + k) * at0 f k).
Proof. intros H. unfold predicted. rewrite sum_from_R by exact H. cbn. lra. Qed.
Definition norm2 (x : list R) : R := rsum (len x) (fun k => at0 x k * at0 x k).
Lemma norm2_cons a x : norm2 (a :: x) = a * a + norm2 x.
Proof.
  unfold norm2. rewrite len_cons, rsum_1 by apply len_nonneg. change (at0 (a :: x) 0) with a. f_equal. apply rsum_ext.
  intros k Hk. rewrite at_cons by lia. reflexivity.
Qed.
Lemma norm2_app x y : norm2 (x ++ y) = norm2 x + norm2 y.
Proof. induction x as [|a x IH]; cbn [app]; [change (norm2 []) with 0; lra|]. rewrite !norm2_cons, IH. lra. Qed.
Lemma norm2_nonneg x : 0 <= norm2 x.
Proof. apply rsum_nonneg. intros k _. nra. Qed.
Lemma nlms_step_R x0 eta x y p i :
  nlms_step R_num x0 eta x y p i = eta * (at0 y i - at0 p i) / (x0 * x0 + norm2 x).
Proof. unfold nlms_step, norm2. rewrite sum_from_R by apply len_nonneg. cbn. rewrite Rplus_0_l. reflexivity. Qed.

(** Prediction of output [i] with the updated weights. *)
Lemma nlms_new_prediction ydim n x0 eta x y p f w w' i : (0 <= n)%Z -> len f = n -> (0 <= i < ydim)%Z ->
  block_updated R_num ydim n n (fun i k v => axpy1 R_num (nlms_step R_num x0 eta x y p i) (at0 f k) v) w w' ->
  predicted R_num n w' f i = predicted R_num n w f i + eta * (at0 y i - at0 p i) / (x0 * x0 + norm2 x) * norm2 f.
Proof.
  intros HN LF Hi (L & S1 & S2). rewrite !predicted_R by exact HN. set (s := eta * (at0 y i - at0 p i) / (x0 * x0 + norm2 x)).
  unfold norm2. rewrite LF, <- rsum_scal, <- rsum_plus. apply rsum_ext. intros k Hk. cbn [n0 R_num] in S1. rewrite S1 by assumption.
  rewrite axpy1_R, nlms_step_R. fold s. lra.
Qed.

(** ** RLS (C31). *)
Section Rls.
Context (n : Z) (HN : (0 <= n)%Z) (lambda : R) (f v0 P : list R).
Notation Pm i j := (at0 P (i * n + j)).
(** P f and f' P f *)
Definition Pf (i : Z) : R := rsum n (fun k => Pm i k * at0 f k).
Definition fPf : R := rsum n (fun k => at0 f k * Pf k).
Lemma rls_raw_R i : rls_raw R_num n f v0 P i = Pf i.
Proof.
  unfold rls_raw, Pf. rewrite sum_from_R by exact HN. cbn [n0 n1 nmul R_num]. rewrite Rmult_0_r, Rplus_0_l. apply rsum_ext. intros. ring.
Qed.
Lemma rls_divisor_R : rls_divisor R_num n lambda f v0 P = / (lambda + fPf).
Proof.
  unfold rls_divisor, fPf. rewrite sum_from_R by exact HN. cbn [n0 n1 nadd nmul ndiv R_num].
  rewrite Rplus_0_l, (rsum_ext n _ (fun k => at0 f k * Pf k)) by (intros; now rewrite rls_raw_R). unfold Rdiv. rewrite Rmult_1_l. f_equal. lra.
Qed.
Hypothesis NZ : lambda + fPf <> 0.
Lemma rls_gain_R i : rls_gain R_num n lambda f v0 P i = Pf i / (lambda + fPf).
Proof.
  unfold rls_gain. rewrite rls_divisor_R, rls_raw_R. cbn. destruct (Req_EM_T (/ (lambda + fPf)) 0) as [E|_]; [|reflexivity].
  exfalso. apply (Rinv_neq_0_compat _ NZ). exact E.
Qed.
Lemma rls_corr_R i j : rls_corr R_num n lambda f v0 P i j = (if (i =? j)%Z then 1 else 0) - Pf i / (lambda + fPf) * at0 f j.
Proof. unfold rls_corr. rewrite rls_gain_R. cbn. destruct (i =? j)%Z; lra. Qed.
Definition fP (j : Z) : R := rsum n (fun k => at0 f k * Pm k j).
Lemma rls_prod_R b0 i j : (0 <= i < n)%Z -> rls_prod R_num n lambda f v0 b0 P i j = Pm i j - Pf i * fP j / (lambda + fPf).
Proof.
  intros Hi. unfold rls_prod. rewrite sum_from_R by exact HN. cbn [n0 n1 nmul R_num]. rewrite Rmult_0_r, Rplus_0_l.
  rewrite (rsum_ext n _ (fun k => (if (i =? k)%Z then Pm k j else 0) + (- (Pf i / (lambda + fPf))) * (at0 f k * Pm k j))).
  - rewrite rsum_plus, rsum_scal, (rsum_delta n i (fun k => Pm k j)) by exact Hi. fold (fP j). field. exact NZ.
  - intros k Hk. rewrite rls_corr_R. destruct (i =? k)%Z; ring.
Qed.

(** New prediction on the same features. *)
Lemma rls_new_prediction ydim y p w w' i : (0 <= i < ydim)%Z ->
  block_updated R_num ydim n n (fun i k x => axpy1 R_num (nsub R_num (at0 y i) (at0 p i)) (rls_gain R_num n lambda f v0 P k) x) w w' ->
  predicted R_num n w' f i = predicted R_num n w f i + (at0 y i - at0 p i) * (fPf / (lambda + fPf)).
Proof.
  intros Hi (L & S1 & S2). rewrite !predicted_R by exact HN. unfold fPf at 1.
  replace ((at0 y i - at0 p i) * (rsum n (fun k => at0 f k * Pf k) / (lambda + fPf)))
    with ((at0 y i - at0 p i) / (lambda + fPf) * rsum n (fun k => at0 f k * Pf k)) by (field; exact NZ).
  rewrite <- rsum_scal, <- rsum_plus. apply rsum_ext. intros k Hk. cbn [n0 R_num] in S1. rewrite S1 by assumption.
  rewrite axpy1_R, rls_gain_R. cbn [nsub R_num]. field. exact NZ.
Qed.

Definition symmetric (M : list R) : Prop := forall i j, (0 <= i < n)%Z -> (0 <= j < n)%Z -> at0 M (i * n + j) = at0 M (j * n + i).
Definition quad_form (M : list R) (z : Z -> R) : R := rsum n (fun i => z i * rsum n (fun j => at0 M (i * n + j) * z j)).
Definition psd (M : list R) : Prop := forall z, 0 <= quad_form M z.
Lemma sym_fP : symmetric P -> forall j, (0 <= j < n)%Z -> fP j = Pf j.
Proof. intros H j Hj. unfold fP, Pf. apply rsum_ext. intros k Hk. rewrite (H k j) by assumption. ring. Qed.
Lemma rls_symmetric b0 P' : symmetric P -> lambda <> 0 ->
  (forall i j, (0 <= i < n)%Z -> (0 <= j < n)%Z -> at0 P' (i * n + j) = rls_prod R_num n lambda f v0 b0 P i j / lambda) -> symmetric P'.
Proof.
  intros HS HL HP i j Hi Hj. rewrite !HP, !rls_prod_R by assumption. rewrite !sym_fP, (HS i j) by assumption. field. auto.
Qed.
End Rls.

(** The bilinear form of a symmetric matrix and Cauchy-Schwarz. *)
Section Form.
Context (n : Z) (M : list R).
Definition bil (a b : Z -> R) : R := rsum n (fun i => a i * rsum n (fun j => at0 M (i * n + j) * b j)).
Lemma bil_plus a b c t : bil a (fun i => b i + t * c i) = bil a b + t * bil a c.
Proof.
  unfold bil. rewrite <- rsum_scal, <- rsum_plus. apply rsum_ext. intros i Hi.
  rewrite (rsum_ext n _ (fun j => at0 M (i * n + j) * b j + t * (at0 M (i * n + j) * c j))) by (intros; ring). rewrite rsum_plus, rsum_scal. ring.
Qed.
Lemma bil_sym a b : symmetric n M -> bil a b = bil b a.
Proof.
  intros H. unfold bil. rewrite (rsum_ext n _ (fun i => rsum n (fun j => a i * (at0 M (i * n + j) * b j)))) by (intros; now rewrite rsum_scal).
  rewrite rsum_swap. apply rsum_ext. intros j Hj. rewrite <- rsum_scal. apply rsum_ext. intros i Hi. rewrite (H i j) by assumption. ring.
Qed.
Lemma bil_plus_l a b c t : symmetric n M -> bil (fun i => b i + t * c i) a = bil b a + t * bil c a.
Proof. intros H. rewrite bil_sym, bil_plus, (bil_sym a b), (bil_sym a c) by assumption. reflexivity. Qed.
Lemma cauchy_schwarz a b : symmetric n M -> psd n M -> bil a b * bil a b <= bil a a * bil b b.
Proof.
  intros HS HP. pose proof (HP a) as A. pose proof (HP b) as B0. change (0 <= bil a a) in A. change (0 <= bil b b) in B0.
  assert (F : forall t, 0 <= bil a a + 2 * t * bil a b + t * t * bil b b).
  { intros t. pose proof (HP (fun i => a i + t * b i)) as H. change (0 <= bil (fun i => a i + t * b i) (fun i => a i + t * b i)) in H.
    rewrite bil_plus, !bil_plus_l in H by assumption. rewrite (bil_sym b a HS) in H. lra. }
  destruct (Req_dec (bil b b) 0) as [Z0|NZ].
  - destruct (Req_dec (bil a b) 0) as [Z1|N1]; [rewrite Z1; nra|].
    pose proof (F (- (bil a a + 1) / (2 * bil a b))) as H. rewrite Z0 in H.
    replace (bil a a + 2 * (- (bil a a + 1) / (2 * bil a b)) * bil a b + - (bil a a + 1) / (2 * bil a b) * (- (bil a a + 1) / (2 * bil a b)) * 0) with (-1) in H by (field; exact N1). lra.
  - pose proof (F (- bil a b / bil b b)) as H.
    replace (bil a a + 2 * (- bil a b / bil b b) * bil a b + - bil a b / bil b b * (- bil a b / bil b b) * bil b b)
      with ((bil a a * bil b b - bil a b * bil a b) / bil b b) in H by (field; exact NZ).
    assert (0 < bil b b) by lra. apply Rmult_le_compat_r with (r := bil b b) in H; [|lra].
    unfold Rdiv in H. rewrite Rmult_assoc, Rinv_l in H by exact NZ. lra.
Qed.
End Form.

(** The gain matrix stays positive semidefinite. *)
Lemma fPf_quad n f P : fPf n f P = quad_form n P (fun i => at0 f i).
Proof. reflexivity. Qed.
Lemma rls_psd n lambda f v0 b0 P P' : (0 <= n)%Z -> symmetric n P -> psd n P -> 0 < lambda ->
  (forall i j, (0 <= i < n)%Z -> (0 <= j < n)%Z -> at0 P' (i * n + j) = rls_prod R_num n lambda f v0 b0 P i j / lambda) -> psd n P'.
Proof.
  intros HN HS HP HL HE z. pose proof (HP (fun i => at0 f i)) as HF. rewrite <- fPf_quad in HF.
  set (F := fPf n f P) in *. assert (NZ : lambda + F <> 0) by lra.
  assert (E : quad_form n P' z = (bil n P z z - bil n P z (fun i => at0 f i) * bil n P z (fun i => at0 f i) / (lambda + F)) / lambda).
  { unfold quad_form. rewrite (rsum_ext n _ (fun i => / lambda * (z i * rsum n (fun j => at0 P (i * n + j) * z j)) +
        (- (bil n P z (fun i => at0 f i) / (lambda + F)) / lambda) * (z i * Pf n f P i))).
    - rewrite rsum_plus, !rsum_scal. fold (bil n P z z). change (rsum n (fun k => z k * Pf n f P k)) with (bil n P z (fun i => at0 f i)). field. lra.
    - intros i Hi.
      rewrite (rsum_ext n _ (fun j => / lambda * (at0 P (i * n + j) * z j) + (- Pf n f P i / (lambda + F) / lambda) * (z j * Pf n f P j))).
      + rewrite rsum_plus, !rsum_scal. change (rsum n (fun k => z k * Pf n f P k)) with (bil n P z (fun i => at0 f i)). field. lra.
      + intros j Hj. rewrite HE, rls_prod_R by assumption. rewrite (sym_fP n f P HS j Hj). fold F. field. lra. }
  rewrite E. pose proof (cauchy_schwarz n P z (fun i => at0 f i) HS HP) as CS. assert (EF : bil n P (fun i => at0 f i) (fun i => at0 f i) = F) by reflexivity. rewrite EF in CS.
  pose proof (HP z) as HZ. change (0 <= bil n P z z) in HZ. set (b := bil n P z (fun i => at0 f i)) in *. set (a := bil n P z z) in *.
  apply Rmult_le_pos; [|left; apply Rinv_0_lt_compat; exact HL].
  assert (a - b * b / (lambda + F) = (a * (lambda + F) - b * b) / (lambda + F)) as -> by (field; lra).
  apply Rmult_le_pos; [nra|left; apply Rinv_0_lt_compat; lra].
Qed.

(** ** Whole prediction updates. *)
Lemma features_at quad x0 x : len (features R_num quad x0 x) = n_features (len x) quad.
Proof. apply n_features_ok. Qed.
(** One NLMS step: compute, update, compute again (pred_nlms.c:114-147). *)
Lemma nlms_step_exact quad x0 eta x y ydim w tmp p0 : let n := n_features (len x) quad in
  len tmp = n -> (0 <= ydim)%Z -> len y = ydim -> len p0 = ydim -> len w = (n * ydim)%Z -> x0 * x0 + norm2 x <> 0 ->
  exists f p w' p',
    transform_input R_num (len x) quad x x0 tmp = Ok f /\
    inner_products R_num ydim n w f p0 = Ok p /\
    nlms_weights R_num (len x) ydim n x0 eta x y p f w = Ok w' /\
    inner_products R_num ydim n w' f p = Ok p' /\
    len w' = len w /\
    (forall i, (0 <= i < ydim)%Z -> at0 p i = rsum n (fun k => at0 w (i * n + k) * at0 f k)) /\
    (forall i, (0 <= i < ydim)%Z -> at0 y i - at0 p' i =
       (1 - eta * (norm2 f / (x0 * x0 + norm2 x))) * (at0 y i - at0 p i)).
Proof.
  intros n LT HY LY LP LW NZ. pose proof (features_at quad x0 x) as LF. fold n in LF. set (f := features R_num quad x0 x) in *.
  assert (HN : (0 <= n)%Z) by (rewrite <- LF; apply len_nonneg).
  destruct (inner_products_ok R_num ydim n w f p0) as (p & EP & L1 & S1 & _); [lia|lia|exact LW|].
  destruct (nlms_weights_ok R_num ydim n x0 eta x y p f w) as (w' & EW & BW); [lia|lia|lia|exact LW|].
  destruct (inner_products_ok R_num ydim n w' f p) as (p' & EP' & L2 & S2 & _); [lia|lia|unfold rows; destruct BW as (-> & _); exact LW|].
  exists f, p, w', p'. split; [apply transform_exact, LT|]. split; [exact EP|]. split; [exact EW|]. split; [exact EP'|].
  split; [apply BW|]. cbn [n0 R_num] in S1, S2. split.
  - intros i Hi. rewrite S1 by exact Hi. apply predicted_R, HN.
  - intros i Hi. rewrite S2 by exact Hi. rewrite (nlms_new_prediction ydim n x0 eta x y p f w w' i HN LF Hi BW), <- S1 by exact Hi. field. exact NZ.
Qed.
Lemma norm2_linear x0 x : norm2 (features R_num false x0 x) = x0 * x0 + norm2 x.
Proof. unfold features. rewrite app_nil_r. apply norm2_cons. Qed.
Lemma norm2_quadratic x0 x : norm2 (features R_num true x0 x) = x0 * x0 + norm2 x + norm2 (pairs R_num x).
Proof. unfold features. rewrite norm2_cons, norm2_app. lra. Qed.

(** One RLS step (pred_rls.c:105-167). *)
Lemma rls_step_exact quad x0 lambda x y ydim w P tmp v0 a0 b0 p0 : let n := n_features (len x) quad in
  len tmp = n -> (0 <= ydim)%Z -> len y = ydim -> len p0 = ydim -> len w = (n * ydim)%Z -> len P = (n * n)%Z ->
  len v0 = n -> len a0 = (n * n)%Z -> len b0 = (n * n)%Z ->
  0 < lambda -> symmetric n P -> psd n P ->
  exists f p w' P' t p',
    transform_input R_num (len x) quad x x0 tmp = Ok f /\
    inner_products R_num ydim n w f p0 = Ok p /\
    rls_update R_num ydim n lambda y p f v0 a0 b0 w P = Ok (w', P', t) /\
    inner_products R_num ydim n w' f p = Ok p' /\
    len w' = len w /\ len P' = len P /\
    (forall i, (0 <= i < ydim)%Z -> at0 p i = rsum n (fun k => at0 w (i * n + k) * at0 f k)) /\
    (forall i, (0 <= i < ydim)%Z -> at0 y i - at0 p' i = lambda / (lambda + fPf n f P) * (at0 y i - at0 p i)) /\
    (forall i j, (0 <= i < n)%Z -> (0 <= j < n)%Z ->
       at0 P' (i * n + j) = (at0 P (i * n + j) - Pf n f P i * Pf n f P j / (lambda + fPf n f P)) / lambda) /\
    symmetric n P' /\ psd n P'.
Proof.
  intros n LT HY LY LP LW LM LV LA LB HL HS HD. pose proof (features_at quad x0 x) as LF. fold n in LF. set (f := features R_num quad x0 x) in *.
  assert (HN : (0 <= n)%Z) by (rewrite <- LF; apply len_nonneg).
  destruct (inner_products_ok R_num ydim n w f p0) as (p & EP & L1 & S1 & _); [lia|lia|exact LW|].
  destruct (rls_update_ok R_num ydim n lambda y p f v0 a0 b0 w P) as (w' & P' & v & a & b & EU & [RV RA RB RW RP]); try lia; [exact LW|].
  destruct (inner_products_ok R_num ydim n w' f p) as (p' & EP' & L2 & S2 & _); [lia|lia|unfold rows; destruct RW as (-> & _); exact LW|].
  assert (NZ : lambda + fPf n f P <> 0).
  { pose proof (HD (fun i => at0 f i)) as HF. rewrite <- fPf_quad in HF. lra. }
  cbn [n0 R_num] in S1, S2. destruct RP as (LP' & RP). cbn [n0 ndiv R_num] in RP.
  exists f, p, w', P', (v, a, b), p'. split; [apply transform_exact, LT|]. split; [exact EP|]. split; [exact EU|]. split; [exact EP'|].
  split; [apply RW|]. split; [exact LP'|]. split.
  { intros i Hi. rewrite S1 by exact Hi. apply predicted_R, HN. }
  split.
  { intros i Hi. rewrite S2 by exact Hi. rewrite (rls_new_prediction n HN lambda f v0 P NZ ydim y p w w' i Hi RW), <- S1 by exact Hi. field. exact NZ. }
  split.
  { intros i j Hi Hj. rewrite RP, rls_prod_R by assumption. now rewrite sym_fP by assumption. }
  split.
  - apply (rls_symmetric n HN lambda f v0 P NZ b0 P' HS); [lra|exact RP].
  - apply (rls_psd n lambda f v0 b0 P P' HN HS HD HL RP).
Qed.

(** ** Constant predictions (C32): one update per target, experience 1, 2, ... *)
Fixpoint constant_run (ydim : Z) (beta : R) (e : Z) (p : list R) (ys : list (list R)) : outcome (list R) :=
  match ys with
  | [] => Ok p
  | y :: r => (p' <- constant_update R_num ydim (if Rlt_dec (IZR e * beta) 1 then true else false) (IZR e) (IZR (e - 1)) beta p y ;;
               constant_run ydim beta (e + 1) p' r)%out
  end.
Definition total (ys : list (list R)) (i : Z) : R := fold_right (fun y s => at0 y i + s) 0 ys.

Lemma constant_step ydim beta e p y : (0 <= ydim)%Z -> len p = ydim -> len y = ydim -> (1 <= e)%Z ->
  exists p', constant_update R_num ydim (if Rlt_dec (IZR e * beta) 1 then true else false) (IZR e) (IZR (e - 1)) beta p y = Ok p' /\ len p' = ydim /\
    forall i, (0 <= i < ydim)%Z ->
      (IZR e * beta < 1 -> at0 p' i = (at0 p i * IZR (e - 1) + at0 y i) / IZR e) /\
      (1 <= IZR e * beta -> at0 p' i = at0 p i + beta * (at0 y i - at0 p i)).
Proof.
  intros HY LP LY HE. destruct (constant_update_ok R_num ydim (if Rlt_dec (IZR e * beta) 1 then true else false) (IZR e) (IZR (e - 1)) beta p y) as (p' & E & L & S1 & _); [lia|lia|].
  exists p'. split; [exact E|]. split; [congruence|]. intros i Hi. specialize (S1 i Hi). cbn [n0 nadd nsub nmul ndiv R_num] in S1.
  destruct (Rlt_dec (IZR e * beta) 1); split; intros H; try lra; exact S1.
Qed.
Lemma constant_mean ydim beta : 0 <= beta -> (0 <= ydim)%Z -> forall ys e p,
  (1 <= e)%Z -> len p = ydim -> Forall (fun y => len y = ydim) ys -> IZR (e + len ys - 1) * beta < 1 ->
  exists p', constant_run ydim beta e p ys = Ok p' /\ len p' = ydim /\
    forall i, (0 <= i < ydim)%Z -> at0 p' i * IZR (e + len ys - 1) = at0 p i * IZR (e - 1) + total ys i.
Proof.
  intros HB HY. induction ys as [|y ys IH]; intros e p HE LP FY HW; cbn [constant_run total fold_right].
  - exists p. split; [reflexivity|]. split; [exact LP|]. intros i Hi. change (len (@nil (list R))) with 0%Z. rewrite Z.add_0_r. symmetry. apply Rplus_0_r.
  - inversion FY as [|? ? LY FY']; subst. rewrite len_cons in HW |- *. pose proof (len_nonneg ys).
    assert (WE : IZR e * beta < 1).
    { eapply Rle_lt_trans; [|exact HW]. apply Rmult_le_compat_r; [exact HB|]. apply IZR_le. lia. }
    destruct (constant_step (len p) beta e p y HY eq_refl LY HE) as (p1 & E1 & L1 & S1). rewrite E1. cbn [obind].
    destruct (IH (e + 1)%Z p1) as (p' & E' & L' & S'); [lia|exact L1|exact FY'|replace (e + 1 + len ys - 1)%Z with (e + (1 + len ys) - 1)%Z by lia; exact HW|].
    exists p'. split; [exact E'|]. split; [exact L'|]. intros i Hi.
    replace (e + (1 + len ys) - 1)%Z with (e + 1 + len ys - 1)%Z by lia. rewrite S' by exact Hi.
    destruct (S1 i Hi) as (M & _). rewrite M by exact WE. replace (e + 1 - 1)%Z with e by lia. fold (total ys i). field. apply not_0_IZR. lia.
Qed.
Lemma constant_hull ydim beta lo hi i : 0 < beta <= 1 -> (0 <= i < ydim)%Z -> forall ys e p,
  (1 <= e)%Z -> len p = ydim -> Forall (fun y => len y = ydim) ys -> Forall (fun y => lo <= at0 y i <= hi) ys ->
  ((e = 1)%Z /\ ys <> [] \/ lo <= at0 p i <= hi) ->
  exists p', constant_run ydim beta e p ys = Ok p' /\ len p' = ydim /\ lo <= at0 p' i <= hi.
Proof.
  intros HB Hi. induction ys as [|y ys IH]; intros e p HE LP FY FR HP; cbn [constant_run].
  - exists p. split; [reflexivity|]. split; [exact LP|]. destruct HP as [(_ & N)|H]; [congruence|exact H].
  - inversion FY as [|? ? LY FY']; inversion FR as [|? ? RY FR']; subst.
    destruct (constant_step (len p) beta e p y ltac:(lia) eq_refl LY HE) as (p1 & E1 & L1 & S1). rewrite E1. cbn [obind].
    apply IH; [lia|exact L1|exact FY'|exact FR'|]. right. destruct (S1 i Hi) as (M1 & M2).
    assert (EP : 0 < IZR e) by (apply IZR_lt; lia).
    destruct (Rlt_dec (IZR e * beta) 1) as [W|W].
    + rewrite M1 by exact W. rewrite minus_IZR. destruct HP as [(-> & _)|HP].
      * replace ((at0 p i * (1 - 1) + at0 y i) / 1) with (at0 y i) by field. exact RY.
      * assert (1 <= IZR e) by (apply IZR_le; lia).
        assert (G : forall v, v = v * IZR e / IZR e) by (intros; field; lra).
        rewrite (G lo) at 1. rewrite (G hi). split; apply Rmult_le_compat_r; try (left; apply Rinv_0_lt_compat; lra); nra.
    + rewrite M2 by lra. destruct HP as [(-> & _)|HP].
      * assert (beta = 1) as -> by lra. replace (at0 p i + 1 * (at0 y i - at0 p i)) with (at0 y i) by ring. exact RY.
      * split; nra.
Qed.
