(** * Predictions (C29-C32) and matrix kernels (C49). *)
From Coq Require Import ZArith Bool List Lia Reals Lra Psatz.
From Verif Require Import Outcome F64 F64Facts Rng Arr ArrFacts Blas BlasFacts Sam SamFacts Pop Pred PredFacts Exact Cond RectFacts Comp CompFacts.
Import ListNotations.
Open Scope Z_scope.

(** ** C29 *)
(** The offset, the inputs, and for quadratic predictions for each i the products with
    x_i, ..., x_(n-1). *)
Lemma C29_lemma {T} (Q : num T) quad x x0 tmp : len tmp = n_features (len x) quad ->
  transform_input Q (len x) quad x x0 tmp = Ok (x0 :: x ++
    if quad then concat (map (fun i => map (fun k => nmul Q (at_ (n0 Q) x i) (at_ (n0 Q) x (i + k))) (iota (len x - i))) (iota (len x))) else []).
Proof.
  intros L. rewrite transform_exact by exact L. unfold features. destruct quad; [|reflexivity]. rewrite <- (rows_pairs Q x). reflexivity.
Qed.
Lemma C29_count_lemma xdim quad : 0 <= xdim ->
  n_features xdim quad = 1 + xdim + if quad then Z.of_nat (length (concat (map (fun i => iota (xdim - i)) (iota xdim)))) else 0.
Proof.
  intros H. destruct quad; [|unfold n_features; lia].
  set (x := repeat f0 (Z.to_nat xdim)). assert (L : len x = xdim) by (apply len_repeat, H).
  rewrite <- L, <- (n_features_ok f64_num true f0 x). unfold features. rewrite len_cons, len_app, <- (rows_pairs f64_num x).
  assert (E : len (concat (map (row f64_num x) (iota (len x)))) = Z.of_nat (length (concat (map (fun i => iota (len x - i)) (iota (len x)))))).
  { unfold len at 1. f_equal. induction (iota (len x)) as [|a l IH]; [reflexivity|]. cbn [map concat]. rewrite !app_length, IH. unfold row. rewrite map_length. reflexivity. }
  rewrite E, L. lia.
Qed.

(** ** C30 *)
Open Scope R_scope.
Lemma C30_linear_lemma x0 eta x y ydim w tmp p0 : let n := (len x + 1)%Z in
  len tmp = n -> (0 <= ydim)%Z -> len y = ydim -> len p0 = ydim -> len w = (n * ydim)%Z -> x0 * x0 + norm2 x <> 0 ->
  exists f p w' p',
    transform_input R_num (len x) false x x0 tmp = Ok f /\
    inner_products R_num ydim n w f p0 = Ok p /\
    nlms_weights R_num (len x) ydim n x0 eta x y p f w = Ok w' /\
    inner_products R_num ydim n w' f p = Ok p' /\
    len w' = len w /\
    (forall i, (0 <= i < ydim)%Z -> at0 p i = at0 w (i * n) * x0 + rsum (len x) (fun k => at0 w (i * n + 1 + k) * at0 x k)) /\
    (forall i, (0 <= i < ydim)%Z -> at0 y i - at0 p' i = (1 - eta) * (at0 y i - at0 p i)) /\
    (0 < eta < 2 -> forall i, (0 <= i < ydim)%Z -> at0 p i <> at0 y i -> Rabs (at0 y i - at0 p' i) < Rabs (at0 y i - at0 p i)).
Proof.
  intros n LT HY LY LP LW NZ. destruct (nlms_step_exact false x0 eta x y ydim w tmp p0 LT HY LY LP LW NZ) as (f & p & w' & p' & E1 & E2 & E3 & E4 & L & P1 & P2).
  exists f, p, w', p'. do 5 (split; [assumption|]).
  assert (EF : f = x0 :: x). { rewrite transform_exact in E1 by exact LT. injection E1 as <-. unfold features. now rewrite app_nil_r. }
  assert (ST : forall i, (0 <= i < ydim)%Z -> at0 y i - at0 p' i = (1 - eta) * (at0 y i - at0 p i)).
  { intros i Hi. rewrite P2 by exact Hi. rewrite EF, norm2_cons. field. exact NZ. }
  split; [|split; [exact ST|]].
  - intros i Hi. rewrite P1 by exact Hi. change (n_features (len x) false) with n. unfold n. replace (len x + 1)%Z with (1 + len x)%Z by lia.
    rewrite EF, rsum_1 by apply len_nonneg. change (at0 (x0 :: x) 0) with x0. rewrite Z.add_0_r. f_equal.
    apply rsum_ext. intros k Hk. rewrite at_cons by lia. f_equal. f_equal. lia.
  - intros B i Hi NE. rewrite ST, Rabs_mult by exact Hi. assert (0 < Rabs (at0 y i - at0 p i)) by (apply Rabs_pos_lt; lra).
    assert (Rabs (1 - eta) < 1) by (apply Rabs_def1; lra). nra.
Qed.
(** In general: the error is multiplied by 1 - eta * |features|^2 / (x0^2 + |x|^2). *)
Lemma C30_quadratic_lemma x0 eta x y ydim w tmp p0 : let n := n_features (len x) true in
  len tmp = n -> (0 <= ydim)%Z -> len y = ydim -> len p0 = ydim -> len w = (n * ydim)%Z -> 0 < x0 * x0 + norm2 x ->
  exists f p w' p',
    transform_input R_num (len x) true x x0 tmp = Ok f /\
    inner_products R_num ydim n w f p0 = Ok p /\
    nlms_weights R_num (len x) ydim n x0 eta x y p f w = Ok w' /\
    inner_products R_num ydim n w' f p = Ok p' /\
    len w' = len w /\
    (forall i, (0 <= i < ydim)%Z -> at0 p i = rsum n (fun k => at0 w (i * n + k) * at0 f k)) /\
    (forall i, (0 <= i < ydim)%Z -> at0 y i - at0 p' i = (1 - eta * (1 + norm2 (pairs R_num x) / (x0 * x0 + norm2 x))) * (at0 y i - at0 p i)) /\
    (0 < eta -> eta * (1 + norm2 (pairs R_num x) / (x0 * x0 + norm2 x)) < 2 -> forall i, (0 <= i < ydim)%Z -> at0 p i <> at0 y i ->
       Rabs (at0 y i - at0 p' i) < Rabs (at0 y i - at0 p i)).
Proof.
  intros n LT HY LY LP LW NZ. destruct (nlms_step_exact true x0 eta x y ydim w tmp p0 LT HY LY LP LW ltac:(lra)) as (f & p & w' & p' & E1 & E2 & E3 & E4 & L & P1 & P2).
  exists f, p, w', p'. do 6 (split; [assumption|]).
  assert (ST : forall i, (0 <= i < ydim)%Z -> at0 y i - at0 p' i = (1 - eta * (1 + norm2 (pairs R_num x) / (x0 * x0 + norm2 x))) * (at0 y i - at0 p i)).
  { intros i Hi. rewrite P2 by exact Hi. assert (EF : f = features R_num true x0 x) by (rewrite transform_exact in E1 by exact LT; congruence).
    rewrite EF, norm2_quadratic. field. lra. }
  split; [exact ST|]. intros B1 B2 i Hi NE. rewrite ST, Rabs_mult by exact Hi.
  assert (0 < Rabs (at0 y i - at0 p i)) by (apply Rabs_pos_lt; lra).
  assert (0 <= norm2 (pairs R_num x) / (x0 * x0 + norm2 x)) by (apply Rmult_le_pos; [apply norm2_nonneg|left; apply Rinv_0_lt_compat; lra]).
  assert (Rabs (1 - eta * (1 + norm2 (pairs R_num x) / (x0 * x0 + norm2 x))) < 1) by (apply Rabs_def1; nra). nra.
Qed.
(** Quadratic features are not in the divisor: with x0 = 1, x = (10) and rate 1/10 the
    error is multiplied by -9 or so. *)
Lemma C30_refuted_lemma : exists x0 eta x y w f p w' p', 0 < eta < 2 /\ len x = 1%Z /\
    transform_input R_num 1 true x x0 [0; 0; 0] = Ok f /\ inner_products R_num 1 3 w f [0] = Ok p /\
    nlms_weights R_num 1 1 3 x0 eta x y p f w = Ok w' /\ inner_products R_num 1 3 w' f p = Ok p' /\
    8 * Rabs (at0 y 0 - at0 p 0) < Rabs (at0 y 0 - at0 p' 0).
Proof.
  assert (N2 : norm2 [10] = 100). { rewrite norm2_cons. change (norm2 []) with 0. lra. }
  destruct (C30_quadratic_lemma 1 (/ 10) [10] [1] 1 [0; 0; 0] [0; 0; 0] [0]) as (f & p & w' & p' & E1 & E2 & E3 & E4 & _ & P1 & P2 & _); [reflexivity|discriminate|reflexivity|reflexivity|reflexivity|rewrite N2; lra|].
  exists 1, (/ 10), [10], [1], [0; 0; 0], f, p, w', p'. split; [lra|]. split; [reflexivity|]. do 4 (split; [assumption|]).
  rewrite (P2 0%Z) by lia. assert (EP : at0 p 0 = 0).
  { rewrite P1 by lia. change (n_features (len [10]) true) with 3%Z. change (rsum 3 (fun k => at0 [0; 0; 0] (0 * 3 + k) * at0 f k)) with (0 + 0 * at0 f 0 + 0 * at0 f 1 + 0 * at0 f 2). lra. }
  rewrite EP. change (at0 [1] 0) with 1. rewrite N2. assert (NP : norm2 (pairs R_num [10]) = 10000).
  { cbn [pairs map app nmul R_num]. rewrite norm2_cons. change (norm2 []) with 0. lra. }
  rewrite NP. replace (1 - 0) with 1 by lra. rewrite !Rmult_1_r, Rabs_R1.
  rewrite Rabs_left; lra.
Qed.

(** ** C31 *)
(** Any number of steps: (input, target) pairs. *)
Fixpoint rls_run (xdim ydim n : Z) (quad : bool) (x0 lambda : R) (d : list (list R * list R))
    (s : list R * list R * list R * list R * list R * list R * list R) :=
  match d with
  | [] => Ok s
  | (x, y) :: r =>
      let '(w, P, tmp, v0, a0, b0, p0) := s in
      (f <- transform_input R_num xdim quad x x0 tmp ;;
       p <- inner_products R_num ydim n w f p0 ;;
       u <- rls_update R_num ydim n lambda y p f v0 a0 b0 w P ;;
       let '(w', P', (v, a, b)) := u in
       rls_run xdim ydim n quad x0 lambda r (w', P', f, v, a, b, p))%out
  end.
Definition sized (ydim n : Z) (s : list R * list R * list R * list R * list R * list R * list R) : Prop :=
  let '(w, P, tmp, v0, a0, b0, p0) := s in
  len w = (n * ydim)%Z /\ len P = (n * n)%Z /\ len tmp = n /\ len v0 = n /\ len a0 = (n * n)%Z /\ len b0 = (n * n)%Z /\ len p0 = ydim.
Lemma C31_run_lemma xdim ydim quad x0 lambda : (0 <= ydim)%Z -> 0 < lambda -> forall d s, let n := n_features xdim quad in
  sized ydim n s -> (let '(_, P, _, _, _, _, _) := s in symmetric n P /\ psd n P) ->
  Forall (fun r => len (fst r) = xdim /\ len (snd r) = ydim) d ->
  exists s', rls_run xdim ydim n quad x0 lambda d s = Ok s' /\ sized ydim n s' /\
    let '(_, P, _, _, _, _, _) := s' in symmetric n P /\ psd n P.
Proof.
  intros HY HL. induction d as [|(x & y) d IH]; intros s n SZ SP F.
  - exists s. split; [reflexivity|]. split; assumption.
  - inversion F as [|? ? (LX & LY) F']; subst. cbn [fst snd] in *. destruct s as ((((((w & P) & tmp) & v0) & a0) & b0) & p0).
    destruct SZ as (Z1 & Z2 & Z3 & Z4 & Z5 & Z6 & Z7). destruct SP as (SS & PP).
    assert (HN : (0 <= n)%Z) by (rewrite <- Z3; apply len_nonneg).
    destruct (rls_step_exact quad x0 lambda x y (len y) w P tmp v0 a0 b0 p0) as (f & p & w' & P' & t & p' & E1 & E2 & E3 & _ & L1 & L2 & _ & _ & _ & S' & D'); try assumption; try reflexivity.
    cbn [rls_run]. rewrite E1. cbn [obind]. fold n in E2, E3. rewrite E2. cbn [obind]. rewrite E3. cbn [obind].
    assert (EF : f = features R_num quad x0 x) by (rewrite transform_exact in E1 by exact Z3; congruence).
    assert (LF : len f = n) by (rewrite EF; apply n_features_ok).
    destruct (inner_products_ok R_num (len y) n w f p0) as (p2 & EP2 & LP2 & _); [lia|lia|exact Z1|].
    assert (p2 = p) by congruence. subst p2.
    destruct (rls_update_ok R_num (len y) n lambda y p f v0 a0 b0 w P) as (w2 & P2 & v & a & b & EU & [RV RA RB RW RP]); try lia; [exact Z1|].
    rewrite EU in E3. injection E3 as <- <- <-. cbn beta iota. apply IH; [|split; assumption|exact F'].
    destruct RV as (RV & _), RA as (RA & _), RB as (RB & _). unfold n in *. split; [congruence|]. split; [congruence|]. split; [congruence|]. split; [congruence|]. split; [congruence|]. split; congruence.
Qed.
(** The initial gain matrix. *)
Lemma C31_init_lemma n scale : (0 <= n)%Z -> 0 <= scale -> exists P, init_matrix R_num n scale = Ok P /\ len P = (n * n)%Z /\ symmetric n P /\ psd n P.
Proof.
  intros HN HS. destruct (init_matrix_ok R_num n scale HN) as (P & E & L & S). cbn [n0 R_num] in S. exists P. split; [exact E|]. split; [exact L|]. split.
  - intros i j Hi Hj. rewrite !S by assumption. rewrite Z.eqb_sym. reflexivity.
  - intros z. unfold quad_form. apply rsum_nonneg. intros i Hi.
    rewrite (rsum_ext n _ (fun j => if (i =? j)%Z then scale * z j else 0)) by (intros j Hj; rewrite S by assumption; destruct (i =? j)%Z; lra).
    rewrite (rsum_delta n i (fun j => scale * z j)) by exact Hi. nra.
Qed.

(** ** C32 *)
Lemma C32_mean_lemma ydim beta : 0 <= beta -> (0 <= ydim)%Z -> forall ys p,
  len p = ydim -> ys <> [] -> Forall (fun y => len y = ydim) ys -> IZR (len ys) * beta < 1 ->
  exists p', constant_run ydim beta 1 p ys = Ok p' /\ len p' = ydim /\
    forall i, (0 <= i < ydim)%Z -> at0 p' i = Exact.total ys i / IZR (len ys).
Proof.
  intros HB HY ys p LP NE F HW. destruct (constant_mean ydim beta HB HY ys 1 p) as (p' & E & L & S); try lia; try assumption.
  { replace (1 + len ys - 1)%Z with (len ys) by lia. exact HW. }
  exists p'. split; [exact E|]. split; [exact L|]. intros i Hi. specialize (S i Hi). replace (1 + len ys - 1)%Z with (len ys) in S by lia.
  rewrite Z.sub_diag, Rmult_0_r, Rplus_0_l in S. rewrite <- S.
  assert (0 < IZR (len ys)). { apply IZR_lt. destruct ys; [congruence|]. rewrite len_cons. pose proof (len_nonneg ys). lia. }
  field. lra.
Qed.
Lemma C32_hull_lemma ydim beta lo hi i : 0 < beta <= 1 -> (0 <= i < ydim)%Z -> forall ys p,
  len p = ydim -> ys <> [] -> Forall (fun y => len y = ydim) ys -> Forall (fun y => lo <= at0 y i <= hi) ys ->
  exists p', constant_run ydim beta 1 p ys = Ok p' /\ len p' = ydim /\ lo <= at0 p' i <= hi.
Proof. intros HB Hi ys p LP NE F R. apply (constant_hull ydim beta lo hi i HB Hi ys 1 p); auto. lia. Qed.

(** ** C49 *)
Lemma C49_gemm_lemma TA TB M N K alpha A lda B ldb beta C ldc : fits M N ldc C -> (0 <= K)%Z ->
  readable TA A lda M K -> readable TB B ldb K N ->
  exists C', blas_gemm R_num TA TB M N K alpha A lda B ldb beta C ldc = Ok C' /\ len C' = len C /\
    (forall i j, (0 <= i < M)%Z -> (0 <= j < N)%Z -> at0 C' (i * ldc + j) =
       alpha * rsum K (fun k => at0 A (if TA then k * lda + i else i * lda + k) * at0 B (if TB then j * ldb + k else k * ldb + j)) + beta * at0 C (i * ldc + j)) /\
    (forall q, (0 <= q)%Z -> (forall i j, (0 <= i < M)%Z -> (0 <= j < N)%Z -> q <> (i * ldc + j)%Z) -> at0 C' q = at0 C q).
Proof.
  intros F HK RA RB. destruct (blas_gemm_ok R_num TA TB M N K alpha A lda B ldb beta C ldc F HK RA RB) as (C' & E & (L & S1 & S2)).
  exists C'. split; [exact E|]. split; [exact L|]. split; [|exact S2]. intros i j Hi Hj. cbn [n0 R_num] in S1. rewrite S1 by assumption.
  rewrite gemm_entry_R by exact HK. reflexivity.
Qed.
