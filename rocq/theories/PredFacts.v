(** * What the predictions compute, for any numbers. *)
From Coq Require Import ZArith Bool List Lia.
From Verif Require Import Outcome F64 Rng Arr ArrFacts Blas BlasFacts Sam Pop Pred.
Import ListNotations.
Open Scope Z_scope.

(** ** Feature expansion. *)
Lemma wr_app {A} (l : list A) a r v : wr (l ++ a :: r) (len l) v = Ok (l ++ v :: r).
Proof.
  unfold wr, len. rewrite app_length. cbn [length]. destruct (Z.ltb_spec (Z.of_nat (length l)) 0); [lia|].
  destruct (Z.leb_spec (Z.of_nat (length l + S (length r))) (Z.of_nat (length l))); [lia|]. cbn [orb]. f_equal.
  rewrite Nat2Z.id. induction l as [|b l IH]; cbn; [reflexivity|]. f_equal. apply IH; cbn in *; lia.
Qed.
Lemma len_app {A} (l r : list A) : len (l ++ r) = len l + len r.
Proof. unfold len. rewrite app_length. lia. Qed.
Lemma len_cons {A} (a : A) r : len (a :: r) = 1 + len r.
Proof. unfold len. cbn [length]. lia. Qed.
Lemma len_map {A C} (f : A -> C) l : len (map f l) = len l.
Proof. unfold len. now rewrite map_length. Qed.
Lemma len_iota n : 0 <= n -> len (iota n) = n.
Proof. intros H. unfold iota. rewrite len_map. unfold len. rewrite seq_length. lia. Qed.
Lemma iota_cons n : 0 <= n -> iota (1 + n) = 0 :: map (Z.add 1) (iota n).
Proof.
  intros H. unfold iota. replace (Z.to_nat (1 + n)) with (S (Z.to_nat n)) by lia. cbn [seq map]. f_equal.
  rewrite <- seq_shift, !map_map. apply map_ext. intros k. lia.
Qed.
Lemma at_cons {A} (d a : A) l i : 0 <= i -> at_ d (a :: l) (1 + i) = at_ d l i.
Proof. intros H. unfold at_. replace (Z.to_nat (1 + i)) with (S (Z.to_nat i)) by lia. reflexivity. Qed.
Lemma map_at_iota {A} (d : A) l : map (fun i => at_ d l i) (iota (len l)) = l.
Proof.
  induction l as [|a l IH]; [reflexivity|]. rewrite len_cons, iota_cons by apply len_nonneg. cbn [map]. f_equal.
  rewrite map_map. rewrite <- IH at 2. apply map_ext_in. intros i Hi. apply in_iota in Hi. apply at_cons. lia.
Qed.

Lemma skipn_skipn {A} (l : list A) : forall a b, skipn a (skipn b l) = skipn (a + b) l.
Proof.
  induction l as [|x l IH]; intros a b; [now rewrite !skipn_nil|]. destruct b as [|b]; [now rewrite Nat.add_0_r|].
  rewrite Nat.add_succ_r. cbn [skipn]. apply IH.
Qed.

Section Arith.
Context {T : Type} (Q : num T).
Notation d := (n0 Q).

(** Products x_i * x_j for i <= j, row by row. *)
Fixpoint pairs (x : list T) : list T :=
  match x with [] => [] | a :: r => map (nmul Q a) (a :: r) ++ pairs r end.
(** The features of an input: offset, inputs, and for quadratic predictions all products. *)
Definition features (quad : bool) (x0 : T) (x : list T) : list T :=
  x0 :: x ++ if quad then pairs x else [].

Lemma pairs_len x : 2 * len (pairs x) = len x * (len x + 1).
Proof.
  induction x as [|a x IH]; [reflexivity|]. cbn [pairs]. rewrite len_app, len_map, !len_cons. lia.
Qed.
Lemma n_features_ok quad x0 x : len (features quad x0 x) = n_features (len x) quad.
Proof.
  unfold features, n_features. rewrite len_cons, len_app. destruct quad.
  - pose proof (pairs_len x) as H. pose proof (len_nonneg x) as L.
    rewrite Z.quot_div_nonneg by (try nia; destruct (len x); cbn; lia).
    assert (E : len x * (len x - 1) = 2 * (len (pairs x) - len x)) by nia. rewrite E. replace (2 * (len (pairs x) - len x)) with ((len (pairs x) - len x) * 2) by lia. rewrite Z.div_mul by lia. lia.
  - change (len (@nil T)) with 0. lia.
Qed.

Definition row (x : list T) (i : Z) : list T := map (fun k => nmul Q (at_ d x i) (at_ d x (i + k))) (iota (len x - i)).
Lemma rows_pairs x : concat (map (row x) (iota (len x))) = pairs x.
Proof.
  induction x as [|a x IH]; [reflexivity|]. rewrite len_cons, iota_cons by apply len_nonneg. cbn [map concat pairs]. f_equal.
  - unfold row. rewrite len_cons, Z.sub_0_r. change (at_ d (a :: x) 0) with a.
    rewrite <- (len_cons a x). transitivity (map (nmul Q a) (map (fun i => at_ d (a :: x) i) (iota (len (a :: x))))).
    + rewrite map_map. reflexivity.
    + now rewrite map_at_iota.
  - rewrite <- IH, map_map. f_equal. apply map_ext_in. intros i Hi. apply in_iota in Hi. unfold row.
    rewrite len_cons. replace (1 + len x - (1 + i)) with (len x - i) by lia. apply map_ext_in. intros k Hk. apply in_iota in Hk.
    rewrite at_cons by lia. replace (1 + i + k) with (1 + (i + k)) by lia. rewrite at_cons by lia. reflexivity.
Qed.

(** A loop that appends [v 0, v 1, ...] at the fill index. *)
Lemma push_loop (v : Z -> T) body n l rest : 0 <= n <= len rest ->
  (forall k l a r, 0 <= k < n -> body k (l ++ a :: r, len l) = Ok (l ++ v k :: r, len l + 1)) ->
  exists rest', ofor n body (l ++ rest, len l) = Ok ((l ++ map v (iota n)) ++ rest', len (l ++ map v (iota n))) /\ len rest' = len rest - n /\
    rest' = skipn (Z.to_nat n) rest.
Proof.
  intros Hn HB.
  destruct (ofor_ind (fun k st => st = ((l ++ map v (iota k)) ++ skipn (Z.to_nat k) rest, len (l ++ map v (iota k)))) body n (l ++ rest, len l)) as (st & E & ->).
  - lia.
  - cbn. rewrite !app_nil_r. reflexivity.
  - intros k st Hk ->. destruct (skipn (Z.to_nat k) rest) as [|a r] eqn:ER.
    { apply (f_equal (@length T)) in ER. rewrite skipn_length in ER. unfold len in Hn. cbn in ER. lia. }
    eexists. split; [apply HB, Hk|]. rewrite iota_S, map_app by lia. cbn [map].
    assert (ER2 : skipn (Z.to_nat (k + 1)) rest = r).
    { replace (Z.to_nat (k + 1)) with (1 + Z.to_nat k)%nat by lia. rewrite <- skipn_skipn, ER. reflexivity. }
    rewrite ER2, app_assoc, <- !app_assoc. cbn [app]. f_equal. rewrite !len_app. cbn. unfold len; cbn. lia.
  - eexists. split; [exact E|]. split; [|reflexivity]. unfold len in *. rewrite skipn_length. lia.
Qed.
Lemma skipn_app_len {A} (l r : list A) n : skipn (length l + n) (l ++ r) = skipn n r.
Proof. rewrite skipn_app. replace (length l + n - length l)%nat with n by lia. rewrite skipn_all2 by lia. reflexivity. Qed.

(** The whole expansion: exactly the first entries of the buffer are the features. *)
Lemma transform_input_ok quad x x0 tmp : len (features quad x0 x) <= len tmp ->
  transform_input Q (len x) quad x x0 tmp = Ok (features quad x0 x ++ skipn (length (features quad x0 x)) tmp).
Proof.
  intros HL. unfold transform_input. pose proof (len_nonneg x) as Lx.
  destruct tmp as [|t0 tmp]; [unfold features in HL; rewrite len_cons in HL; change (len (@nil T)) with 0 in HL; pose proof (len_nonneg (x ++ (if quad then pairs x else []))); lia|].
  change (wr (t0 :: tmp) 0 x0) with (wr ([] ++ t0 :: tmp) (len (@nil T)) x0). rewrite wr_app. cbn [obind app].
  assert (HX : 0 <= len x <= len tmp).
  { unfold features in HL. rewrite !len_cons, len_app in HL. pose proof (len_nonneg (if quad then pairs x else [])). lia. }
  destruct (push_loop (fun i => at_ d x i) (fun i (st : list T * Z) => let '(tmp, idx) := st in
          (xi <- rd x i ;; tmp' <- wr tmp idx xi ;; Ok (tmp', idx + 1))%out) (len x) [x0] tmp HX) as (rest & E & LR & ER).
  { intros k l a r Hk. rewrite (rd_ok d) by exact Hk. cbn [obind]. rewrite wr_app. reflexivity. }
  change (x0 :: tmp, 1) with ([x0] ++ tmp, len [x0]). rewrite E. cbn [obind]. rewrite map_at_iota in *. clear E.
  destruct quad.
  - set (pre := [x0] ++ x) in *.
    assert (OUT : exists rest', ofor (len x) (fun i st =>
            ofor (len x - i) (fun d0 (st : list T * Z) =>
              let '(tmp, idx) := st in
              (xi <- rd x i ;; xj <- rd x (i + d0) ;;
              tmp' <- wr tmp idx (nmul Q xi xj) ;; Ok (tmp', idx + 1))%out) st) (pre ++ rest, len pre) =
       Ok ((pre ++ concat (map (row x) (iota (len x)))) ++ rest', len (pre ++ concat (map (row x) (iota (len x))))) /\
       rest' = skipn (length (concat (map (row x) (iota (len x))))) rest).
    { destruct (ofor_ind (fun k st => st = ((pre ++ concat (map (row x) (iota k))) ++ skipn (length (concat (map (row x) (iota k)))) rest, len (pre ++ concat (map (row x) (iota k)))))
        (fun i st =>
            ofor (len x - i) (fun d0 (st : list T * Z) =>
              let '(tmp, idx) := st in
              (xi <- rd x i ;; xj <- rd x (i + d0) ;;
              tmp' <- wr tmp idx (nmul Q xi xj) ;; Ok (tmp', idx + 1))%out) st) (len x) (pre ++ rest, len pre)) as (st & E & ->).
      - exact Lx.
      - cbn. rewrite !app_nil_r. reflexivity.
      - intros i st Hi ->. set (l := pre ++ concat (map (row x) (iota i))). set (k := length (concat (map (row x) (iota i)))).
        assert (TOT : forall j, 0 <= j <= len x -> len (concat (map (row x) (iota j))) <= len (pairs x)).
        { intros j Hj. rewrite <- rows_pairs. assert (EI : iota (len x) = iota j ++ map (Z.add j) (iota (len x - j))).
          { unfold iota. replace (Z.to_nat (len x)) with (Z.to_nat j + Z.to_nat (len x - j))%nat by lia. rewrite seq_app, map_app. f_equal.
            cbn [Nat.add]. rewrite map_map. generalize (Z.to_nat (len x - j)) as m. intros m.
            replace (seq (Z.to_nat j) m) with (map (Nat.add (Z.to_nat j)) (seq 0 m)).
            - rewrite map_map. apply map_ext. intros a. lia.
            - clear. generalize (Z.to_nat j) as s. intros s. induction m as [|m IH] in s |- *; [reflexivity|]. cbn [seq map]. f_equal; [lia|].
              rewrite <- seq_shift, map_map. rewrite <- (IH (S s)). apply map_ext. intros a. lia. }
          rewrite EI, map_app, concat_app, len_app. pose proof (len_nonneg (concat (map (row x) (map (Z.add j) (iota (len x - j)))))). lia. }
        assert (RL : len (row x i) = len x - i) by (unfold row; rewrite len_map, len_iota by lia; reflexivity).
        assert (NX : len (concat (map (row x) (iota (i + 1)))) = Z.of_nat k + (len x - i)).
        { rewrite iota_S, map_app, concat_app, len_app by lia. cbn [map concat]. rewrite app_nil_r, RL. reflexivity. }
        pose proof (TOT (i + 1) ltac:(lia)) as TN.
        assert (PL : len (pairs x) <= len rest).
        { unfold features in HL. rewrite !len_cons, len_app in HL. lia. }
        destruct (push_loop (fun k => nmul Q (at_ d x i) (at_ d x (i + k))) (fun d0 (st : list T * Z) =>
              let '(tmp, idx) := st in
              (xi <- rd x i ;; xj <- rd x (i + d0) ;;
              tmp' <- wr tmp idx (nmul Q xi xj) ;; Ok (tmp', idx + 1))%out) (len x - i) l (skipn k rest)) as (rest' & E & L' & E').
        + split; [lia|]. unfold len in *. rewrite skipn_length. lia.
        + intros j l0 a r Hj. rewrite (rd_ok d) by lia. cbn [obind]. rewrite (rd_ok d) by lia. cbn [obind]. rewrite wr_app. reflexivity.
        + eexists. split; [exact E|]. fold (row x i) in E |- *.
          assert (EL : l ++ row x i = pre ++ concat (map (row x) (iota (i + 1)))).
          { rewrite iota_S, map_app, concat_app by lia. cbn [map concat]. rewrite app_nil_r. unfold l. now rewrite <- app_assoc. }
          rewrite <- EL. f_equal. f_equal. rewrite E', skipn_skipn. f_equal. unfold len in NX, Hi |- *. lia.
      - eexists. split; [exact E|reflexivity]. }
    destruct OUT as (rest' & E & ER'). rewrite E. cbn [obind fst]. rewrite rows_pairs in *. f_equal. unfold features, pre.
    rewrite ER', ER, skipn_skipn. cbn [app length skipn]. rewrite <- !app_assoc. f_equal. f_equal. f_equal. f_equal. unfold len. rewrite app_length. lia.
  - cbn [obind fst]. f_equal. unfold features. rewrite app_nil_r. rewrite ER. cbn [app length skipn]. unfold len. rewrite Nat2Z.id. reflexivity.
Qed.

(** ** Weights. *)
Notation wat w n i k := (at_ d w (i * n + k)).
Lemma init_weights_ok ydim n x0 : 0 <= ydim -> 0 < n ->
  exists w, init_weights Q ydim n x0 = Ok w /\ len w = n * ydim /\
    forall i k, 0 <= i < ydim -> 0 <= k < n -> wat w n i k = if k =? 0 then x0 else n0 Q.
Proof.
  intros HY HN. unfold init_weights. set (z := repeat (n0 Q) (Z.to_nat (n * ydim))).
  assert (LZ : len z = n * ydim) by (apply len_repeat; nia).
  destruct (blas_fill_ok Q ydim x0 z n) as (w & E & (L & S1 & S2)); [lia|lia|intros i Hi; rewrite LZ; nia|].
  exists w. split; [exact E|]. split; [congruence|]. intros i k Hi Hk. destruct (Z.eqb_spec k 0) as [-> |NZ].
  - rewrite Z.add_0_r. exact (S1 i Hi).
  - rewrite S2; [|nia|]. { unfold at_, z. rewrite nth_repeat. reflexivity. }
    intros j Hj EQ. cbn [Z.add] in EQ. assert (i = j \/ i < j \/ j < i) as [-> |[H|H]] by lia; nia.
Qed.

(** Entry (i, k) of the weights exists. *)
Definition rows (ydim n : Z) (w : list T) : Prop := len w = n * ydim.
Lemma rows_at ydim n w i k : rows ydim n w -> 0 <= i < ydim -> 0 <= k < n -> 0 <= i * n + k < len w.
Proof. unfold rows. intros ->. nia. Qed.
Lemma rows_fits ydim n w : 0 <= ydim -> 0 <= n -> rows ydim n w -> fits ydim n n w.
Proof. intros HY HN R. split; [exact HY|]. split; [lia|]. intros i j Hi Hj. apply (rows_at ydim n w i j R Hi Hj). Qed.

Definition predicted (n : Z) (w f : list T) (i : Z) : T := sum_from Q (n0 Q) n (fun k => nmul Q (wat w n i k) (at_ d f k)).
Lemma inner_products_ok ydim n w f p : 0 <= ydim <= len p -> 0 <= n <= len f -> rows ydim n w ->
  exists p', inner_products Q ydim n w f p = Ok p' /\ len p' = len p /\
    (forall i, 0 <= i < ydim -> at_ d p' i = predicted n w f i) /\ (forall i, ydim <= i -> at_ d p' i = at_ d p i).
Proof.
  intros HY HN R. unfold inner_products.
  destruct (loop_points Q ydim (fun i => i) (fun i _ => predicted n w f i)
    (fun i p => (v <- blas_dot Q n w (i * n) 1 f 1;; wr p i v)%out) p) as (p' & E & L & S1 & S2); try (intros; lia).
  - intros i p1 Hi L1. rewrite (blas_dot_ok Q n w (i * n) 1 f 1).
    + cbn [obind]. destruct (wr_ok p1 i (predicted n w f i)) as (p2 & E2 & W); [lia|]. exists p2. split; [|exact W].
      rewrite <- E2. f_equal. unfold predicted. apply sum_from_ext. intros k Hk. rewrite !Z.mul_1_r. reflexivity.
    + lia.
    + intros k Hk. rewrite Z.mul_1_r. apply (rows_at ydim n w i k R Hi Hk).
    + intros k Hk. lia.
  - exists p'. split; [exact E|]. split; [exact L|]. split; [exact S1|]. intros i Hi. apply S2; [lia|]. intros j Hj. lia.
Qed.

(** y + a*x as BLAS computes it. *)
Definition axpy1 (a x y : T) : T := nadd Q y (if nne Q a (n1 Q) then nmul Q a x else x).
Lemma axpy_row ydim n a f w i : 0 <= i < ydim -> 0 <= n <= len f -> rows ydim n w ->
  exists w', blas_axpy Q n a f 1 w (i * n) 1 = Ok w' /\ row_updated Q n n i (fun k y => axpy1 a (at_ d f k) y) w w'.
Proof.
  intros Hi HN R. destruct (blas_axpy_ok Q n a f 1 w (i * n) 1) as (w' & E & (L & S1 & S2)); try lia.
  - intros k Hk. lia.
  - intros k Hk. rewrite Z.mul_1_r. apply (rows_at ydim n w i k R Hi Hk).
  - exists w'. split; [exact E|]. split; [exact L|]. split.
    + intros k Hk. specialize (S1 k Hk). rewrite !Z.mul_1_r in S1. rewrite S1. unfold axpy1. reflexivity.
    + intros q Hq NI. apply S2; [exact Hq|]. intros k Hk EQ. lia.
Qed.

(** The step of output [i]: eta * (y_i - p_i) / (x0 * x0 + x . x). *)
Definition nlms_step (x0 eta : T) (x y p : list T) (i : Z) : T :=
  ndiv Q (nmul Q eta (nsub Q (at_ d y i) (at_ d p i)))
    (nadd Q (nmul Q x0 x0) (sum_from Q (n0 Q) (len x) (fun k => nmul Q (at_ d x k) (at_ d x k)))).
Lemma nlms_weights_ok ydim n x0 eta x y p f w : 0 <= ydim <= len p -> ydim <= len y -> 0 <= n <= len f -> rows ydim n w ->
  exists w', nlms_weights Q (len x) ydim n x0 eta x y p f w = Ok w' /\
    block_updated Q ydim n n (fun i k v => axpy1 (nlms_step x0 eta x y p i) (at_ d f k) v) w w'.
Proof.
  intros HP HY HN R. unfold nlms_weights. rewrite (blas_dot_ok Q (len x) x 0 1 x 1).
  - cbn [obind].
    rewrite (sum_from_ext Q (n0 Q) (len x) _ (fun k => nmul Q (at_ d x k) (at_ d x k))) by (intros k Hk; rewrite Z.mul_1_r; reflexivity).
    apply (loop_rows Q ydim n n); [apply rows_fits; try lia; exact R|].
    intros i w1 Hi L1. rewrite (rd_ok d) by lia. cbn [obind]. rewrite (rd_ok d) by lia. cbn [obind].
    apply (axpy_row ydim); [exact Hi|exact HN|unfold rows in *; congruence].
  - apply len_nonneg.
  - intros k Hk. lia.
  - intros k Hk. lia.
Qed.

(** ** Recursive least squares. *)
Notation mat_at m n i j := (at_ d m (i * n + j)).
Lemma init_matrix_ok n scale : 0 <= n ->
  exists m, init_matrix Q n scale = Ok m /\ len m = n * n /\
    forall i j, 0 <= i < n -> 0 <= j < n -> mat_at m n i j = if i =? j then scale else n0 Q.
Proof.
  intros HN. unfold init_matrix. set (z := repeat (n0 Q) (Z.to_nat (n * n))).
  assert (LZ : len z = n * n) by (apply len_repeat; nia).
  destruct (loop_points Q n (fun i => i * n + i) (fun _ _ => scale) (fun i m => wr m (i * n + i) scale) z) as (m & E & L & S1 & S2).
  - exact HN.
  - intros i Hi. rewrite LZ. nia.
  - intros i j Hi Hj EQ. nia.
  - intros i m1 Hi L1. apply wr_ok. rewrite L1, LZ. nia.
  - exists m. split; [exact E|]. split; [congruence|]. intros i j Hi Hj. destruct (Z.eqb_spec i j) as [-> |NE]; [apply S1, Hj|].
    rewrite S2; [|nia|]. { unfold at_, z. rewrite nth_repeat. reflexivity. }
    intros k Hk EQ. assert (i = k \/ i < k \/ k < i) as [-> |[H|H]] by lia; nia.
Qed.

(** What one RLS update computes: the gain vector, the correction matrix, and the new
    weights and gain matrix.  [v0], [b0]: old contents of the temporaries. *)
Definition rls_raw (n : Z) (f v0 P : list T) (i : Z) : T :=
  sum_from Q (nmul Q (at_ d v0 i) (n0 Q)) n (fun k => nmul Q (nmul Q (n1 Q) (mat_at P n i k)) (at_ d f k)).
Definition rls_divisor (n : Z) (lambda : T) (f v0 P : list T) : T :=
  ndiv Q (n1 Q) (nadd Q (sum_from Q (n0 Q) n (fun k => nmul Q (at_ d f k) (rls_raw n f v0 P k))) lambda).
Definition rls_gain (n : Z) (lambda : T) (f v0 P : list T) (i : Z) : T :=
  if nne Q (rls_divisor n lambda f v0 P) (n0 Q) then nmul Q (rls_raw n f v0 P i) (rls_divisor n lambda f v0 P) else n0 Q.
Definition rls_corr (n : Z) (lambda : T) (f v0 P : list T) (i j : Z) : T :=
  let t := nmul Q (rls_gain n lambda f v0 P i) (at_ d f j) in if i =? j then nsub Q (n1 Q) t else nneg Q t.
Definition rls_prod (n : Z) (lambda : T) (f v0 b0 P : list T) (i j : Z) : T :=
  sum_from Q (nmul Q (mat_at b0 n i j) (n0 Q)) n
    (fun k => nmul Q (nmul Q (n1 Q) (rls_corr n lambda f v0 P i k)) (mat_at P n k j)).

Record rls_result (ydim n : Z) (lambda : T) (y p f v0 a0 b0 w P w' P' v a b : list T) : Prop := {
  rr_vec : len v = len v0 /\ (forall i, 0 <= i < n -> at_ d v i = rls_gain n lambda f v0 P i);
  rr_mat1 : len a = len a0 /\ (forall i j, 0 <= i < n -> 0 <= j < n -> mat_at a n i j = rls_corr n lambda f v0 P i j);
  rr_mat2 : len b = len b0 /\ (forall i j, 0 <= i < n -> 0 <= j < n -> mat_at b n i j = rls_prod n lambda f v0 b0 P i j);
  rr_weights : block_updated Q ydim n n (fun i k x => axpy1 (nsub Q (at_ d y i) (at_ d p i)) (rls_gain n lambda f v0 P k) x) w w';
  rr_matrix : len P' = len P /\
    (forall i j, 0 <= i < n -> 0 <= j < n -> mat_at P' n i j = ndiv Q (rls_prod n lambda f v0 b0 P i j) lambda)
}.
Lemma rls_update_ok ydim n lambda y p f v0 a0 b0 w P :
  0 <= ydim <= len p -> ydim <= len y -> 0 <= n -> len f = n -> len v0 = n -> len a0 = n * n -> len b0 = n * n ->
  rows ydim n w -> len P = n * n ->
  exists w' P' v a b, rls_update Q ydim n lambda y p f v0 a0 b0 w P = Ok (w', P', (v, a, b)) /\
    rls_result ydim n lambda y p f v0 a0 b0 w P w' P' v a b.
Proof.
  intros HP HY HN LF LV LA LB R LP. unfold rls_update.
  destruct (blas_gemm_ok Q false false n 1 n (n1 Q) P n f 1 (n0 Q) v0 1) as (h & EH & (LH & SH & _)).
  { split; [exact HN|]. split; [lia|]. intros i j Hi Hj. lia. }
  { exact HN. }
  { intros i k Hi Hk. rewrite LP. nia. }
  { intros i k Hi Hk. lia. }
  rewrite EH. cbn [obind].
  assert (RAW : forall i, 0 <= i < n -> at_ d h i = rls_raw n f v0 P i).
  { intros i Hi. specialize (SH i 0 Hi ltac:(lia)). rewrite Z.mul_1_r, Z.add_0_r in SH. rewrite SH. unfold gemm_entry, rls_raw, op_at.
    apply sum_from_ext. intros k Hk. rewrite Z.mul_1_r, Z.add_0_r. reflexivity. }
  rewrite (blas_dot_ok Q n f 0 1 h 1); [|exact HN|intros k Hk; lia|intros k Hk; lia]. cbn [obind].
  rewrite (sum_from_ext Q (n0 Q) n _ (fun k => nmul Q (at_ d f k) (rls_raw n f v0 P k)))
    by (intros k Hk; rewrite Z.mul_1_r; cbn [Z.add]; rewrite RAW by exact Hk; reflexivity).
  fold (rls_divisor n lambda f v0 P).
  destruct (blas_scal_ok Q n (rls_divisor n lambda f v0 P) h 1) as (v & EV & (LV' & SV & _)); try lia.
  { intros k Hk. lia. }
  rewrite EV. cbn [obind].
  assert (GAIN : forall i, 0 <= i < n -> at_ d v i = rls_gain n lambda f v0 P i).
  { intros i Hi. specialize (SV i Hi). cbn [Z.add] in SV. rewrite Z.mul_1_r in SV. rewrite SV. unfold rls_gain. now rewrite RAW by exact Hi. }
  destruct (loop_rows Q ydim n n (fun i k x => axpy1 (nsub Q (at_ d y i) (at_ d p i)) (rls_gain n lambda f v0 P k) x)
    (fun i w => (yi <- rd y i;; pi <- rd p i;; blas_axpy Q n (nsub Q yi pi) v 1 w (i * n) 1)%out) w) as (w' & EW & BW).
  { apply rows_fits; try lia. exact R. }
  { intros i w1 Hi L1. rewrite (rd_ok d) by lia. cbn [obind]. rewrite (rd_ok d) by lia. cbn [obind].
    destruct (axpy_row ydim n (nsub Q (at_ d y i) (at_ d p i)) v w1 i Hi) as (w2 & E2 & (L2 & S2 & N2)); [lia|unfold rows in *; congruence|].
    exists w2. split; [exact E2|]. split; [exact L2|]. split; [|exact N2]. intros k Hk. rewrite S2 by exact Hk. now rewrite GAIN by exact Hk. }
  rewrite EW. cbn [obind].
  destruct (loop_rows Q n n n (fun i j _ => rls_corr n lambda f v0 P i j)
    (fun i m1 => ofor n (fun j m1 => (vi <- rd v i;; tj <- rd f j;;
           wr m1 (i * n + j) (if i =? j then nsub Q (n1 Q) (nmul Q vi tj) else nneg Q (nmul Q vi tj)))%out) m1) a0) as (a & EA & (LA' & SA & _)).
  { split; [exact HN|]. split; [lia|]. intros i j Hi Hj. rewrite LA. nia. }
  { intros i a1 Hi L1. apply (loop_row Q n n n i).
    - split; [exact HN|]. split; [lia|]. intros i' j Hi' Hj. rewrite L1, LA. nia.
    - exact Hi.
    - intros j a2 Hj L2. rewrite (rd_ok d) by lia. cbn [obind]. rewrite (rd_ok d) by lia. cbn [obind]. rewrite (GAIN i Hi).
      apply wr_ok. rewrite L2, L1, LA. nia. }
  rewrite EA. cbn [obind].
  destruct (blas_gemm_ok Q false false n n n (n1 Q) a n P n (n0 Q) b0 n) as (b & EB & (LB' & SB & _)).
  { split; [exact HN|]. split; [lia|]. intros i j Hi Hj. rewrite LB. nia. }
  { exact HN. }
  { intros i k Hi Hk. rewrite LA', LA. nia. }
  { intros i k Hi Hk. rewrite LP. nia. }
  rewrite EB. cbn [obind].
  assert (PROD : forall i j, 0 <= i < n -> 0 <= j < n -> mat_at b n i j = rls_prod n lambda f v0 b0 P i j).
  { intros i j Hi Hj. rewrite SB by assumption. unfold gemm_entry, rls_prod, op_at. apply sum_from_ext. intros k Hk.
    now rewrite SA by assumption. }
  destruct (loop_rows Q n n n (fun i j _ => ndiv Q (rls_prod n lambda f v0 b0 P i j) lambda)
    (fun i mt => ofor n (fun j mt => (v <- rd b (i * n + j);; wr mt (i * n + j) (ndiv Q v lambda))%out) mt) P) as (P' & EP & (LP' & SP & _)).
  { split; [exact HN|]. split; [lia|]. intros i j Hi Hj. rewrite LP. nia. }
  { intros i a1 Hi L1. apply (loop_row Q n n n i).
    - split; [exact HN|]. split; [lia|]. intros i' j Hi' Hj. rewrite L1, LP. nia.
    - exact Hi.
    - intros j a2 Hj L2. rewrite (rd_ok d) by (rewrite LB', LB; nia). cbn [obind]. rewrite PROD by assumption.
      apply wr_ok. rewrite L2, L1, LP. nia. }
  rewrite EP. cbn [obind]. exists w', P', v, a, b. split; [reflexivity|]. split.
  - split; [lia|exact GAIN].
  - split; [exact LA'|exact SA].
  - split; [exact LB'|exact PROD].
  - exact BW.
  - split; [exact LP'|exact SP].
Qed.

(** ** Constant predictions. *)
Lemma constant_update_ok ydim warm e e1 beta p y : 0 <= ydim <= len p -> ydim <= len y ->
  exists p', constant_update Q ydim warm e e1 beta p y = Ok p' /\ len p' = len p /\
    (forall i, 0 <= i < ydim -> at_ d p' i =
       if warm then ndiv Q (nadd Q (nmul Q (at_ d p i) e1) (at_ d y i)) e
       else nadd Q (at_ d p i) (nmul Q beta (nsub Q (at_ d y i) (at_ d p i)))) /\
    (forall i, ydim <= i -> at_ d p' i = at_ d p i).
Proof.
  intros HP HY. unfold constant_update.
  assert (FIN : forall g body, (forall i p1, 0 <= i < ydim -> len p1 = len p -> exists p2, body i p1 = Ok p2 /\ wrote p1 p2 i (g i (at_ d p1 i))) ->
    exists p', ofor ydim body p = Ok p' /\ len p' = len p /\ (forall i, 0 <= i < ydim -> at_ d p' i = g i (at_ d p i)) /\ (forall i, ydim <= i -> at_ d p' i = at_ d p i)).
  { intros g body HB. destruct (loop_points Q ydim (fun i => i) g body p) as (p' & E & L & S1 & S2); try (intros; lia).
    - exact HB.
    - exists p'. split; [exact E|]. split; [exact L|]. split; [exact S1|]. intros i Hi. apply S2; intros; lia. }
  destruct warm.
  - apply (FIN (fun i v => ndiv Q (nadd Q (nmul Q v e1) (at_ d y i)) e)). intros i p1 Hi L1.
    rewrite (rd_ok d) by lia. cbn [obind]. rewrite (rd_ok d) by lia. cbn [obind]. apply wr_ok. lia.
  - apply (FIN (fun i v => nadd Q v (nmul Q beta (nsub Q (at_ d y i) v)))). intros i p1 Hi L1.
    rewrite (rd_ok d) by lia. cbn [obind]. rewrite (rd_ok d) by lia. cbn [obind]. apply wr_ok. lia.
Qed.
End Arith.

(** A buffer of exactly the allocated size. *)
Lemma skipn_len_nil {A} (l : list A) (k : nat) : len l = Z.of_nat k -> skipn k l = [].
Proof. intros H. apply skipn_all2. unfold len in H. lia. Qed.
Lemma transform_exact {T} (Q : num T) quad x x0 tmp : len tmp = n_features (len x) quad ->
  transform_input Q (len x) quad x x0 tmp = Ok (features Q quad x0 x).
Proof.
  intros H. rewrite transform_input_ok by (rewrite n_features_ok; lia).
  rewrite skipn_len_nil, app_nil_r; [reflexivity|]. rewrite H, <- (n_features_ok Q quad x0). reflexivity.
Qed.
Lemma transform_dim {T} (Q : num T) xd quad x x0 tmp : len x = xd -> len tmp = n_features xd quad ->
  transform_input Q xd quad x x0 tmp = Ok (features Q quad x0 x).
Proof. intros <- H. apply transform_exact, H. Qed.
