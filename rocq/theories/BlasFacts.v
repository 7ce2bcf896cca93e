(** * What the kernels of blas.c compute, for any numbers. *)
From Coq Require Import ZArith Bool List Lia.
From Verif Require Import Outcome F64 Arr ArrFacts Blas.
Import ListNotations.
Open Scope Z_scope.

Section Blas.
Context {T : Type} (Q : num T).
Notation "a +' b" := (nadd Q a b) (at level 50, left associativity).
Notation "a *' b" := (nmul Q a b) (at level 40, left associativity).
Notation d := (n0 Q).

(** [f 0 + f 1 + ... ] added from the left onto [s]. *)
Definition sum_from (s : T) (n : Z) (f : Z -> T) : T := fold_left (fun a k => a +' f k) (iota n) s.
Lemma sum_from_S s n f : 0 <= n -> sum_from s (n + 1) f = sum_from s n f +' f n.
Proof. intros H. unfold sum_from. rewrite iota_S, fold_left_app by exact H. reflexivity. Qed.
Lemma sum_from_ext s n f g : (forall k, 0 <= k < n -> f k = g k) -> sum_from s n f = sum_from s n g.
Proof.
  intros H. unfold sum_from. assert (G : forall k, In k (iota n) -> f k = g k) by (intros k Hk; apply H, in_iota, Hk).
  revert s G. induction (iota n) as [|k l IH]; intros s G; cbn [fold_left]; [reflexivity|].
  rewrite G by (left; reflexivity). apply IH. intros j Hj. apply G. right. exact Hj.
Qed.

Lemma modify_ok C k f : 0 <= k < len C -> exists C', modify_at C k f = Ok C' /\ wrote C C' k (f (at_ d C k)).
Proof. intros H. unfold modify_at. rewrite (rd_ok d) by exact H. cbn [obind]. apply wr_ok, H. Qed.

(** Loops that touch one new entry each. *)
Lemma loop_points n (p : Z -> Z) (g : Z -> T -> T) body C : 0 <= n ->
  (forall i, 0 <= i < n -> 0 <= p i < len C) ->
  (forall i j, 0 <= i < n -> 0 <= j < n -> p i = p j -> i = j) ->
  (forall i C', 0 <= i < n -> len C' = len C -> exists C'', body i C' = Ok C'' /\ wrote C' C'' (p i) (g i (at_ d C' (p i)))) ->
  exists C', ofor n body C = Ok C' /\ len C' = len C /\
    (forall i, 0 <= i < n -> at_ d C' (p i) = g i (at_ d C (p i))) /\
    (forall q, 0 <= q -> (forall i, 0 <= i < n -> q <> p i) -> at_ d C' q = at_ d C q).
Proof.
  intros Hn HP HI HB.
  destruct (ofor_ind (fun k C' => len C' = len C /\ (forall i, 0 <= i < k -> at_ d C' (p i) = g i (at_ d C (p i))) /\
      (forall q, 0 <= q -> (forall i, 0 <= i < k -> q <> p i) -> at_ d C' q = at_ d C q)) body n C Hn) as (C' & E & H).
  - split; [reflexivity|]. split; [intros; lia|auto].
  - intros i C1 Hi (L & S1 & S2). destruct (HB i C1 Hi L) as (C2 & E & (A1 & A2 & A3 & A4)).
    exists C2. split; [exact E|]. split; [congruence|]. pose proof (HP i Hi) as Pi. split.
    + intros k Hk. destruct (Z.eq_dec k i) as [-> |D].
      * rewrite A2. f_equal. apply S2; [lia|]. intros j Hj EQ. apply HI in EQ; lia.
      * rewrite A3; [apply S1; lia|apply HP; lia|]. intros EQ. apply HI in EQ; lia.
    + intros q Hq Hne. rewrite A3; [apply S2; [exact Hq|intros; apply Hne; lia]|exact Hq|apply Hne; lia].
  - exists C'. split; [exact E|exact H].
Qed.

(** Row [i] of a matrix with row length [ld] and [N] used columns. *)
Definition row_updated (N ld i : Z) (F : Z -> T -> T) (C C' : list T) : Prop :=
  len C' = len C /\ (forall j, 0 <= j < N -> at_ d C' (i * ld + j) = F j (at_ d C (i * ld + j))) /\
  (forall q, 0 <= q -> ~ (i * ld <= q < i * ld + N) -> at_ d C' q = at_ d C q).
(** All of the [M] x [N] block updated, nothing else. *)
Definition block_updated (M N ld : Z) (F : Z -> Z -> T -> T) (C C' : list T) : Prop :=
  len C' = len C /\
  (forall i j, 0 <= i < M -> 0 <= j < N -> at_ d C' (i * ld + j) = F i j (at_ d C (i * ld + j))) /\
  (forall q, 0 <= q -> (forall i j, 0 <= i < M -> 0 <= j < N -> q <> i * ld + j) -> at_ d C' q = at_ d C q).
(** The block lies inside the array. *)
Definition fits (M N ld : Z) (C : list T) : Prop := 0 <= M /\ 0 <= N <= ld /\ (forall i j, 0 <= i < M -> 0 <= j < N -> i * ld + j < len C).

Lemma loop_rows M N ld F body C : fits M N ld C ->
  (forall i C1, 0 <= i < M -> len C1 = len C -> exists C2, body i C1 = Ok C2 /\ row_updated N ld i (F i) C1 C2) ->
  exists C', ofor M body C = Ok C' /\ block_updated M N ld F C C'.
Proof.
  intros (HM & HN & HF) HB.
  destruct (ofor_ind (fun k C' => block_updated k N ld F C C') body M C HM) as (C' & E & H).
  - split; [reflexivity|]. split; [intros; lia|auto].
  - intros i C1 Hi (L & S1 & S2). destruct (HB i C1 Hi L) as (C2 & E & (A1 & A2 & A3)).
    exists C2. split; [exact E|]. split; [congruence|]. split.
    + intros k j Hk Hj. destruct (Z.eq_dec k i) as [-> |D].
      * rewrite A2 by exact Hj. f_equal. apply S2; [nia|]. intros a b Ha Hb EQ. nia.
      * rewrite A3; [apply S1; lia|nia|nia].
    + intros q Hq Hne. rewrite A3; [apply S2; [exact Hq|intros; apply Hne; lia]|exact Hq|].
      intros Hr. apply (Hne i (q - i * ld)); lia.
  - exists C'. split; [exact E|exact H].
Qed.
(** A row whose entries are touched once. *)
Lemma loop_row M N ld i g body C : fits M N ld C -> 0 <= i < M ->
  (forall j C', 0 <= j < N -> len C' = len C -> exists C'', body j C' = Ok C'' /\ wrote C' C'' (i * ld + j) (g j (at_ d C' (i * ld + j)))) ->
  exists C', ofor N body C = Ok C' /\ row_updated N ld i g C C'.
Proof.
  intros (HM & HN & HF) Hi HB. destruct (loop_points N (fun j => i * ld + j) g body C) as (C' & E & L & S1 & S2).
  - lia.
  - intros j Hj. split; [nia|apply HF; assumption].
  - intros; lia.
  - exact HB.
  - exists C'. split; [exact E|]. split; [exact L|]. split; [exact S1|]. intros q Hq Hr. apply S2; [exact Hq|]. intros j Hj. lia.
Qed.
(** A row touched [n] times. *)
Lemma loop_row_fold M N ld i n (g : Z -> Z -> T -> T) body C : fits M N ld C -> 0 <= i < M -> 0 <= n ->
  (forall k C', 0 <= k < n -> len C' = len C -> exists C'', body k C' = Ok C'' /\ row_updated N ld i (g k) C' C'') ->
  exists C', ofor n body C = Ok C' /\ row_updated N ld i (fun j c => fold_left (fun c k => g k j c) (iota n) c) C C'.
Proof.
  intros (HM & HN & HF) Hi Hn HB.
  destruct (ofor_ind (fun m C' => row_updated N ld i (fun j c => fold_left (fun c k => g k j c) (iota m) c) C C') body n C Hn) as (C' & E & H).
  - split; [reflexivity|]. split; [intros; reflexivity|auto].
  - intros k C1 Hk (L & S1 & S2). destruct (HB k C1 Hk L) as (C2 & E & (A1 & A2 & A3)).
    exists C2. split; [exact E|]. split; [congruence|]. split.
    + intros j Hj. rewrite A2, S1 by exact Hj. rewrite iota_S, fold_left_app by lia. reflexivity.
    + intros q Hq Hr. rewrite A3, S2 by assumption. reflexivity.
  - exists C'. split; [exact E|exact H].
Qed.

(** ** GEMM. *)
(** Reading op(A)[i][k]. *)
Definition op_at (tr : bool) (A : list T) (lda i k : Z) : T := at_ d A (if tr then k * lda + i else i * lda + k).
Definition readable (tr : bool) (A : list T) (lda M K : Z) : Prop :=
  forall i k, 0 <= i < M -> 0 <= k < K -> 0 <= (if tr then k * lda + i else i * lda + k) < len A.
(** New value of entry (i,j), in the order in which each variant adds. *)
Definition gemm_entry (TA TB : bool) (K : Z) (alpha : T) (A : list T) (lda : Z) (B : list T) (ldb : Z) (beta : T) (i j : Z) (c : T) : T :=
  if TB then (c *' beta) +' sum_from (n0 Q) K (fun k => alpha *' op_at TA A lda i k *' op_at TB B ldb k j)
  else sum_from (c *' beta) K (fun k => alpha *' op_at TA A lda i k *' op_at TB B ldb k j).

Lemma scale_ok M N ldc beta C : fits M N ldc C ->
  exists C', ofor M (fun i C => ofor N (fun j C => modify_at C (i * ldc + j) (fun c => c *' beta)) C) C = Ok C' /\
    block_updated M N ldc (fun _ _ c => c *' beta) C C'.
Proof.
  intros F. apply loop_rows; [exact F|]. intros i C1 Hi L.
  assert (F1 : fits M N ldc C1) by (destruct F as (F1 & F2 & F3); split; [exact F1|split; [exact F2|intros; rewrite L; apply F3; assumption]]).
  apply (loop_row M N ldc i (fun _ c => c *' beta) _ C1 F1 Hi). intros j C' Hj L'. apply modify_ok.
  destruct F1 as (G1 & G2 & G3). split; [nia|]. rewrite L'. apply G3; assumption.
Qed.
Lemma fits_len M N ld C C' : fits M N ld C -> len C' = len C -> fits M N ld C'.
Proof. intros (F1 & F2 & F3) L. split; [exact F1|split; [exact F2|intros; rewrite L; apply F3; assumption]]. Qed.

(** The two variants that add whole rows. *)
Lemma gemm_rows_ok (TA : bool) M N K alpha A lda B ldb C ldc : fits M N ldc C -> 0 <= K ->
  readable TA A lda M K -> readable false B ldb K N ->
  exists C', ofor M (fun i C => ofor K (fun k C =>
    (a <- rd A (if TA then k * lda + i else i * lda + k) ;;
     let a_part := alpha *' a in
     ofor N (fun j C =>
       b <- rd B (k * ldb + j) ;; modify_at C (i * ldc + j) (fun c => c +' (a_part *' b))) C)%out) C) C = Ok C' /\
  block_updated M N ldc (fun i j c => sum_from c K (fun k => alpha *' op_at TA A lda i k *' op_at false B ldb k j)) C C'.
Proof.
  intros F HK RA RB. apply loop_rows; [exact F|]. intros i C1 Hi L. assert (F1 := fits_len _ _ _ _ _ F L).
  apply (loop_row_fold M N ldc i K (fun k j c => c +' (alpha *' op_at TA A lda i k *' op_at false B ldb k j)) _ C1 F1 Hi HK).
  intros k C' Hk L'. rewrite (rd_ok d) by (apply RA; assumption). cbn [obind]. assert (F2 := fits_len _ _ _ _ _ F1 L').
  apply (loop_row M N ldc i (fun j c => c +' (alpha *' op_at TA A lda i k *' op_at false B ldb k j)) _ C' F2 Hi).
  intros j C2 Hj L2. pose proof (RB k j Hk Hj) as RBj. cbv iota in RBj. rewrite (rd_ok d) by exact RBj. cbn [obind].
  apply modify_ok. destruct F2 as (G1 & G2 & G3). split; [nia|]. rewrite L2. apply G3; assumption.
Qed.
(** The two variants that compute each sum first. *)
Lemma gemm_sums_ok (TA : bool) M N K alpha A lda B ldb C ldc (ia ib : Z -> Z -> Z) : fits M N ldc C -> 0 <= K ->
  readable TA A lda M K -> readable true B ldb K N ->
  (forall i k, ia i k = if TA then k * lda + i else i * lda + k) -> (forall k j, ib k j = j * ldb + k) ->
  exists C', ofor M (fun i C => ofor N (fun j C =>
    (sum <- ofor K (fun k sum =>
       (a <- rd A (ia i k) ;; b <- rd B (ib k j) ;;
        Ok (sum +' (alpha *' a *' b)))%out) (n0 Q) ;;
     modify_at C (i * ldc + j) (fun c => c +' sum))%out) C) C = Ok C' /\
  block_updated M N ldc (fun i j c => c +' sum_from (n0 Q) K (fun k => alpha *' op_at TA A lda i k *' op_at true B ldb k j)) C C'.
Proof.
  intros F HK RA RB EA EB. apply loop_rows; [exact F|]. intros i C1 Hi L. assert (F1 := fits_len _ _ _ _ _ F L).
  apply (loop_row M N ldc i (fun j c => c +' sum_from (n0 Q) K (fun k => alpha *' op_at TA A lda i k *' op_at true B ldb k j)) _ C1 F1 Hi).
  intros j C' Hj L'.
  rewrite (ofor_fold _ (fun k s => s +' (alpha *' op_at TA A lda i k *' op_at true B ldb k j)) K (n0 Q) HK).
  - cbn [obind]. apply (modify_ok C' (i * ldc + j) (fun c => c +' _)). destruct F1 as (G1 & G2 & G3). split; [nia|]. rewrite L'. apply G3; assumption.
  - intros k s Hk. rewrite EA, EB. rewrite (rd_ok d) by (apply RA; assumption). cbn [obind].
    pose proof (RB k j Hk Hj) as RBj. cbv iota in RBj. rewrite (rd_ok d) by exact RBj. reflexivity.
Qed.
Lemma blas_gemm_ok TA TB M N K alpha A lda B ldb beta C ldc : fits M N ldc C -> 0 <= K ->
  readable TA A lda M K -> readable TB B ldb K N ->
  exists C', blas_gemm Q TA TB M N K alpha A lda B ldb beta C ldc = Ok C' /\
    block_updated M N ldc (gemm_entry TA TB K alpha A lda B ldb beta) C C'.
Proof.
  intros F HK RA RB. unfold blas_gemm. destruct (scale_ok M N ldc beta C F) as (C1 & -> & (L1 & S1 & S2)). cbn [obind].
  assert (F1 := fits_len _ _ _ _ _ F L1).
  assert (FIN : forall G C', block_updated M N ldc G C1 C' -> (forall i j c, 0 <= i < M -> 0 <= j < N -> G i j (c *' beta) = gemm_entry TA TB K alpha A lda B ldb beta i j c) ->
    block_updated M N ldc (gemm_entry TA TB K alpha A lda B ldb beta) C C').
  { intros G C' (L2 & T1 & T2) HG. split; [congruence|]. split.
    - intros i j Hi Hj. rewrite T1, S1 by assumption. apply HG; assumption.
    - intros q Hq Hne. rewrite T2, S2 by assumption. reflexivity. }
  unfold gemm_entry in *. destruct TA, TB; cbn [negb andb].
  - destruct (gemm_sums_ok true M N K alpha A lda B ldb C1 ldc (fun i k => i + k * lda) (fun k j => k + j * ldb) F1 HK RA RB) as (C' & E & H); try (intros; lia).
    exists C'. split; [exact E|]. apply (FIN _ _ H). reflexivity.
  - destruct (gemm_rows_ok true M N K alpha A lda B ldb C1 ldc F1 HK RA RB) as (C' & E & H).
    exists C'. split; [exact E|]. apply (FIN _ _ H). reflexivity.
  - destruct (gemm_sums_ok false M N K alpha A lda B ldb C1 ldc (fun i k => i * lda + k) (fun k j => j * ldb + k) F1 HK RA RB) as (C' & E & H); try (intros; lia).
    exists C'. split; [exact E|]. apply (FIN _ _ H). reflexivity.
  - destruct (gemm_rows_ok false M N K alpha A lda B ldb C1 ldc F1 HK RA RB) as (C' & E & H).
    exists C'. split; [exact E|]. apply (FIN _ _ H). reflexivity.
Qed.

(** ** Vector kernels. *)
Definition stride_ok (N : Z) (X : list T) (ox incx : Z) : Prop := forall i, 0 <= i < N -> 0 <= ox + i * incx < len X.
Lemma blas_dot_ok N X ox incx Y incy : 0 <= N -> stride_ok N X ox incx -> stride_ok N Y 0 incy ->
  blas_dot Q N X ox incx Y incy = Ok (sum_from (n0 Q) N (fun i => at_ d X (ox + i * incx) *' at_ d Y (i * incy))).
Proof.
  intros HN SX SY. unfold blas_dot, sum_from.
  apply (ofor_fold _ (fun i s => s +' (at_ d X (ox + i * incx) *' at_ d Y (i * incy))) N (n0 Q) HN).
  intros i s Hi. rewrite (rd_ok d) by (apply SX, Hi). cbn [obind]. rewrite (rd_ok d) by (pose proof (SY i Hi); lia). reflexivity.
Qed.
(** The strided entries of [Y] are updated, nothing else. *)
Definition strided (N oy incy : Z) (F : Z -> T -> T) (Y Y' : list T) : Prop :=
  len Y' = len Y /\ (forall i, 0 <= i < N -> at_ d Y' (oy + i * incy) = F i (at_ d Y (oy + i * incy))) /\
  (forall q, 0 <= q -> (forall i, 0 <= i < N -> q <> oy + i * incy) -> at_ d Y' q = at_ d Y q).
Lemma strided_loop N oy incy F body Y : 0 <= N -> incy <> 0 -> stride_ok N Y oy incy ->
  (forall i Y', 0 <= i < N -> len Y' = len Y -> exists Y'', body i Y' = Ok Y'' /\ wrote Y' Y'' (oy + i * incy) (F i (at_ d Y' (oy + i * incy)))) ->
  exists Y', ofor N body Y = Ok Y' /\ strided N oy incy F Y Y'.
Proof.
  intros HN HI SY HB. destruct (loop_points N (fun i => oy + i * incy) F body Y HN SY) as (Y' & E & H).
  - intros i j Hi Hj EQ. assert (H : (i - j) * incy = 0) by lia. apply Z.mul_eq_0 in H. lia.
  - exact HB.
  - exists Y'. split; [exact E|exact H].
Qed.
Lemma blas_axpy_ok N alpha X incx Y oy incy : 0 <= N -> incy <> 0 -> stride_ok N X 0 incx -> stride_ok N Y oy incy ->
  exists Y', blas_axpy Q N alpha X incx Y oy incy = Ok Y' /\
    strided N oy incy (fun i y => y +' (if nne Q alpha (n1 Q) then alpha *' at_ d X (i * incx) else at_ d X (i * incx))) Y Y'.
Proof.
  intros HN HI SX SY. unfold blas_axpy. destruct (nne Q alpha (n1 Q)); apply strided_loop; try assumption;
    intros i Y' Hi L; rewrite (rd_ok d) by (pose proof (SX i Hi); lia); cbn [obind].
  - apply (modify_ok Y' _ (fun y => y +' (alpha *' at_ d X (i * incx)))). rewrite L. apply SY, Hi.
  - apply (modify_ok Y' _ (fun y => y +' at_ d X (i * incx))). rewrite L. apply SY, Hi.
Qed.
Lemma blas_scal_ok N alpha X incx : 0 <= N -> incx <> 0 -> stride_ok N X 0 incx ->
  exists X', blas_scal Q N alpha X incx = Ok X' /\ strided N 0 incx (fun _ x => if nne Q alpha (n0 Q) then x *' alpha else n0 Q) X X'.
Proof.
  intros HN HI SX. unfold blas_scal. destruct (nne Q alpha (n0 Q)); apply strided_loop; try assumption; intros i X' Hi L; cbn [Z.add].
  - apply (modify_ok X' _ (fun x => x *' alpha)). pose proof (SX i Hi). lia.
  - apply wr_ok. pose proof (SX i Hi). lia.
Qed.
Lemma blas_fill_ok N alpha X incx : 0 <= N -> incx <> 0 -> stride_ok N X 0 incx ->
  exists X', blas_fill N alpha X incx = Ok X' /\ strided N 0 incx (fun _ _ => alpha) X X'.
Proof.
  intros HN HI SX. unfold blas_fill. apply strided_loop; try assumption; intros i X' Hi L. apply wr_ok. pose proof (SX i Hi). lia.
Qed.
Lemma blas_mul_ok N X incx Y incy : 0 <= N -> incy <> 0 -> stride_ok N X 0 incx -> stride_ok N Y 0 incy ->
  exists Y', blas_mul Q N X incx Y incy = Ok Y' /\ strided N 0 incy (fun i y => y *' at_ d X (i * incx)) Y Y'.
Proof.
  intros HN HI SX SY. unfold blas_mul. apply strided_loop; try assumption; intros i Y' Hi L.
  rewrite (rd_ok d) by (pose proof (SX i Hi); lia). cbn [obind]. apply (modify_ok Y' _ (fun y => y *' at_ d X (i * incx))).
  pose proof (SY i Hi). lia.
Qed.
Lemma blas_sum_ok N X : 0 <= N <= len X -> blas_sum Q X N = Ok (sum_from (n0 Q) N (fun i => at_ d X i)).
Proof.
  intros HN. unfold blas_sum, sum_from. apply (ofor_fold _ (fun i s => s +' at_ d X i) N (n0 Q)); [lia|].
  intros i s Hi. rewrite (rd_ok d) by lia. reflexivity.
Qed.
End Blas.
