(** * C49 Matrix kernels compute the specified products. *)
From Coq Require Import ZArith Bool List Reals Lia.
From Flocq Require Import Core BinarySingleNaN.
From Verif Require Import Outcome F64 F64Facts Rng RngFacts Arr ArrFacts Sam SamFacts Pop PopSpec Blas BlasFacts Pred PredFacts Exact Cond RectFacts Comp CompFacts PropPred Demo.
Import ListNotations.
Open Scope Z_scope.

(** In exact arithmetic: for all dimensions, leading dimensions and the four transpositions the
    kernel succeeds and computes alpha*op(A)*op(B) + beta*C on the addressed entries, leaving all
    others. [fits], [readable] (BlasFacts) say the arrays are large enough. *)
Theorem C49_gemm :
  forall (TA TB : bool) (M N K : Z) (alpha : R) (A : list R) (lda : Z) (B : list R) 
    (ldb : Z) (beta : R) (C : list R) (ldc : Z),
  fits M N ldc C ->
  0 <= K ->
  readable TA A lda M K ->
  readable TB B ldb K N ->
  exists C' : list R,
    blas_gemm R_num TA TB M N K alpha A lda B ldb beta C ldc = Ok C' /\
    len C' = len C /\
    (forall i j : Z,
     0 <= i < M ->
     0 <= j < N ->
     at_ 0%R C' (i * ldc + j) =
     (alpha *
      rsum K
        (fun k : Z =>
         at_ 0 A (if TA then (k * lda + i)%Z else (i * lda + k)%Z) *
         at_ 0 B (if TB then (j * ldb + k)%Z else (k * ldb + j)%Z)) + beta * at_ 0 C (i * ldc + j))%R) /\
    (forall q : Z,
     0 <= q ->
     (forall i j : Z, 0 <= i < M -> 0 <= j < N -> q <> i * ldc + j) -> at_ 0%R C' q = at_ 0%R C q).
Proof. exact @C49_gemm_lemma. Qed.
Print Assumptions C49_gemm.

(** The same for any kind of numbers, in particular doubles: [gemm_entry] (BlasFacts) is the order
    in which the terms are accumulated. *)
Theorem C49_gemm_doubles :
  forall (T : Type) (Q : num T) (TA TB : bool) (M N K : Z) (alpha : T) (A : list T) 
    (lda : Z) (B : list T) (ldb : Z) (beta : T) (C : list T) (ldc : Z),
  fits M N ldc C ->
  0 <= K ->
  readable TA A lda M K ->
  readable TB B ldb K N ->
  exists C' : list T,
    blas_gemm Q TA TB M N K alpha A lda B ldb beta C ldc = Ok C' /\
    block_updated Q M N ldc (gemm_entry Q TA TB K alpha A lda B ldb beta) C C'.
Proof. exact @blas_gemm_ok. Qed.
Print Assumptions C49_gemm_doubles.

(** Strided vectors: [stride_ok] says the positions are in the array. *)
Theorem C49_dot :
  forall (T : Type) (Q : num T) (N : Z) (X : list T) (ox incx : Z) (Y : list T) (incy : Z),
  0 <= N ->
  stride_ok N X ox incx ->
  stride_ok N Y 0 incy ->
  blas_dot Q N X ox incx Y incy =
  Ok (sum_from Q (n0 Q) N (fun i : Z => nmul Q (at_ (n0 Q) X (ox + i * incx)) (at_ (n0 Q) Y (i * incy)))).
Proof. exact @blas_dot_ok. Qed.
Print Assumptions C49_dot.

(** axpy: Y[k*incy] += alpha * X[k*incx], nothing else changes. *)
Theorem C49_axpy :
  forall (T : Type) (Q : num T) (N : Z) (alpha : T) (X : list T) (incx : Z) (Y : list T) (oy incy : Z),
  0 <= N ->
  incy <> 0 ->
  stride_ok N X 0 incx ->
  stride_ok N Y oy incy ->
  exists Y' : list T,
    blas_axpy Q N alpha X incx Y oy incy = Ok Y' /\
    strided Q N oy incy
      (fun (i : Z) (y : T) =>
       nadd Q y
         (if nne Q alpha (n1 Q) then nmul Q alpha (at_ (n0 Q) X (i * incx)) else at_ (n0 Q) X (i * incx)))
      Y Y'.
Proof. exact @blas_axpy_ok. Qed.
Print Assumptions C49_axpy.

(** Scaling. *)
Theorem C49_scal :
  forall (T : Type) (Q : num T) (N : Z) (alpha : T) (X : list T) (incx : Z),
  0 <= N ->
  incx <> 0 ->
  stride_ok N X 0 incx ->
  exists X' : list T,
    blas_scal Q N alpha X incx = Ok X' /\
    strided Q N 0 incx (fun (_ : Z) (x : T) => if nne Q alpha (n0 Q) then nmul Q x alpha else n0 Q) X X'.
Proof. exact @blas_scal_ok. Qed.
Print Assumptions C49_scal.

(** Filling. *)
Theorem C49_fill :
  forall (T : Type) (Q : num T) (N : Z) (alpha : T) (X : list T) (incx : Z),
  0 <= N ->
  incx <> 0 ->
  stride_ok N X 0 incx ->
  exists X' : list T,
    blas_fill N alpha X incx = Ok X' /\ strided Q N 0 incx (fun (_ : Z) (_ : T) => alpha) X X'.
Proof. exact @blas_fill_ok. Qed.
Print Assumptions C49_fill.

(** Element-wise product. *)
Theorem C49_mul :
  forall (T : Type) (Q : num T) (N : Z) (X : list T) (incx : Z) (Y : list T) (incy : Z),
  0 <= N ->
  incy <> 0 ->
  stride_ok N X 0 incx ->
  stride_ok N Y 0 incy ->
  exists Y' : list T,
    blas_mul Q N X incx Y incy = Ok Y' /\
    strided Q N 0 incy (fun (i : Z) (y : T) => nmul Q y (at_ (n0 Q) X (i * incx))) Y Y'.
Proof. exact @blas_mul_ok. Qed.
Print Assumptions C49_mul.

(** Sum. *)
Theorem C49_sum :
  forall (T : Type) (Q : num T) (N : Z) (X : list T),
  0 <= N <= len X -> blas_sum Q X N = Ok (sum_from Q (n0 Q) N (fun i : Z => at_ (n0 Q) X i)).
Proof. exact @blas_sum_ok. Qed.
Print Assumptions C49_sum.

(** A 2x2 product with A transposed inside arrays with leading dimension 3: C := 2 A'B + C; the third column of C is untouched. *)
Example C49_example :
  let z := map of_Z in
  fits 2 2 3 (z [1; 1; 9; 1; 1; 9]) /\ readable true (z [1; 2; 0; 3; 4; 0]) 3 2 2 /\ readable false (z [5; 6; 0; 7; 8; 0]) 3 2 2 /\
  match blas_gemm f64_num true false 2 2 2 f2 (z [1; 2; 0; 3; 4; 0]) 3 (z [5; 6; 0; 7; 8; 0]) 3 f1 (z [1; 1; 9; 1; 1; 9]) 3 with Ok l => map to_int l | _ => [] end =
    map Some [53; 61; 9; 77; 89; 9].
Proof. cbv zeta. unfold fits, readable, len. cbn [map length]. repeat split; try (intros; lia); vm_compute; reflexivity. Qed.
