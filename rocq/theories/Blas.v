(** * Linear algebra: /repo/xcsf/blas.c.

    Written once for any type of numbers, so that the same code can be read in binary64
    ([f64_num], what runs) and in exact arithmetic ([R_num] in Exact.v).  Arrays are
    lists; pointers into the middle of an array are an offset. *)
From Coq Require Import ZArith Bool List.
From Verif Require Import Outcome F64 Arr.
Import ListNotations.
Open Scope Z_scope.

Record num (T : Type) := mkNum {
  n0 : T; n1 : T;
  nadd : T -> T -> T; nsub : T -> T -> T; nmul : T -> T -> T; ndiv : T -> T -> T;
  nneg : T -> T;
  nne : T -> T -> bool       (* the C operator != *)
}.
Arguments n0 {T} _.
Arguments n1 {T} _.
Arguments nadd {T} _ _ _.
Arguments nsub {T} _ _ _.
Arguments nmul {T} _ _ _.
Arguments ndiv {T} _ _ _.
Arguments nneg {T} _ _.
Arguments nne {T} _ _ _.

Definition f64_num : num f64 := mkNum f64 f0 f1 fadd fsub fmul fdiv fneg fne.

Section Blas.
Context {T : Type} (Q : num T).
Notation "a +' b" := (nadd Q a b) (at level 50, left associativity).
Notation "a *' b" := (nmul Q a b) (at level 40, left associativity).

(** C[k] = f(C[k]) *)
Definition modify_at (C : list T) (k : Z) (f : T -> T) : outcome (list T) :=
  (c <- rd C k ;; wr C k (f c))%out.

(** blas.c:26-39 gemm_nn *)
Definition gemm_nn (M N K : Z) (alpha : T) (A : list T) (lda : Z) (B : list T) (ldb : Z)
  (C : list T) (ldc : Z) : outcome (list T) :=
  ofor M (fun i C => ofor K (fun k C =>
    (a <- rd A (i * lda + k) ;;
     let a_part := alpha *' a in
     ofor N (fun j C =>
       b <- rd B (k * ldb + j) ;; modify_at C (i * ldc + j) (fun c => c +' (a_part *' b))) C)%out) C) C.

(** blas.c:41-55 gemm_nt *)
Definition gemm_nt (M N K : Z) (alpha : T) (A : list T) (lda : Z) (B : list T) (ldb : Z)
  (C : list T) (ldc : Z) : outcome (list T) :=
  ofor M (fun i C => ofor N (fun j C =>
    (sum <- ofor K (fun k sum =>
       (a <- rd A (i * lda + k) ;; b <- rd B (j * ldb + k) ;;
        Ok (sum +' (alpha *' a *' b)))%out) (n0 Q) ;;
     modify_at C (i * ldc + j) (fun c => c +' sum))%out) C) C.

(** blas.c:57-70 gemm_tn *)
Definition gemm_tn (M N K : Z) (alpha : T) (A : list T) (lda : Z) (B : list T) (ldb : Z)
  (C : list T) (ldc : Z) : outcome (list T) :=
  ofor M (fun i C => ofor K (fun k C =>
    (a <- rd A (k * lda + i) ;;
     let a_part := alpha *' a in
     ofor N (fun j C =>
       b <- rd B (k * ldb + j) ;; modify_at C (i * ldc + j) (fun c => c +' (a_part *' b))) C)%out) C) C.

(** blas.c:72-86 gemm_tt *)
Definition gemm_tt (M N K : Z) (alpha : T) (A : list T) (lda : Z) (B : list T) (ldb : Z)
  (C : list T) (ldc : Z) : outcome (list T) :=
  ofor M (fun i C => ofor N (fun j C =>
    (sum <- ofor K (fun k sum =>
       (a <- rd A (i + k * lda) ;; b <- rd B (k + j * ldb) ;;
        Ok (sum +' (alpha *' a *' b)))%out) (n0 Q) ;;
     modify_at C (i * ldc + j) (fun c => c +' sum))%out) C) C.

(** blas.c:107-126 blas_gemm *)
Definition blas_gemm (TA TB : bool) (M N K : Z) (alpha : T) (A : list T) (lda : Z)
  (B : list T) (ldb : Z) (beta : T) (C : list T) (ldc : Z) : outcome (list T) :=
  (C1 <- ofor M (fun i C => ofor N (fun j C => modify_at C (i * ldc + j) (fun c => c *' beta)) C) C ;;
   (if negb TA && negb TB then gemm_nn
    else if TA && negb TB then gemm_tn
    else if negb TA && TB then gemm_nt
    else gemm_tt) M N K alpha A lda B ldb C1 ldc)%out.

(** blas.c:137-150 blas_axpy; [Y] starts at offset [oy] of its array. *)
Definition blas_axpy (N : Z) (alpha : T) (X : list T) (incx : Z) (Y : list T) (oy incy : Z)
  : outcome (list T) :=
  if nne Q alpha (n1 Q)
  then ofor N (fun i Y => (x <- rd X (i * incx) ;; modify_at Y (oy + i * incy) (fun y => y +' (alpha *' x)))%out) Y
  else ofor N (fun i Y => (x <- rd X (i * incx) ;; modify_at Y (oy + i * incy) (fun y => y +' x))%out) Y.

(** blas.c:159-171 blas_scal *)
Definition blas_scal (N : Z) (alpha : T) (X : list T) (incx : Z) : outcome (list T) :=
  if nne Q alpha (n0 Q)
  then ofor N (fun i X => modify_at X (i * incx) (fun x => x *' alpha)) X
  else ofor N (fun i X => wr X (i * incx) (n0 Q)) X.

(** blas.c:180-186 blas_fill *)
Definition blas_fill (N : Z) (alpha : T) (X : list T) (incx : Z) : outcome (list T) :=
  ofor N (fun i X => wr X (i * incx) alpha) X.

(** blas.c:197-206 blas_dot; [X] starts at offset [ox]. *)
Definition blas_dot (N : Z) (X : list T) (ox incx : Z) (Y : list T) (incy : Z) : outcome T :=
  ofor N (fun i dot => (x <- rd X (ox + i * incx) ;; y <- rd Y (i * incy) ;; Ok (dot +' (x *' y)))%out) (n0 Q).

(** blas.c:216-223 blas_mul *)
Definition blas_mul (N : Z) (X : list T) (incx : Z) (Y : list T) (incy : Z) : outcome (list T) :=
  ofor N (fun i Y => (x <- rd X (i * incx) ;; modify_at Y (i * incy) (fun y => y *' x))%out) Y.

(** blas.c:231-239 blas_sum *)
Definition blas_sum (X : list T) (N : Z) : outcome T :=
  ofor N (fun i sum => (x <- rd X i ;; Ok (sum +' x))%out) (n0 Q).
End Blas.
