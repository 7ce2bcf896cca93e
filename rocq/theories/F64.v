(** * C [double]: IEEE-754 binary64, round to nearest even.

    Executable (Flocq [binary_float 53 1024]) so that the model can be run, and related
    to the reals by [B2R] so that rounding can be reasoned about.  All arithmetic of the
    C code on [double] is modelled with these operations in the order written in the C
    source (no extended precision, no fused multiply-add, no reassociation: the build
    uses no -ffast-math). *)
From Coq Require Import ZArith Bool List.
From Flocq Require Import Core BinarySingleNaN.

#[export] Instance prec53 : Prec_gt_0 53 := eq_refl.
#[export] Instance emax1024 : Prec_lt_emax 53 1024 := eq_refl.

Definition f64 : Type := binary_float 53 1024.

Definition fadd (x y : f64) : f64 := Bplus mode_NE x y.
Definition fsub (x y : f64) : f64 := Bminus mode_NE x y.
Definition fmul (x y : f64) : f64 := Bmult mode_NE x y.
Definition fdiv (x y : f64) : f64 := Bdiv mode_NE x y.
Definition fsqrt (x : f64) : f64 := Bsqrt mode_NE x.
Definition fneg (x : f64) : f64 := Bopp x.
Definition fabs (x : f64) : f64 := Babs x.

(** C comparisons: all are false when an operand is NaN ([==] included). *)
Definition flt (x y : f64) : bool := Bltb x y.   (* x < y *)
Definition fle (x y : f64) : bool := Bleb x y.   (* x <= y *)
Definition fgt (x y : f64) : bool := Bltb y x.   (* x > y *)
Definition fge (x y : f64) : bool := Bleb y x.   (* x >= y *)
Definition feq (x y : f64) : bool := Beqb x y.   (* x == y *)
Definition fne (x y : f64) : bool := negb (Beqb x y). (* x != y *)

(** Conversion of a C [int] (exact, since |int| < 2^53) or any integer (rounded). *)
Definition of_Z (z : Z) : f64 := binary_normalize 53 1024 _ _ mode_NE z 0 false.

(** A decimal literal p/q: the correctly rounded quotient (p, q exactly representable). *)
Definition lit (p q : Z) : f64 := fdiv (of_Z p) (of_Z q).

Definition f0 : f64 := of_Z 0.
Definition f1 : f64 := of_Z 1.
Definition f2 : f64 := of_Z 2.
Definition fnan : f64 := B754_nan.
Definition finf : f64 := B754_infinity false.
Definition fhalf : f64 := lit 1 2.

(** DBL_MAX = (2^53 - 1) * 2^971 and DBL_EPSILON = 2^-52 (float.h). *)
Definition dbl_max : f64 := binary_normalize 53 1024 _ _ mode_NE (2 ^ 53 - 1) 971 false.
Definition dbl_epsilon : f64 := binary_normalize 53 1024 _ _ mode_NE 1 (-52) false.

Definition ffinite (x : f64) : bool := is_finite x.
Definition fnot_nan (x : f64) : bool := negb (is_nan x).

(** [floor] of math.h. *)
Definition ffloor (x : f64) : f64 := Bnearbyint mode_DN x.
(** [ceil] of math.h. *)
Definition fceil (x : f64) : f64 := Bnearbyint mode_UP x.

(** The conversion [(int) x]: truncation; [None] when undefined (C11 6.3.1.4). *)
Definition int_min : Z := (- 2 ^ 31)%Z.
Definition int_max : Z := (2 ^ 31 - 1)%Z.
Definition in_int (z : Z) : bool := (int_min <=? z)%Z && (z <=? int_max)%Z.

Definition to_int (x : f64) : option Z :=
  if is_finite x then
    let z := Btrunc x in if in_int z then Some z else None
  else None.

(** [fmax] of math.h: a NaN argument is ignored. *)
Definition fmax (x y : f64) : f64 :=
  if is_nan x then y else if is_nan y then x else if flt x y then y else x.

(** /repo/xcsf/utils.h clamp(): [(a < min) ? min : (a > max) ? max : a]. *)
Definition clamp (a lo hi : f64) : f64 :=
  if flt a lo then lo else if fgt a hi then hi else a.

(** /repo/xcsf/utils.h clamp_int(). *)
Definition clamp_int (a lo hi : Z) : Z :=
  if (a <? lo)%Z then lo else if (a >? hi)%Z then hi else a.

Arguments fadd : simpl never.
Arguments fsub : simpl never.
Arguments fmul : simpl never.
Arguments fdiv : simpl never.
Arguments fsqrt : simpl never.
Arguments fneg : simpl never.
Arguments fabs : simpl never.
Arguments flt : simpl never.
Arguments fle : simpl never.
Arguments fgt : simpl never.
Arguments fge : simpl never.
Arguments feq : simpl never.
Arguments fne : simpl never.
Arguments of_Z : simpl never.
Arguments lit : simpl never.
Arguments ffloor : simpl never.
Arguments to_int : simpl never.
Arguments clamp : simpl never.
Arguments fmax : simpl never.
