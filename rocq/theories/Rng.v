(** * Random numbers.

    /repo/xcsf/utils.c:61-101.  The generator (lib/dSFMT, not in the checkout) is replaced
    by an arbitrary infinite tape: theorems hold for every tape.  dSFMT's
    [dsfmt_gv_genrand_open_open] keeps 52 random mantissa bits of a double in [1,2), sets
    the lowest bit and subtracts 1: the result is an odd multiple of 2^-52 in (0,1). *)
From Coq Require Import ZArith Bool List.
From Flocq Require Import Core BinarySingleNaN.
From Verif Require Import Outcome F64.

(** Generator state: the tape, the number of draws consumed, and the two static
    variables [generate] and [z1] of [rand_normal] (utils.c:90-91). *)
Record rng := mkRng {
  r_tape : nat -> Z;
  r_pos : nat;
  r_generate : bool;
  r_z1 : f64
}.

Definition RM (A : Type) : Type := rng -> outcome (A * rng).

Definition ret {A} (a : A) : RM A := fun g => Ok (a, g).
Definition bind {A B} (m : RM A) (k : A -> RM B) : RM B :=
  fun g => match m g with
           | Ok (a, g') => k a g'
           | Exit => Exit
           | UB w => UB w
           | OutOfFuel => OutOfFuel
           end.
Definition rexit {A} : RM A := fun _ => Exit.
Definition rub {A} (k : ub_kind) : RM A := fun _ => UB k.
Definition rfuel {A} : RM A := fun _ => OutOfFuel.
Definition lift {A} (o : outcome A) : RM A :=
  fun g => match o with
           | Ok a => Ok (a, g)
           | Exit => Exit
           | UB w => UB w
           | OutOfFuel => OutOfFuel
           end.

Declare Scope rng_scope.
Delimit Scope rng_scope with rng.
Notation "x <- m ;; k" := (bind m (fun x => k))
  (at level 61, m at next level, right associativity) : rng_scope.
Notation "' p <- m ;; k" := (bind m (fun x => match x with p => k end))
  (at level 61, p pattern, m at next level, right associativity) : rng_scope.
Open Scope rng_scope.

(** The double denoted by a raw 52-bit draw: (m | 1) / 2^52. *)
Definition draw_value (m : Z) : f64 :=
  binary_normalize 53 1024 _ _ mode_NE (Z.lor (m mod 2 ^ 52) 1) (-52) false.

(** dsfmt_gv_genrand_open_open(). *)
Definition genrand : RM f64 := fun g =>
  Ok (draw_value (r_tape g (r_pos g)),
      mkRng (r_tape g) (S (r_pos g)) (r_generate g) (r_z1 g)).

(** utils.c:61-65 rand_uniform: [min + (u * (max - min))]. *)
Definition rand_uniform (lo hi : f64) : RM f64 :=
  u <- genrand ;; ret (fadd lo (fmul u (fsub hi lo))).

(** utils.c:73-77 rand_uniform_int: [(int) floor(rand_uniform(min, max))] where the int
    bounds are converted to double. *)
Definition rand_uniform_int (lo hi : Z) : RM Z :=
  x <- rand_uniform (of_Z lo) (of_Z hi) ;;
  match to_int (ffloor x) with
  | Some z => ret z
  | None => rub BadCast
  end.

(** libm functions the code calls, as oracles: a record so that a theorem can state what
    it assumes of them. *)
Record libm := mkLibm {
  m_exp : f64 -> f64;
  m_log : f64 -> f64;
  m_sin : f64 -> f64;
  m_cos : f64 -> f64;
  m_tanh : f64 -> f64;
  m_pow : f64 -> f64 -> f64;
  m_expm1 : f64 -> f64;
  m_log1p : f64 -> f64
}.

(** utils.c:89: two_pi = 2 * M_PI; M_PI is the double 884279719003555 * 2^-48. *)
Definition m_pi : f64 := binary_normalize 53 1024 _ _ mode_NE 884279719003555 (-48) false.
Definition two_pi : f64 := fmul f2 m_pi.

(** utils.c:86-101 rand_normal (Box-Muller with a cached second value). *)
Definition rand_normal (lm : libm) (mu sigma : f64) : RM f64 := fun g =>
  if r_generate g then
    (* generate flips to false: return the cached value *)
    Ok (fadd (fmul (r_z1 g) sigma) mu,
        mkRng (r_tape g) (r_pos g) false (r_z1 g))
  else
    (u1 <- genrand ;;
     u2 <- genrand ;;
     fun g' =>
       let r := fsqrt (fmul (of_Z (-2)) (m_log lm u1)) in
       let z0 := fmul r (m_cos lm (fmul two_pi u2)) in
       let z1 := fmul r (m_sin lm (fmul two_pi u2)) in
       Ok (fadd (fmul z0 sigma) mu, mkRng (r_tape g') (r_pos g') true z1)) g.
