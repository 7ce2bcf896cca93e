(** * Neural activation functions: /repo/xcsf/neural_activations.h and .c.

    Like Blas.v, written once for any type of numbers: [f64_arith] is what runs, [R_arith]
    (ActFacts.v) is the same code in exact arithmetic. *)
From Coq Require Import ZArith Bool List.
From Verif Require Import Outcome F64 Rng Arr Blas.
Import ListNotations.
Open Scope Z_scope.

(** Numbers with what the neural code needs besides [num]: conversion from int, the
    comparison <, math.h, decimal literals p/q and -DBL_MAX. *)
Record arith (T : Type) := mkArith {
  a_num : num T;
  a_Z : Z -> T;
  a_lt : T -> T -> bool;
  a_le : T -> T -> bool;
  a_exp : T -> T; a_expm1 : T -> T; a_log1p : T -> T;
  a_tanh : T -> T; a_sin : T -> T; a_cos : T -> T;
  a_lit : Z -> Z -> T;
  a_lowest : T
}.
Arguments a_num {T} _.
Arguments a_Z {T} _ _.
Arguments a_lt {T} _ _ _.
Arguments a_le {T} _ _ _.
Arguments a_exp {T} _ _.
Arguments a_expm1 {T} _ _.
Arguments a_log1p {T} _ _.
Arguments a_tanh {T} _ _.
Arguments a_sin {T} _ _.
Arguments a_cos {T} _ _.
Arguments a_lit {T} _ _ _.
Arguments a_lowest {T} _.

Definition f64_arith (lm : libm) : arith f64 :=
  mkArith f64 f64_num of_Z flt fle (m_exp lm) (m_expm1 lm) (m_log1p lm) (m_tanh lm) (m_sin lm) (m_cos lm)
    lit (fneg dbl_max).

(** neural_activations.h:28-39 *)
Definition LOGISTIC : Z := 0.
Definition RELU : Z := 1.
Definition TANH : Z := 2.
Definition LINEAR : Z := 3.
Definition GAUSSIAN : Z := 4.
Definition SIN : Z := 5.
Definition COS : Z := 6.
Definition SOFT_PLUS : Z := 7.
Definition LEAKY : Z := 8.
Definition SELU : Z := 9.
Definition LOGGY : Z := 10.
Definition NUM_ACTIVATIONS : Z := 11.

(** neural_layer.h:56-57 *)
Definition NEURON_MIN : Z := -100.
Definition NEURON_MAX : Z := 100.

Section Act.
Context {T : Type} (A : arith T).
Notation "a +' b" := (nadd (a_num A) a b) (at level 50, left associativity).
Notation "a -' b" := (nsub (a_num A) a b) (at level 50, left associativity).
Notation "a *' b" := (nmul (a_num A) a b) (at level 40, left associativity).
Notation "a /' b" := (ndiv (a_num A) a b) (at level 40, left associativity).
Notation "-' a" := (nneg (a_num A) a) (at level 35, right associativity).
Notation "# z" := (a_Z A z) (at level 1, format "# z").
(** An int-valued comparison used as a number. *)
Definition truth (b : bool) : T := if b then #1 else #0.

(** utils.h:59-63 clamp *)
Definition aclamp (x lo hi : T) : T := if a_lt A x lo then lo else if a_lt A hi x then hi else x.

(** neural_activations.h:74-78 *)
Definition logistic_activate (x : T) : T := #1 /' (#1 +' a_exp A (-' x)).
(** neural_activations.h:80-85 *)
Definition logistic_gradient (x : T) : T :=
  let fx := #1 /' (#1 +' a_exp A (-' x)) in (#1 -' fx) *' fx.
(** neural_activations.h:87-91 *)
Definition loggy_activate (x : T) : T := #2 /' (#1 +' a_exp A (-' x)) -' #1.
(** neural_activations.h:93-98 *)
Definition loggy_gradient (x : T) : T :=
  let fx := a_exp A x in (#2 *' fx) /' ((fx +' #1) *' (fx +' #1)).
(** neural_activations.h:100-104 *)
Definition gaussian_activate (x : T) : T := a_exp A (-' x *' x).
(** neural_activations.h:106-110 *)
Definition gaussian_gradient (x : T) : T := #(-2) *' x *' a_exp A (-' x *' x).
(** neural_activations.h:112-116 *)
Definition relu_activate (x : T) : T := x *' truth (a_lt A #0 x).
(** neural_activations.h:118-122 *)
Definition relu_gradient (x : T) : T := truth (a_lt A #0 x).
(** neural_activations.h:124-128 *)
Definition selu_activate (x : T) : T :=
  truth (a_le A #0 x) *' a_lit A 10507 10000 *' x
  +' truth (a_lt A x #0) *' a_lit A 10507 10000 *' a_lit A 16732 10000 *' a_expm1 A x.
(** neural_activations.h:130-134 *)
Definition selu_gradient (x : T) : T :=
  truth (a_le A #0 x) *' a_lit A 10507 10000
  +' truth (a_lt A x #0) *' (a_lit A 10507 10000 *' a_lit A 16732 10000 *' a_exp A x).
(** neural_activations.h:136-147 *)
Definition linear_activate (x : T) : T := x.
Definition linear_gradient (x : T) : T := #1.
(** neural_activations.h:149-159 *)
Definition soft_plus_activate (x : T) : T := a_log1p A (a_exp A x).
Definition soft_plus_gradient (x : T) : T := #1 /' (#1 +' a_exp A (-' x)).
(** neural_activations.h:161-172 *)
Definition tanh_activate (x : T) : T := a_tanh A x.
Definition tanh_gradient (x : T) : T := let t := a_tanh A x in #1 -' t *' t.
(** neural_activations.h:174-184 *)
Definition leaky_activate (x : T) : T := if a_lt A #0 x then x else a_lit A 1 10 *' x.
Definition leaky_gradient (x : T) : T := if a_lt A x #0 then a_lit A 1 10 else #1.
(** neural_activations.h:186-208 *)
Definition sin_activate (x : T) : T := a_sin A x.
Definition sin_gradient (x : T) : T := a_cos A x.
Definition cos_activate (x : T) : T := a_cos A x.
Definition cos_gradient (x : T) : T := -' (a_sin A x).

(** neural_activations.c:34-64 *)
Definition neural_activate (a : Z) (x : T) : outcome T :=
  if a =? LOGISTIC then Ok (logistic_activate x)
  else if a =? RELU then Ok (relu_activate x)
  else if a =? GAUSSIAN then Ok (gaussian_activate x)
  else if a =? TANH then Ok (tanh_activate x)
  else if a =? SIN then Ok (sin_activate x)
  else if a =? COS then Ok (cos_activate x)
  else if a =? SOFT_PLUS then Ok (soft_plus_activate x)
  else if a =? LINEAR then Ok (linear_activate x)
  else if a =? LEAKY then Ok (leaky_activate x)
  else if a =? SELU then Ok (selu_activate x)
  else if a =? LOGGY then Ok (loggy_activate x)
  else Exit.

(** neural_activations.c:72-102 *)
Definition neural_gradient (a : Z) (x : T) : outcome T :=
  if a =? LOGISTIC then Ok (logistic_gradient x)
  else if a =? RELU then Ok (relu_gradient x)
  else if a =? GAUSSIAN then Ok (gaussian_gradient x)
  else if a =? TANH then Ok (tanh_gradient x)
  else if a =? SIN then Ok (sin_gradient x)
  else if a =? COS then Ok (cos_gradient x)
  else if a =? SOFT_PLUS then Ok (soft_plus_gradient x)
  else if a =? LINEAR then Ok (linear_gradient x)
  else if a =? LEAKY then Ok (leaky_gradient x)
  else if a =? SELU then Ok (selu_gradient x)
  else if a =? LOGGY then Ok (loggy_gradient x)
  else Exit.

(** neural_activations.c:198-205: the new states and outputs. *)
Definition neural_activate_array (state output : list T) (n a : Z) : outcome (list T * list T) :=
  ofor n (fun i so =>
    (s <- rd (fst so) i ;;
     let s1 := aclamp s #NEURON_MIN #NEURON_MAX in
     st <- wr (fst so) i s1 ;;
     o <- neural_activate a s1 ;;
     out <- wr (snd so) i o ;;
     Ok (st, out))%out) (state, output).

(** neural_activations.c:214-221 *)
Definition neural_gradient_array (state delta : list T) (n a : Z) : outcome (list T) :=
  ofor n (fun i delta =>
    (s <- rd state i ;; g <- neural_gradient a s ;; modify_at delta i (fun d => d *' g))%out) delta.
End Act.
