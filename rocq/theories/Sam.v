(** * Self-adaptive mutation rates: /repo/xcsf/sam.c. *)
From Coq Require Import ZArith Bool List.
From Verif Require Import Outcome F64 Rng Arr.
Import ListNotations.
Open Scope Z_scope.

(** sam.h:27-29 *)
Definition SAM_LOG_NORMAL : Z := 0.
Definition SAM_RATE_SELECT : Z := 1.
Definition SAM_UNIFORM : Z := 2.

(** sam.c:27 MU_EPSILON = 0.0005; sam.c:33-34 mrates. *)
Definition mu_epsilon : f64 := lit 5 10000.
Definition mrates : list f64 :=
  [lit 5 10000; lit 1 1000; lit 2 1000; lit 3 1000; lit 5 1000;
   lit 1 100; lit 15 1000; lit 2 100; lit 5 100; lit 1 10].

Definition pick_rate : RM f64 :=
  (i <- rand_uniform_int 0 10 ;; lift (rd mrates i))%rng.

(** sam.c:42-59 sam_init: one iteration, then the loop over the scheme array. *)
Definition sam_init1 (type : Z) : RM f64 :=
  if (type =? SAM_LOG_NORMAL) || (type =? SAM_UNIFORM) then rand_uniform mu_epsilon f1
  else if type =? SAM_RATE_SELECT then pick_rate
  else rexit.
Fixpoint sam_init (types : list Z) : RM (list f64) :=
  match types with
  | [] => ret []
  | t :: r => (m <- sam_init1 t ;; ms <- sam_init r ;; ret (m :: ms))%rng
  end.

(** sam.c:67-91 sam_adapt. *)
Definition sam_adapt1 (lm : libm) (type : Z) (mu : f64) : RM f64 :=
  if type =? SAM_LOG_NORMAL then
    (z <- rand_normal lm f0 f1 ;; ret (clamp (fmul mu (m_exp lm z)) mu_epsilon f1))%rng
  else if type =? SAM_RATE_SELECT then
    (u <- rand_uniform f0 f1 ;; if flt u (lit 1 10) then pick_rate else ret mu)%rng
  else if type =? SAM_UNIFORM then
    (u <- rand_uniform f0 f1 ;; if flt u (lit 1 10) then rand_uniform mu_epsilon f1 else ret mu)%rng
  else rexit.
Fixpoint sam_adapt (lm : libm) (types : list Z) (mu : list f64) : RM (list f64) :=
  match types with
  | [] => ret mu
  | t :: r =>
    match mu with
    | [] => rub OutOfBounds
    | m :: ms => (m' <- sam_adapt1 lm t m ;; ms' <- sam_adapt lm r ms ;; ret (m' :: ms'))%rng
    end
  end.

(** sam.c:99-117 sam_json_import, given the numbers of the "mutation" array (None: no such
    array in the object). *)
Definition sam_json_import (mu : list f64) (n : Z) (item : option (list f64)) : outcome (list f64) :=
  match item with
  | None => Ok mu
  | Some vs =>
    if negb (Z.of_nat (length vs) =? n) then Exit
    else ofor n (fun i m => (v <- rd vs i ;;
                             if flt v f0 || fgt v f1 then Exit else wr m i v)%out) mu
  end.
