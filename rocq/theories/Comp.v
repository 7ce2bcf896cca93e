(** * Rules assembled from a condition, an action and a prediction.

    condition.c:40-80, action.c:34-49, prediction.c:35-56 (condition_set, action_set,
    prediction_set) give every rule of a system the same three function tables; here the
    tables of the three parts are combined into the table [vtab] that Pop.v uses.  A part
    of a rule that has not been initialised is [None] (an indeterminate pointer in C). *)
From Coq Require Import ZArith Bool List.
From Verif Require Import Outcome F64 Rng Arr Sam Pop Cond Blas Pred.
Import ListNotations.
Open Scope Z_scope.

(** condition.h:104-128 struct CondVtbl (print, save, load, free, JSON left out). *)
Record condT (C : Type) := mkCondT {
  k_init : RM C; k_copy : C -> RM C; k_cover : C -> list f64 -> RM C;
  k_match : C -> list f64 -> RM (C * bool); k_update : C -> list f64 -> list f64 -> RM C;
  k_general : C -> C -> outcome bool; k_crossover : C -> C -> RM (C * C * bool);
  k_mutate : C -> RM (C * bool); k_size : C -> f64
}.
Arguments k_init {C} _.
Arguments k_copy {C} _ _.
Arguments k_cover {C} _ _ _.
Arguments k_match {C} _ _ _.
Arguments k_update {C} _ _ _ _.
Arguments k_general {C} _ _ _.
Arguments k_crossover {C} _ _ _.
Arguments k_mutate {C} _ _.
Arguments k_size {C} _ _.

(** action.h:76-99 struct ActVtbl. *)
Record actT (A : Type) := mkActT {
  i_init : RM A; i_copy : A -> RM A; i_cover : A -> list f64 -> Z -> RM A;
  i_compute : A -> list f64 -> RM (A * Z); i_update : A -> list f64 -> list f64 -> RM A;
  i_general : A -> A -> outcome bool; i_crossover : A -> A -> RM (A * A * bool);
  i_mutate : A -> RM (A * bool)
}.
Arguments i_init {A} _.
Arguments i_copy {A} _ _.
Arguments i_cover {A} _ _ _ _.
Arguments i_compute {A} _ _ _.
Arguments i_update {A} _ _ _ _.
Arguments i_general {A} _ _ _.
Arguments i_crossover {A} _ _ _.
Arguments i_mutate {A} _ _.

(** prediction.h:96-116 struct PredVtbl. *)
Record predT (P : Type) := mkPredT {
  q_init : RM P; q_copy : P -> RM P;
  q_compute : P -> list f64 -> list f64 -> RM (P * list f64);
  q_update : P -> Z -> list f64 -> list f64 -> list f64 -> RM (P * list f64);
  q_crossover : P -> P -> RM (P * P * bool); q_mutate : P -> RM (P * bool); q_size : P -> f64
}.
Arguments q_init {P} _.
Arguments q_copy {P} _ _.
Arguments q_compute {P} _ _ _ _.
Arguments q_update {P} _ _ _ _ _ _.
Arguments q_crossover {P} _ _ _.
Arguments q_mutate {P} _ _.
Arguments q_size {P} _ _.

Record payload (C A P : Type) := mkPay { y_cond : option C; y_act : option A; y_pred : option P }.
Arguments mkPay {C A P} _ _ _.
Arguments y_cond {C A P} _.
Arguments y_act {C A P} _.
Arguments y_pred {C A P} _.

Section Join.
Context {C A P : Type} (VC : condT C) (VA : actT A) (VP : predT P).
Notation pay := (payload C A P).
(** Dereference of a part. *)
Definition need {T} (o : option T) : RM T := match o with Some t => ret t | None => fun _ => UB Uninit end.
Definition set_cond (b : pay) (c : C) : pay := mkPay (Some c) (y_act b) (y_pred b).
Definition set_act (b : pay) (a : A) : pay := mkPay (y_cond b) (Some a) (y_pred b).
Definition set_pred (b : pay) (p : P) : pay := mkPay (y_cond b) (y_act b) (Some p).
(** "general" is pure in Pop.v; CompFacts.v proves it never fails on well-formed rules. *)
Definition truth (o : outcome bool) : bool := match o with Ok b => b | _ => false end.

Definition join : vtab pay := mkVtab pay
  (mkPay None None None)
  (fun b => (c <- k_init VC ;; ret (set_cond b c))%rng)
  (fun b => (a <- i_init VA ;; ret (set_act b a))%rng)
  (fun b => (p <- q_init VP ;; ret (set_pred b p))%rng)
  (fun b src => (s <- need (y_cond src) ;; c <- k_copy VC s ;; ret (set_cond b c))%rng)
  (fun b src => (s <- need (y_act src) ;; a <- i_copy VA s ;; ret (set_act b a))%rng)
  (fun b src => (s <- need (y_pred src) ;; p <- q_copy VP s ;; ret (set_pred b p))%rng)
  (fun b x => (c <- need (y_cond b) ;; c' <- k_cover VC c x ;; ret (set_cond b c'))%rng)
  (fun b x n => (a <- need (y_act b) ;; a' <- i_cover VA a x n ;; ret (set_act b a'))%rng)
  (fun b x => (c <- need (y_cond b) ;; r <- k_match VC c x ;; ret (set_cond b (fst r), snd r))%rng)
  (fun b x => (a <- need (y_act b) ;; r <- i_compute VA a x ;; ret (set_act b (fst r), snd r))%rng)
  (fun b v x => (p <- need (y_pred b) ;; r <- q_compute VP p v x ;; ret (set_pred b (fst r), snd r))%rng)
  (fun b x y => (c <- need (y_cond b) ;; c' <- k_update VC c x y ;; ret (set_cond b c'))%rng)
  (fun b x y => (a <- need (y_act b) ;; a' <- i_update VA a x y ;; ret (set_act b a'))%rng)
  (fun b e v x y => (p <- need (y_pred b) ;; r <- q_update VP p e v x y ;; ret (set_pred b (fst r), snd r))%rng)
  (fun b1 b2 => match y_cond b1, y_cond b2 with Some c1, Some c2 => truth (k_general VC c1 c2) | _, _ => false end)
  (fun b1 b2 => match y_act b1, y_act b2 with Some a1, Some a2 => truth (i_general VA a1 a2) | _, _ => false end)
  (fun b1 b2 => (c1 <- need (y_cond b1) ;; c2 <- need (y_cond b2) ;; r <- k_crossover VC c1 c2 ;;
                 ret (set_cond b1 (fst (fst r)), set_cond b2 (snd (fst r)), snd r))%rng)
  (fun b1 b2 => (a1 <- need (y_act b1) ;; a2 <- need (y_act b2) ;; r <- i_crossover VA a1 a2 ;;
                 ret (set_act b1 (fst (fst r)), set_act b2 (snd (fst r)), snd r))%rng)
  (fun b1 b2 => (p1 <- need (y_pred b1) ;; p2 <- need (y_pred b2) ;; r <- q_crossover VP p1 p2 ;;
                 ret (set_pred b1 (fst (fst r)), set_pred b2 (snd (fst r)), snd r))%rng)
  (fun b => (c <- need (y_cond b) ;; r <- k_mutate VC c ;; ret (set_cond b (fst r), snd r))%rng)
  (fun b => (a <- need (y_act b) ;; r <- i_mutate VA a ;; ret (set_act b (fst r), snd r))%rng)
  (fun b => (p <- need (y_pred b) ;; r <- q_mutate VP p ;; ret (set_pred b (fst r), snd r))%rng)
  (fun b => match y_cond b with Some c => k_size VC c | None => f0 end)
  (fun b => match y_pred b with Some p => q_size VP p | None => f0 end).
End Join.

(** ** The modelled parts. *)
Section Parts.
Context (K : cfg) (P : cpar) (R : ppar).
Definition pure2 {T} (r : T * bool) : RM (T * bool) := ret r.

(** cond_dummy.c:31-190: the rule's [cond] pointer is never set or read. *)
Definition dummy_cond : condT unit := mkCondT unit
  (ret tt) (fun _ => ret tt) (fun _ _ => ret tt) (fun _ _ => ret (tt, true)) (fun _ _ _ => ret tt)
  (fun _ _ => Ok false) (fun _ _ => ret (tt, tt, false)) (fun _ => ret (tt, false)) (fun _ => f0).

(** cond_ternary.c; cond_ternary_update (136-151) does nothing. *)
Definition ternary_cond : condT ternary := mkCondT ternary
  (ternary_init K P) (fun c => ret (ternary_copy c)) (fun c x => ternary_cover K P c x)
  (fun c x => (b <- lift (ternary_match K P c x) ;; ret (c, b))%rng) (fun c _ _ => ret c)
  ternary_general (ternary_crossover P) (ternary_mutate K) ternary_size.

(** cond_rectangle.c *)
Definition rect_cond : condT rect := mkCondT rect
  (rect_init K P) (fun c => lift (rect_copy K c)) (fun c x => rect_cover K P c x)
  (fun c x => (b <- lift (rect_match K P c x) ;; ret (c, b))%rng) (fun c x _ => lift (rect_update K P c x))
  (rect_general K P) (rect_crossover K P) (rect_mutate K P) (fun _ => rect_size K).

(** cond_ellipsoid.c *)
Definition ellip_cond : condT ellip := mkCondT ellip
  (ellip_init K P) (fun c => lift (ellip_copy K c)) (fun c x => ellip_cover K P c x)
  (fun c x => (b <- lift (ellip_match K c x) ;; ret (c, b))%rng) (fun c x _ => lift (ellip_update K P c x))
  (ellip_general K) (ellip_crossover K P) (ellip_mutate K P) (fun _ => rect_size K).

(** act_integer.c *)
Definition integer_act : actT actint := mkActT actint
  (actint_init K) (fun a => ret (actint_copy a)) (fun a _ n => ret (actint_cover a n))
  (fun a _ => ret (a, actint_compute a)) (fun a _ _ => ret a)
  (fun a1 a2 => Ok (actint_general a1 a2)) (fun a1 a2 => ret (a1, a2, false)) (actint_mutate K).

(** pred_constant.c: no data; the value lives in the rule's prediction array. *)
Definition constant_pred : predT unit := mkPredT unit
  (ret tt) (fun _ => ret tt) (fun _ v _ => ret (tt, v))
  (fun _ e v _ y => (v' <- lift (constant_upd K e v y) ;; ret (tt, v'))%rng)
  (fun _ _ => ret (tt, tt, false)) (fun _ => ret (tt, false)) (fun _ => of_Z (y_dim K)).

(** pred_nlms.c *)
Definition nlms_pred : predT nlms := mkPredT nlms
  (nlms_init K R) (nlms_copy K R) (fun c v x => lift (nlms_compute K R c v x))
  (fun c _ v x y => (c' <- lift (nlms_update K R c v x y) ;; ret (c', v))%rng)
  (fun a b => ret (a, b, false)) (nlms_mutate K R) nlms_size.

(** pred_rls.c *)
Definition rls_pred : predT rls := mkPredT rls
  (lift (rls_init K R)) (fun c => lift (rls_copy K R c)) (fun c v x => lift (rls_compute K R c v x))
  (fun c _ v x y => (c' <- lift (rls_upd K R c v y) ;; ret (c', v))%rng)
  (fun a b => ret (a, b, false)) (fun c => ret (c, false)) rls_size.
End Parts.
