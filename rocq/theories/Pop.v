(** * The population: rules, sets, and the operations of cl.c and clset.c.

    Simplifications (all recorded in DESIGN.md):
    - C [int] counters are unbounded [Z] here (overflow is the subject of property C58);
    - a [struct Set]'s linked list (struct Clist nodes) is a Coq list of rule locations;
      node allocation is not modelled, rule allocation is;
    - the serial branches of the #ifdef PARALLEL_* blocks are modelled;
    - the cond/act/pred structures hanging off a rule are one abstract payload accessed only
      through the vtable record [vtab]. *)
From Coq Require Import ZArith Bool List.
From Verif Require Import Outcome F64 Rng.
Import ListNotations.
Open Scope Z_scope.

(** ** Vtables (condition.h, action.h, prediction.h: struct CondVtbl, ActVtbl, PredVtbl).
    Every C vtable entry receives the whole rule, so every operation here receives the
    whole payload.  [list f64] arguments are the input x, the target y or the rule's
    [prediction] array. *)
Record vtab (B : Type) := mkVtab {
  v_blank : B;                                     (* freshly malloc'ed, nothing set *)
  v_cond_init : B -> RM B;
  v_act_init : B -> RM B;
  v_pred_init : B -> RM B;
  v_cond_copy : B -> B -> RM B;                    (* dest, src *)
  v_act_copy : B -> B -> RM B;
  v_pred_copy : B -> B -> RM B;
  v_cond_cover : B -> list f64 -> RM B;
  v_act_cover : B -> list f64 -> Z -> RM B;
  v_cond_match : B -> list f64 -> RM (B * bool);
  v_act_compute : B -> list f64 -> RM (B * Z);
  v_pred_compute : B -> list f64 -> list f64 -> RM (B * list f64);
                                                   (* payload, prediction, x *)
  v_cond_update : B -> list f64 -> list f64 -> RM B;
  v_act_update : B -> list f64 -> list f64 -> RM B;
  v_pred_update : B -> Z -> list f64 -> list f64 -> list f64 -> RM (B * list f64);
                                                   (* payload, exp, prediction, x, y *)
  v_cond_general : B -> B -> bool;
  v_act_general : B -> B -> bool;
  v_cond_crossover : B -> B -> RM (B * B * bool);
  v_act_crossover : B -> B -> RM (B * B * bool);
  v_pred_crossover : B -> B -> RM (B * B * bool);
  v_cond_mutate : B -> RM (B * bool);
  v_act_mutate : B -> RM (B * bool);
  v_pred_mutate : B -> RM (B * bool);
  v_cond_size : B -> f64;
  v_pred_size : B -> f64
}.
Arguments v_blank {B} _.
Arguments v_cond_init {B} _ _.
Arguments v_act_init {B} _ _.
Arguments v_pred_init {B} _ _.
Arguments v_cond_copy {B} _ _ _.
Arguments v_act_copy {B} _ _ _.
Arguments v_pred_copy {B} _ _ _.
Arguments v_cond_cover {B} _ _ _.
Arguments v_act_cover {B} _ _ _ _.
Arguments v_cond_match {B} _ _ _.
Arguments v_act_compute {B} _ _ _.
Arguments v_pred_compute {B} _ _ _ _.
Arguments v_cond_update {B} _ _ _ _.
Arguments v_act_update {B} _ _ _ _.
Arguments v_pred_update {B} _ _ _ _ _ _.
Arguments v_cond_general {B} _ _ _.
Arguments v_act_general {B} _ _ _.
Arguments v_cond_crossover {B} _ _ _.
Arguments v_act_crossover {B} _ _ _.
Arguments v_pred_crossover {B} _ _ _.
Arguments v_cond_mutate {B} _ _.
Arguments v_act_mutate {B} _ _.
Arguments v_pred_mutate {B} _ _.
Arguments v_cond_size {B} _ _.
Arguments v_pred_size {B} _ _.

(** ** Parameters (xcsf.h: the upper-case fields of struct XCSF; ea.h: struct ArgsEA). *)
Record cfg := mkCfg {
  n_actions : Z; x_dim : Z; y_dim : Z;
  POP_SIZE : Z; THETA_DEL : Z; M_PROBATION : Z; THETA_SUB : Z; TELETRANSPORTATION : Z;
  ALPHA : f64; BETA : f64; DELTA : f64; E0 : f64; INIT_ERROR : f64; INIT_FITNESS : f64;
  NU : f64; GAMMA : f64; P_EXPLORE : f64;
  POP_INIT : bool; SET_SUBSUMPTION : bool; COMPACTION : bool;
  ea_tournament : bool;              (* select_type == EA_SELECT_TOURNAMENT *)
  ea_select_size : f64; ea_theta : f64; ea_lambda : Z;
  ea_subsumption : bool; ea_pred_reset : bool; ea_err_reduc : f64; ea_fit_reduc : f64;
  loss_ptr : list f64 -> list f64 -> f64;      (* loss.c; applied to prediction, target *)
  lm : libm;
  loop_fuel : nat;        (* fuel for the loops with no bound in the C code *)
  vla0_is_ub : bool       (* treat a zero-length variable length array as UB (C11 6.7.6.2p5) *)
}.

(** ** Rules (xcsf.h struct Cl). *)
Record cl (B : Type) := mkCl {
  c_err : f64; c_fit : f64; c_num : Z; c_exp : Z; c_size : f64; c_time : Z;
  c_m : bool; c_prediction : list f64; c_action : Z; c_age : Z; c_mtotal : Z;
  c_body : B
}.
Arguments mkCl {B} _ _ _ _ _ _ _ _ _ _ _ _.
Arguments c_err {B} _.
Arguments c_fit {B} _.
Arguments c_num {B} _.
Arguments c_exp {B} _.
Arguments c_size {B} _.
Arguments c_time {B} _.
Arguments c_m {B} _.
Arguments c_prediction {B} _.
Arguments c_action {B} _.
Arguments c_age {B} _.
Arguments c_mtotal {B} _.
Arguments c_body {B} _.

Section Setters.
Context {B : Type}.
Definition set_err v (c : cl B) := mkCl v (c_fit c) (c_num c) (c_exp c) (c_size c) (c_time c) (c_m c) (c_prediction c) (c_action c) (c_age c) (c_mtotal c) (c_body c).
Definition set_fit v (c : cl B) := mkCl (c_err c) v (c_num c) (c_exp c) (c_size c) (c_time c) (c_m c) (c_prediction c) (c_action c) (c_age c) (c_mtotal c) (c_body c).
Definition set_num v (c : cl B) := mkCl (c_err c) (c_fit c) v (c_exp c) (c_size c) (c_time c) (c_m c) (c_prediction c) (c_action c) (c_age c) (c_mtotal c) (c_body c).
Definition set_exp v (c : cl B) := mkCl (c_err c) (c_fit c) (c_num c) v (c_size c) (c_time c) (c_m c) (c_prediction c) (c_action c) (c_age c) (c_mtotal c) (c_body c).
Definition set_size v (c : cl B) := mkCl (c_err c) (c_fit c) (c_num c) (c_exp c) v (c_time c) (c_m c) (c_prediction c) (c_action c) (c_age c) (c_mtotal c) (c_body c).
Definition set_time v (c : cl B) := mkCl (c_err c) (c_fit c) (c_num c) (c_exp c) (c_size c) v (c_m c) (c_prediction c) (c_action c) (c_age c) (c_mtotal c) (c_body c).
Definition set_m v (c : cl B) := mkCl (c_err c) (c_fit c) (c_num c) (c_exp c) (c_size c) (c_time c) v (c_prediction c) (c_action c) (c_age c) (c_mtotal c) (c_body c).
Definition set_prediction v (c : cl B) := mkCl (c_err c) (c_fit c) (c_num c) (c_exp c) (c_size c) (c_time c) (c_m c) v (c_action c) (c_age c) (c_mtotal c) (c_body c).
Definition set_action v (c : cl B) := mkCl (c_err c) (c_fit c) (c_num c) (c_exp c) (c_size c) (c_time c) (c_m c) (c_prediction c) v (c_age c) (c_mtotal c) (c_body c).
Definition set_age v (c : cl B) := mkCl (c_err c) (c_fit c) (c_num c) (c_exp c) (c_size c) (c_time c) (c_m c) (c_prediction c) (c_action c) v (c_mtotal c) (c_body c).
Definition set_mtotal v (c : cl B) := mkCl (c_err c) (c_fit c) (c_num c) (c_exp c) (c_size c) (c_time c) (c_m c) (c_prediction c) (c_action c) (c_age c) v (c_body c).
Definition set_body (v : B) (c : cl B) := mkCl (c_err c) (c_fit c) (c_num c) (c_exp c) (c_size c) (c_time c) (c_m c) (c_prediction c) (c_action c) (c_age c) (c_mtotal c) v.
End Setters.

(** ** Sets (xcsf.h struct Set) and the system state (xcsf.h struct XCSF). *)
Definition loc := nat.
Record cset := mkSet { set_list : list loc; set_sz : Z; set_nm : Z }.

Inductive sel := PSET | PREV_PSET | MSET | ASET | KSET | PREV_ASET.

Record st (B : Type) := mkSt {
  s_heap : loc -> option (cl B);
  s_next : loc;                         (* locations >= s_next were never allocated *)
  s_pset : cset; s_prev_pset : cset; s_mset : cset; s_aset : cset; s_kset : cset;
  s_prev_aset : cset;
  s_time : Z;
  s_error : f64; s_mset_size : f64; s_aset_size : f64; s_mfrac : f64;
  s_prev_reward : f64; s_prev_pred : f64;
  s_pa : list f64; s_nr : list f64; s_prev_state : list f64;
  s_explore : bool;
  s_rng : rng
}.
Arguments mkSt {B} _ _ _ _ _ _ _ _ _ _ _ _ _ _ _ _ _ _ _ _.
Arguments s_heap {B} _ _.
Arguments s_next {B} _.
Arguments s_pset {B} _.
Arguments s_prev_pset {B} _.
Arguments s_mset {B} _.
Arguments s_aset {B} _.
Arguments s_kset {B} _.
Arguments s_prev_aset {B} _.
Arguments s_time {B} _.
Arguments s_error {B} _.
Arguments s_mset_size {B} _.
Arguments s_aset_size {B} _.
Arguments s_mfrac {B} _.
Arguments s_prev_reward {B} _.
Arguments s_prev_pred {B} _.
Arguments s_pa {B} _.
Arguments s_nr {B} _.
Arguments s_prev_state {B} _.
Arguments s_explore {B} _.
Arguments s_rng {B} _.

Section StSetters.
Context {B : Type}.
Definition with_heap (h : loc -> option (cl B)) (n : loc) (s : st B) := mkSt h n (s_pset s) (s_prev_pset s) (s_mset s) (s_aset s) (s_kset s) (s_prev_aset s) (s_time s) (s_error s) (s_mset_size s) (s_aset_size s) (s_mfrac s) (s_prev_reward s) (s_prev_pred s) (s_pa s) (s_nr s) (s_prev_state s) (s_explore s) (s_rng s).
Definition with_rng r (s : st B) := mkSt (s_heap s) (s_next s) (s_pset s) (s_prev_pset s) (s_mset s) (s_aset s) (s_kset s) (s_prev_aset s) (s_time s) (s_error s) (s_mset_size s) (s_aset_size s) (s_mfrac s) (s_prev_reward s) (s_prev_pred s) (s_pa s) (s_nr s) (s_prev_state s) (s_explore s) r.
Definition with_stats e ms as_ mf (s : st B) := mkSt (s_heap s) (s_next s) (s_pset s) (s_prev_pset s) (s_mset s) (s_aset s) (s_kset s) (s_prev_aset s) (s_time s) e ms as_ mf (s_prev_reward s) (s_prev_pred s) (s_pa s) (s_nr s) (s_prev_state s) (s_explore s) (s_rng s).
Definition with_time t (s : st B) := mkSt (s_heap s) (s_next s) (s_pset s) (s_prev_pset s) (s_mset s) (s_aset s) (s_kset s) (s_prev_aset s) t (s_error s) (s_mset_size s) (s_aset_size s) (s_mfrac s) (s_prev_reward s) (s_prev_pred s) (s_pa s) (s_nr s) (s_prev_state s) (s_explore s) (s_rng s).
Definition with_pa p n (s : st B) := mkSt (s_heap s) (s_next s) (s_pset s) (s_prev_pset s) (s_mset s) (s_aset s) (s_kset s) (s_prev_aset s) (s_time s) (s_error s) (s_mset_size s) (s_aset_size s) (s_mfrac s) (s_prev_reward s) (s_prev_pred s) p n (s_prev_state s) (s_explore s) (s_rng s).
Definition with_prev r p ps (s : st B) := mkSt (s_heap s) (s_next s) (s_pset s) (s_prev_pset s) (s_mset s) (s_aset s) (s_kset s) (s_prev_aset s) (s_time s) (s_error s) (s_mset_size s) (s_aset_size s) (s_mfrac s) r p (s_pa s) (s_nr s) ps (s_explore s) (s_rng s).
Definition with_explore b (s : st B) := mkSt (s_heap s) (s_next s) (s_pset s) (s_prev_pset s) (s_mset s) (s_aset s) (s_kset s) (s_prev_aset s) (s_time s) (s_error s) (s_mset_size s) (s_aset_size s) (s_mfrac s) (s_prev_reward s) (s_prev_pred s) (s_pa s) (s_nr s) (s_prev_state s) b (s_rng s).
Definition with_set (w : sel) (x : cset) (s : st B) : st B :=
  let p := match w with PSET => x | _ => s_pset s end in
  let pp := match w with PREV_PSET => x | _ => s_prev_pset s end in
  let m := match w with MSET => x | _ => s_mset s end in
  let a := match w with ASET => x | _ => s_aset s end in
  let k := match w with KSET => x | _ => s_kset s end in
  let pa_ := match w with PREV_ASET => x | _ => s_prev_aset s end in
  mkSt (s_heap s) (s_next s) p pp m a k pa_ (s_time s) (s_error s) (s_mset_size s) (s_aset_size s) (s_mfrac s) (s_prev_reward s) (s_prev_pred s) (s_pa s) (s_nr s) (s_prev_state s) (s_explore s) (s_rng s).
Definition get_set (w : sel) (s : st B) : cset :=
  match w with
  | PSET => s_pset s | PREV_PSET => s_prev_pset s | MSET => s_mset s
  | ASET => s_aset s | KSET => s_kset s | PREV_ASET => s_prev_aset s
  end.
End StSetters.

(** ** The state monad. *)
Definition M (B A : Type) : Type := st B -> outcome (A * st B).

Section Monad.
Context {B : Type}.
Definition mret {A} (a : A) : M B A := fun s => Ok (a, s).
Definition mbind {A C} (m : M B A) (k : A -> M B C) : M B C :=
  fun s => match m s with
           | Ok (a, s') => k a s'
           | Exit => Exit
           | UB w => UB w
           | OutOfFuel => OutOfFuel
           end.
Definition mexit {A} : M B A := fun _ => Exit.
Definition mub {A} (k : ub_kind) : M B A := fun _ => UB k.
Definition mfuel {A} : M B A := fun _ => OutOfFuel.
Definition mget {A} (f : st B -> A) : M B A := fun s => Ok (f s, s).
Definition mmod (f : st B -> st B) : M B unit := fun s => Ok (tt, f s).
(** Run a computation that only draws random numbers. *)
Definition mrand {A} (r : RM A) : M B A := fun s =>
  match r (s_rng s) with
  | Ok (a, g) => Ok (a, with_rng g s)
  | Exit => Exit
  | UB w => UB w
  | OutOfFuel => OutOfFuel
  end.
Definition mlift {A} (o : outcome A) : M B A := fun s =>
  match o with
  | Ok a => Ok (a, s)
  | Exit => Exit
  | UB w => UB w
  | OutOfFuel => OutOfFuel
  end.
Fixpoint miter {A} (f : A -> M B unit) (l : list A) : M B unit :=
  match l with
  | [] => mret tt
  | x :: r => mbind (f x) (fun _ => miter f r)
  end.
End Monad.

Declare Scope m_scope.
Delimit Scope m_scope with m.
Notation "x <~ m ;; k" := (mbind m (fun x => k))
  (at level 61, m at next level, right associativity) : m_scope.
Notation "m ;;; k" := (mbind m (fun _ => k))
  (at level 61, right associativity) : m_scope.
Open Scope m_scope.

Section Model.
Context {B : Type} (V : vtab B) (K : cfg).

(** ** Heap primitives: malloc, free, read and write through a pointer. *)
Definition upd {T} (h : loc -> T) (l : loc) (v : T) : loc -> T :=
  fun l' => if Nat.eqb l' l then v else h l'.

Definition get (l : loc) : M B (cl B) := fun s =>
  match s_heap s l with Some c => Ok (c, s) | None => UB UseAfterFree end.
Definition put (l : loc) (c : cl B) : M B unit := fun s =>
  match s_heap s l with
  | Some _ => Ok (tt, with_heap (upd (s_heap s) l (Some c)) (s_next s) s)
  | None => UB UseAfterFree
  end.
Definition modify (l : loc) (f : cl B -> cl B) : M B unit :=
  c <~ get l ;; put l (f c).
Definition alloc (c : cl B) : M B loc := fun s =>
  Ok (s_next s, with_heap (upd (s_heap s) (s_next s) (Some c)) (S (s_next s)) s).
(** cl.c:222-230 cl_free. *)
Definition cl_free (l : loc) : M B unit := fun s =>
  match s_heap s l with
  | Some _ => Ok (tt, with_heap (upd (s_heap s) l None) (s_next s) s)
  | None => UB DoubleFree
  end.
(** Read-only traversal of a list of rules. *)
Fixpoint get_all (ls : list loc) : M B (list (cl B)) :=
  match ls with
  | [] => mret []
  | l :: r => c <~ get l ;; cs <~ get_all r ;; mret (c :: cs)
  end.

(** ** cl.c *)

(** calloc(y_dim, sizeof(double)). *)
Definition zeros (n : Z) : list f64 := repeat f0 (Z.to_nat n).

(** cl.c:39-54 cl_init. *)
Definition cl_init (size : f64) (time : Z) : cl B :=
  mkCl (INIT_ERROR K) (INIT_FITNESS K) 1 0 size time false (zeros (y_dim K)) 0 0 0 (v_blank V).

(** cl.c:128-137 cl_rand (action_set, prediction_set, condition_set select the vtables). *)
Definition cl_rand (c : cl B) : RM (cl B) :=
  (b1 <- v_cond_init V (c_body c) ;;
   b2 <- v_pred_init V b1 ;;
   b3 <- v_act_init V b2 ;;
   ret (set_body b3 c))%rng.

(** cl.c:62-75 cl_copy. *)
Definition cl_copy (dest src : cl B) : RM (cl B) :=
  (b1 <- v_act_copy V (c_body dest) (c_body src) ;;
   b2 <- v_cond_copy V b1 (c_body src) ;;
   b3 <- (if ea_pred_reset K then v_pred_init V b2 else v_pred_copy V b2 (c_body src)) ;;
   ret (set_body b3 dest))%rng.

(** cl.c:83-103 cl_init_copy.  The prediction array of the copy is freshly calloc'ed. *)
Definition cl_init_copy (src : cl B) : RM (cl B) :=
  (b1 <- v_act_copy V (v_blank V) (c_body src) ;;
   b2 <- v_cond_copy V b1 (c_body src) ;;
   b3 <- v_pred_copy V b2 (c_body src) ;;
   ret (mkCl (c_err src) (c_fit src) (c_num src) (c_exp src) (c_size src) (c_time src)
             (c_m src) (zeros (y_dim K)) (c_action src) (c_age src) (c_mtotal src) b3))%rng.

(** cl.c:112-121 cl_cover. *)
Definition cl_cover (c : cl B) (x : list f64) (action : Z) : RM (cl B) :=
  (c1 <- cl_rand c ;;
   b1 <- v_cond_cover V (c_body c1) x ;;
   b2 <- v_act_cover V b1 x action ;;
   ret (set_action action (set_m true (set_body b2 c1))))%rng.

(** cl.c:146-153 cl_del_vote. *)
Definition cl_del_vote (c : cl B) (avg_fit : f64) : f64 :=
  let num := of_Z (c_num c) in
  if (THETA_DEL K <? c_exp c) && flt (c_fit c) (fmul (fmul (DELTA K) avg_fit) num)
  then fdiv (fmul (fmul (c_size c) num) avg_fit) (fdiv (c_fit c) num)
  else fmul (c_size c) num.

(** cl.c:161-169 cl_acc. *)
Definition cl_acc (c : cl B) : f64 :=
  if fgt (c_err c) (E0 K)
  then fmax (fmul (ALPHA K) (m_pow (lm K) (fdiv (c_err c) (E0 K)) (fneg (NU K)))) dbl_epsilon
  else f1.

(** cl.c:317-322 cl_predict. *)
Definition cl_predict (c : cl B) (x : list f64) : RM (cl B) :=
  ('(b, p) <- v_pred_compute V (c_body c) (c_prediction c) x ;;
   ret (set_prediction p (set_body b c)))%rng.

(** cl.c:186-197: the statistics part of cl_update (experience, error, set size). *)
Definition cl_update_stats (c : cl B) (error : f64) (set_num_ : Z) : cl B :=
  (* c->exp has already been incremented *)
  let e := of_Z (c_exp c) in
  let e1 := of_Z (c_exp c - 1) in
  let n := of_Z set_num_ in
  if flt (fmul e (BETA K)) f1
  then set_size (fdiv (fadd (fmul (c_size c) e1) n) e)
         (set_err (fdiv (fadd (fmul (c_err c) e1) error) e) c)
  else set_size (fadd (c_size c) (fmul (BETA K) (fsub n (c_size c))))
         (set_err (fadd (c_err c) (fmul (BETA K) (fsub error (c_err c)))) c).

(** cl.c:182-201 cl_update. *)
Definition cl_update (c : cl B) (x y : list f64) (set_num_ : Z) (cur : bool) : RM (cl B) :=
  let c0 := set_exp (c_exp c + 1) c in
  (c1 <- (if cur then ret c0 else cl_predict c0 x) ;;
   (let c2 := cl_update_stats c1 (loss_ptr K (c_prediction c1) y) set_num_ in
    b1 <- v_cond_update V (c_body c2) x y ;;
    '(b2, p) <- v_pred_update V b1 (c_exp c2) (c_prediction c2) x y ;;
    b3 <- v_act_update V b2 x y ;;
    ret (set_prediction p (set_body b3 c2))))%rng.

(** cl.c:210-215 cl_update_fit. *)
Definition cl_update_fit (c : cl B) (acc_sum acc : f64) : cl B :=
  set_fit (fadd (c_fit c)
             (fmul (BETA K)
                (fsub (fdiv (fmul acc (of_Z (c_num c))) acc_sum) (c_fit c)))) c.

(** cl.c:256-265 cl_match. *)
Definition cl_match (c : cl B) (x : list f64) : RM (cl B) :=
  ('(b, m) <- v_cond_match V (c_body c) x ;;
   ret (set_age (c_age c + 1)
          (set_mtotal (if m then c_mtotal c + 1 else c_mtotal c)
             (set_m m (set_body b c)))))%rng.

(** cl.c:273-281 cl_mfrac. *)
Definition cl_mfrac (c : cl B) : f64 :=
  if 0 <? c_age c then fdiv (of_Z (c_mtotal c)) (of_Z (c_age c)) else f0.

(** cl.c:303-308 cl_action. *)
Definition cl_action (c : cl B) (x : list f64) : RM (cl B) :=
  ('(b, a) <- v_act_compute V (c_body c) x ;;
   ret (set_action a (set_body b c)))%rng.

(** cl.c:330-337 cl_subsumer. *)
Definition cl_subsumer (c : cl B) : bool :=
  (THETA_SUB K <? c_exp c) && flt (c_err c) (E0 K).

(** cl.c:346-353 cl_general. *)
Definition cl_general (c1 c2 : cl B) : bool :=
  if v_cond_general V (c_body c1) (c_body c2)
  then v_act_general V (c_body c1) (c_body c2) else false.

(** cl.c:361-371 cl_mutate. *)
Definition cl_mutate (c : cl B) : RM (cl B * bool) :=
  ('(b1, cm) <- v_cond_mutate V (c_body c) ;;
   '(b2, pm) <- v_pred_mutate V b1 ;;
   '(b3, am) <- (if 1 <? n_actions K then v_act_mutate V b2 else ret (b2, false)) ;;
   ret (set_body b3 c, cm || pm || am))%rng.

(** cl.c:380-390 cl_crossover. *)
Definition cl_crossover (c1 c2 : cl B) : RM (cl B * cl B * bool) :=
  ('(b1, b2, cc) <- v_cond_crossover V (c_body c1) (c_body c2) ;;
   '(b3, b4, pc) <- v_pred_crossover V b1 b2 ;;
   '(b5, b6, ac) <- v_act_crossover V b3 b4 ;;
   ret (set_body b5 c1, set_body b6 c2, cc || pc || ac))%rng.

(** cl.c:398-414 cl_cond_size, cl_pred_size. *)
Definition cl_cond_size (c : cl B) : f64 := v_cond_size V (c_body c).
Definition cl_pred_size (c : cl B) : f64 := v_pred_size V (c_body c).

(** Apply a random rule transformer in place. *)
Definition modify_rand (l : loc) (f : cl B -> RM (cl B)) : M B unit :=
  c <~ get l ;; c' <~ mrand (f c) ;; put l c'.

(** ** clset.c *)

Definition empty_set : cset := mkSet [] 0 0.

(** clset.c:327-333 clset_init. *)
Definition clset_init (w : sel) : M B unit := mmod (with_set w empty_set).

(** clset.c:422-437 clset_add: the new element becomes the head; num is read from the rule. *)
Definition clset_add (w : sel) (l : loc) : M B unit :=
  c <~ get l ;;
  s <~ mget (get_set w) ;;
  mmod (with_set w (mkSet (l :: set_list s) (set_sz s + 1) (set_nm s + c_num c))).

(** clset.c:544-554 clset_total_fit. *)
Definition total_fit (cs : list (cl B)) : f64 :=
  fold_left (fun acc c => fadd acc (c_fit c)) cs f0.

(** clset.c:36-51 clset_pset_never_match: position of the first rule that has never
    matched and is past its probation. *)
Fixpoint never_match (cs : list (cl B)) (i : nat) : option nat :=
  match cs with
  | [] => None
  | c :: r => if (c_mtotal c =? 0) && (M_PROBATION K <? c_age c) then Some i
              else never_match r (S i)
  end.

(** The inner while loop shared by clset.c:82-87 and ea.c:140-145: walk while the spin
    exceeds the accumulated sum.  Reading past the last element dereferences NULL. *)
Fixpoint spin (p sum : f64) (rest : list f64) (i : nat) : outcome nat :=
  if fgt p sum then
    match rest with
    | [] => UB NullDeref
    | v :: r => spin p (fadd sum v) r (S i)
    end
  else Ok i.
Definition spin_list (p : f64) (vs : list f64) : outcome nat :=
  match vs with [] => UB NullDeref | v :: r => spin p v r 0 end.

Definition sum_list (vs : list f64) : f64 := fold_left fadd vs f0.

(** clset.c:64-97 clset_pset_roulette: one or (with COMPACTION and error < E0) two spins;
    the largest rule among the winners is selected. *)
Fixpoint roulette_spins (n : nat) (cs : list (cl B)) (votes : list f64) (total : f64)
  (best : option nat) (delsize : f64) : RM (option nat) :=
  match n with
  | O => ret best
  | S n' =>
      (p <- rand_uniform f0 total ;;
       i <- lift (spin_list p votes) ;;
       match nth_error cs i with
       | None => rub NullDeref
       | Some c =>
           let s := fadd (cl_cond_size c) (cl_pred_size c) in
           let take := match best with None => true | Some _ => fgt s delsize end in
           if take then roulette_spins n' cs votes total (Some i) s
           else roulette_spins n' cs votes total best delsize
       end)%rng
  end.

Definition pset_roulette (error : f64) (pnum : Z) (cs : list (cl B)) : RM (option nat) :=
  let avg_fit := fdiv (total_fit cs) (of_Z pnum) in
  let votes := map (fun c => cl_del_vote c avg_fit) cs in
  let n_spins := if COMPACTION K && flt error (E0 K) then 2%nat else 1%nat in
  roulette_spins n_spins cs votes (sum_list votes) None f0.

Fixpoint remove_nth {T} (i : nat) (l : list T) : list T :=
  match l, i with
  | [], _ => []
  | _ :: r, O => r
  | x :: r, S i' => x :: remove_nth i' r
  end.

(** clset.c:103-128 clset_pset_del. *)
Definition clset_pset_del : M B unit :=
  ps <~ mget s_pset ;;
  cs <~ get_all (set_list ps) ;;
  err <~ mget s_error ;;
  oi <~ match never_match cs 0 with
        | Some i => mret (Some i)
        | None => mrand (pset_roulette err (set_nm ps) cs)
        end ;;
  match oi with
  | None => mub NullDeref
  | Some i =>
      match nth_error (set_list ps) i with
      | None => mub NullDeref
      | Some l =>
          modify l (fun c => set_num (c_num c - 1) c) ;;;
          mmod (with_set PSET (mkSet (set_list ps) (set_sz ps) (set_nm ps - 1))) ;;;
          c <~ get l ;;
          if c_num c =? 0 then
            clset_add KSET l ;;;
            mmod (with_set PSET (mkSet (remove_nth i (set_list ps)) (set_sz ps - 1) (set_nm ps - 1)))
          else mret tt
      end
  end.

(** clset.c:339-345 clset_pset_enforce_limit: while (pset.num > POP_SIZE) delete.  The loop
    is unrolled with the fuel pset.num - POP_SIZE (each deletion lowers pset.num by one);
    running out of fuel with the loop condition still true is reported. *)
Fixpoint enforce_loop (fuel : nat) : M B unit :=
  ps <~ mget s_pset ;;
  if POP_SIZE K <? set_nm ps then
    match fuel with
    | O => mfuel
    | S f => clset_pset_del ;;; enforce_loop f
    end
  else mret tt.
Definition clset_pset_enforce_limit : M B unit :=
  ps <~ mget s_pset ;;
  enforce_loop (Z.to_nat (set_nm ps - POP_SIZE K)).

(** clset.c:479-504 clset_validate: drop rules whose numerosity is 0, recompute counters. *)
Fixpoint keep_alive (ls : list loc) : M B (list loc * Z * Z) :=
  match ls with
  | [] => mret ([], 0, 0)
  | l :: r =>
      c <~ get l ;;
      t <~ keep_alive r ;;
      let '(ls', sz, nm) := t in
      if c_num c =? 0 then mret (ls', sz, nm)
      else mret (l :: ls', sz + 1, nm + c_num c)
  end.
Definition clset_validate (w : sel) : M B unit :=
  s <~ mget (get_set w) ;;
  t <~ keep_alive (set_list s) ;;
  let '(ls, sz, nm) := t in
  mmod (with_set w (mkSet ls sz nm)).

(** clset.c:136-151 clset_action_coverage: memset, mark each action present in the match
    set, then report whether every action is marked.  An action outside [0,n_actions)
    writes out of bounds. *)
Fixpoint mark (act_covered : list bool) (a : nat) : list bool :=
  match act_covered, a with
  | [], _ => []
  | _ :: r, O => true :: r
  | b :: r, S a' => b :: mark r a'
  end.
Fixpoint mark_actions (cs : list (cl B)) (cov : list bool) : outcome (list bool) :=
  match cs with
  | [] => Ok cov
  | c :: r =>
      if (0 <=? c_action c) && (c_action c <? n_actions K)
      then mark_actions r (mark cov (Z.to_nat (c_action c)))
      else UB OutOfBounds
  end.
Definition action_coverage : M B (list bool * bool) :=
  ms <~ mget s_mset ;;
  cs <~ get_all (set_list ms) ;;
  cov <~ mlift (mark_actions cs (repeat false (Z.to_nat (n_actions K)))) ;;
  mret (cov, forallb (fun b => b) cov).

(** clset.c:166-175: create a rule for every uncovered action. *)
Fixpoint cover_actions (x : list f64) (cov : list bool) (i : Z) : M B unit :=
  match cov with
  | [] => mret tt
  | b :: r =>
      (if b then mret tt else
         ms <~ mget s_mset ;;
         t <~ mget s_time ;;
         c <~ mrand (cl_cover (cl_init (of_Z (set_nm ms + 1)) t) x i) ;;
         l <~ alloc c ;;
         clset_add PSET l ;;;
         clset_add MSET l) ;;;
      cover_actions x r (i + 1)
  end.

Definition MAX_COVER : Z := 1000000.   (* clset.c:28 *)

(** clset.c:164-195: the covering loop.  [attempts] is the C counter. *)
Fixpoint cover_loop (fuel : nat) (x : list f64) (attempts : Z) (cov : list bool)
  (covered : bool) : M B unit :=
  if covered then mret tt else
  match fuel with
  | O => mfuel
  | S f =>
      cover_actions x cov 0 ;;;
      ps <~ mget s_pset ;;
      clset_pset_enforce_limit ;;;
      ps' <~ mget s_pset ;;
      r <~ (if set_sz ps' <? set_sz ps then
              ms <~ mget s_mset ;;
              clset_validate MSET ;;;
              ms' <~ mget s_mset ;;
              if set_sz ms' <? set_sz ms then action_coverage
              else mret (cov, true)
            else mret (cov, true)) ;;
      let '(cov', covered') := r in
      if MAX_COVER <? attempts + 1 then mexit
      else cover_loop f x (attempts + 1) cov' covered'
  end.

(** clset.c:158-197 clset_cover. *)
Definition clset_cover (x : list f64) : M B unit :=
  r <~ action_coverage ;;
  let '(cov, covered) := r in
  cover_loop (Z.to_nat (MAX_COVER + 1)) x 0 cov covered.

(** clset.c:712-742 clset_mfrac. *)
Definition mfrac_below (cs : list (cl B)) : f64 :=
  fold_left (fun mf c =>
    if flt (c_err c) (E0 K) && fgt (fmul (of_Z (c_exp c)) (BETA K)) f1
    then (let m := cl_mfrac c in if fgt m mf then m else mf) else mf) cs f0.
Definition mfrac_lowest (cs : list (cl B)) (mf0 : f64) : f64 :=
  fst (fold_left (fun acc c =>
    let '(mf, e0) := acc in
    if flt (c_err c) e0 && fgt (fmul (of_Z (c_exp c)) (BETA K)) f1
    then (cl_mfrac c, c_err c) else (mf, e0)) cs (mf0, dbl_max)).
Definition clset_mfrac (cs : list (cl B)) : f64 :=
  let m := mfrac_below cs in
  if feq m f0 then mfrac_lowest cs m else m.

(** clset.c:381-387: the serial matching loop. *)
Definition match_one (x : list f64) (l : loc) : M B unit :=
  modify_rand l (fun c => cl_match c x) ;;;
  c <~ get l ;;
  if c_m c then clset_add MSET l ;;; modify_rand l (fun c' => cl_action c' x)
  else mret tt.

(** clset.c:355-396 clset_match. *)
Definition clset_match (x : list f64) (cover : bool) : M B unit :=
  ps <~ mget s_pset ;;
  miter (match_one x) (set_list ps) ;;;
  ms <~ mget s_mset ;;
  (if cover && ((1 <? n_actions K) || (set_sz ms <? 1)) then clset_cover x else mret tt) ;;;
  ms' <~ mget s_mset ;;
  ps' <~ mget s_pset ;;
  cs <~ get_all (set_list ps') ;;
  mmod (fun s =>
    with_stats (s_error s)
      (fadd (s_mset_size s) (fmul (fsub (of_Z (set_sz ms')) (s_mset_size s)) (BETA K)))
      (s_aset_size s)
      (fadd (s_mfrac s) (fmul (fsub (clset_mfrac cs) (s_mfrac s)) (BETA K))) s).

(** clset.c:403-415 clset_action. *)
Definition clset_action (action : Z) : M B unit :=
  ms <~ mget s_mset ;;
  miter (fun l => c <~ get l ;; if c_action c =? action then clset_add ASET l else mret tt)
        (set_list ms) ;;;
  mmod (fun s =>
    with_stats (s_error s) (s_mset_size s)
      (fadd (s_aset_size s) (fmul (fsub (of_Z (set_sz (s_aset s))) (s_aset_size s)) (BETA K)))
      (s_mfrac s) s).

(** clset.c:204-222 clset_update_fit.  The two loops stop at set->size elements. *)
Definition acc_sum (cs : list (cl B)) : f64 :=
  fold_left (fun s c => fadd s (fmul (cl_acc c) (of_Z (c_num c)))) cs f0.
Fixpoint update_fits (lcs : list (loc * cl B)) (sum : f64) : M B unit :=
  match lcs with
  | [] => mret tt
  | (l, c) :: r =>
      (* accs[i] was computed in the first loop from the rule as it was then *)
      modify l (fun c' => cl_update_fit c' sum (cl_acc c)) ;;; update_fits r sum
  end.
Definition clset_update_fit (w : sel) : M B unit :=
  s <~ mget (get_set w) ;;
  if vla0_is_ub K && (set_sz s <? 1) then mub OutOfBounds else
  let ls := firstn (Z.to_nat (set_sz s)) (set_list s) in
  cs <~ get_all ls ;;
  update_fits (combine ls cs) (acc_sum cs).

(** clset.c:232-241: the most general subsumer of the set. *)
Fixpoint find_subsumer (lcs : list (loc * cl B)) (best : option (loc * cl B))
  : option (loc * cl B) :=
  match lcs with
  | [] => best
  | (l, c) :: r =>
      if cl_subsumer c && match best with None => true | Some (_, s) => cl_general c s end
      then find_subsumer r (Some (l, c)) else find_subsumer r best
  end.
(** clset.c:246-255: move every other rule generalised by the subsumer to the kill set. *)
Fixpoint subsume_all (s : loc) (ls : list loc) : M B bool :=
  match ls with
  | [] => mret false
  | l :: r =>
      d <~ (if Nat.eqb s l then mret false else
              sc <~ get s ;; c <~ get l ;;
              if cl_general sc c then
                put s (set_num (c_num sc + c_num c) sc) ;;;
                modify l (set_num 0) ;;;
                clset_add KSET l ;;;
                mret true
              else mret false) ;;
      d' <~ subsume_all s r ;;
      mret (d || d')
  end.
(** clset.c:229-261 clset_subsumption. *)
Definition clset_subsumption (w : sel) : M B unit :=
  set <~ mget (get_set w) ;;
  cs <~ get_all (set_list set) ;;
  match find_subsumer (combine (set_list set) cs) None with
  | None => mret tt
  | Some (s, _) =>
      d <~ subsume_all s (set_list set) ;;
      if d : bool then clset_validate w ;;; clset_validate PSET else mret tt
  end.

(** clset.c:447-473 clset_update. *)
Definition clset_update (w : sel) (x y : list f64) (cur : bool) : M B unit :=
  set <~ mget (get_set w) ;;
  miter (fun l => modify_rand l (fun c => cl_update c x y (set_nm set) cur)) (set_list set) ;;;
  clset_update_fit w ;;;
  if SET_SUBSUMPTION K then clset_subsumption w else mret tt.

(** clset.c:529-537 clset_set_times. *)
Definition clset_set_times (w : sel) : M B unit :=
  set <~ mget (get_set w) ;;
  t <~ mget s_time ;;
  miter (fun l => modify l (set_time t)) (set_list set).

(** clset.c:268-278 clset_total_time: int product converted to double, summed. *)
Definition total_time (cs : list (cl B)) : f64 :=
  fold_left (fun s c => fadd s (of_Z (c_time c * c_num c))) cs f0.

(** clset.c:561-565 clset_mean_time. *)
Definition mean_time (cs : list (cl B)) (num : Z) : f64 := fdiv (total_time cs) (of_Z num).

(** clset.c:571-582 clset_free: frees list nodes only. *)
Definition clset_free (w : sel) : M B unit := mmod (with_set w empty_set).

(** clset.c:589-601 clset_kill: frees the rules too. *)
Definition clset_kill (w : sel) : M B unit :=
  set <~ mget (get_set w) ;;
  miter cl_free (set_list set) ;;;
  mmod (with_set w empty_set).

(** clset.c:313-320: the POP_INIT loop of clset_pset_init. *)
Fixpoint pset_init_loop (fuel : nat) : M B unit :=
  ps <~ mget s_pset ;;
  if set_nm ps <? POP_SIZE K then
    match fuel with
    | O => mfuel
    | S f =>
        c <~ mrand (cl_rand (cl_init (of_Z (POP_SIZE K)) 0)) ;;
        l <~ alloc c ;;
        clset_add PSET l ;;;
        pset_init_loop f
    end
  else mret tt.
(** clset.c:307-321 clset_pset_init without a population file. *)
Definition clset_pset_init : M B unit :=
  if POP_INIT K then
    ps <~ mget s_pset ;; pset_init_loop (Z.to_nat (POP_SIZE K - set_nm ps))
  else mret tt.

(** ** ea.c *)

(** ea.c:38-56 ea_init_offspring (returns the two offspring). *)
Definition ea_init_offspring (c1p c2p c1 c2 : cl B) (cmod : bool) : cl B * cl B :=
  if cmod then
    let e := fmul (ea_err_reduc K) (fmul (fadd (c_err c1p) (c_err c2p)) fhalf) in
    let f1_ := fdiv (c_fit c1p) (of_Z (c_num c1p)) in
    let f2_ := fdiv (c_fit c2p) (of_Z (c_num c2p)) in
    let f := fmul (ea_fit_reduc K) (fmul (fadd f1_ f2_) fhalf) in
    (set_fit f (set_err e c1), set_fit f (set_err e c2))
  else
    (set_fit (fmul (ea_fit_reduc K) (fdiv (c_fit c1p) (of_Z (c_num c1p))))
       (set_err (fmul (ea_err_reduc K) (c_err c1p)) c1),
     set_fit (fmul (ea_fit_reduc K) (fdiv (c_fit c2p) (of_Z (c_num c2p))))
       (set_err (fmul (ea_err_reduc K) (c_err c2p)) c2)).

(** ++(p->num); ++(xcsf->pset.num); cl_free(c)  (ea.c:72-74, 76-78, 91-93, 117-119). *)
Definition absorb (p c : loc) : M B unit :=
  modify p (fun r => set_num (c_num r + 1) r) ;;;
  mmod (fun s => with_set PSET (mkSet (set_list (s_pset s)) (set_sz (s_pset s)) (set_nm (s_pset s) + 1)) s) ;;;
  cl_free c.

(** ea.c:66-100 ea_subsume. *)
Definition ea_subsume (c c1p c2p : loc) (w : sel) : M B unit :=
  cc <~ get c ;; p1 <~ get c1p ;; p2 <~ get c2p ;;
  if cl_subsumer p1 && cl_general p1 cc then absorb c1p c
  else if cl_subsumer p2 && cl_general p2 cc then absorb c2p c
  else
    set <~ mget (get_set w) ;;
    cs <~ get_all (set_list set) ;;
    let candidates :=
      filter (fun lc => cl_subsumer (snd lc) && cl_general (snd lc) cc)
             (combine (set_list set) cs) in
    let choices := Z.of_nat (length candidates) in
    (* struct Clist *candidates[set->size]: an extra candidate would overflow it *)
    if set_sz set <? choices then mub OutOfBounds else
    if 0 <? choices then
      i <~ mrand (rand_uniform_int 0 choices) ;;
      match nth_error candidates (Z.to_nat i) with
      | Some (l, _) => if i <? 0 then mub OutOfBounds else absorb l c
      | None => mub OutOfBounds
      end
    else clset_add PSET c.

(** ea.c:112-125 ea_add. *)
Definition ea_add (w : sel) (c1p c2p c1 : loc) (cmod mmod_ : bool) : M B unit :=
  if negb cmod && negb mmod_ then absorb c1p c1
  else if ea_subsumption K then ea_subsume c1 c1p c2p w
  else clset_add PSET c1.

(** ea.c:134-147 ea_select_rw. *)
Definition ea_select_rw (ls : list loc) (cs : list (cl B)) (fit_sum : f64) : RM loc :=
  (p <- rand_uniform f0 fit_sum ;;
   i <- lift (spin_list p (map c_fit cs)) ;;
   match nth_error ls i with Some l => ret l | None => rub NullDeref end)%rng.

(** ea.c:155-170 ea_select_tournament: passes over the set until somebody enters. *)
Fixpoint tournament_pass (lcs : list (loc * cl B)) (winner : option (loc * cl B))
  : RM (option (loc * cl B)) :=
  match lcs with
  | [] => ret winner
  | (l, c) :: r =>
      (u <- rand_uniform f0 f1 ;;
       let better := match winner with None => true | Some (_, wc) => fgt (c_fit c) (c_fit wc) end in
       tournament_pass r (if flt u (ea_select_size K) && better then Some (l, c) else winner))%rng
  end.
Fixpoint ea_select_tournament (fuel : nat) (lcs : list (loc * cl B)) : RM loc :=
  match fuel with
  | O => rfuel
  | S f =>
      (w <- tournament_pass lcs None ;;
       match w with
       | Some (l, _) => ret l
       | None => ea_select_tournament f lcs
       end)%rng
  end.

(** ea.c:179-191 ea_select. *)
Definition ea_select (ls : list loc) (cs : list (cl B)) : RM (loc * loc) :=
  (if ea_tournament K then
     a <- ea_select_tournament (loop_fuel K) (combine ls cs) ;;
     b <- ea_select_tournament (loop_fuel K) (combine ls cs) ;;
     ret (a, b)
   else
     let fit_sum := total_fit cs in
     a <- ea_select_rw ls cs fit_sum ;;
     b <- ea_select_rw ls cs fit_sum ;;
     ret (a, b))%rng.

(** ea.c:212-227: one iteration of the offspring loop. *)
Definition ea_offspring (w : sel) (c1p c2p : loc) : M B unit :=
  p1 <~ get c1p ;; p2 <~ get c2p ;;
  o <~ mrand (
    (d1 <- cl_copy (cl_init (c_size p1) (c_time p1)) p1 ;;
     d2 <- cl_copy (cl_init (c_size p2) (c_time p2)) p2 ;;
     '(d3, d4, cmod) <- cl_crossover d1 d2 ;;
     '(d5, m1mod) <- cl_mutate d3 ;;
     '(d6, m2mod) <- cl_mutate d4 ;;
     (let '(d7, d8) := ea_init_offspring p1 p2 d5 d6 cmod in
      ret (d7, d8, cmod, m1mod, m2mod)))%rng) ;;
  let '(d7, d8, cmod, m1mod, m2mod) := o in
  l1 <~ alloc d7 ;;
  l2 <~ alloc d8 ;;
  ea_add w c1p c2p l1 cmod m1mod ;;;
  ea_add w c2p c1p l2 cmod m2mod.

(** ea.c:211: for (i = 0; i * 2 < lambda; ++i): ceil(lambda / 2) iterations. *)
Fixpoint ea_loop (n : nat) (w : sel) (c1p c2p : loc) : M B unit :=
  match n with
  | O => mret tt
  | S n' => ea_offspring w c1p c2p ;;; ea_loop n' w c1p c2p
  end.
Definition ea_iterations : nat := Z.to_nat ((ea_lambda K + 1) / 2).

(** ea.c:198-230 ea. *)
Definition ea (w : sel) : M B unit :=
  mmod (fun s => with_time (s_time s + 1) s) ;;;
  set <~ mget (get_set w) ;;
  t <~ mget s_time ;;
  if set_sz set =? 0 then mret tt else
  cs <~ get_all (set_list set) ;;
  if flt (fsub (of_Z t) (mean_time cs (set_nm set))) (ea_theta K) then mret tt else
  clset_set_times w ;;;
  cs' <~ get_all (set_list set) ;;
  ps <~ mrand (ea_select (set_list set) cs') ;;
  let '(c1p, c2p) := ps in
  ea_loop ea_iterations w c1p c2p ;;;
  clset_pset_enforce_limit.

(** ** pa.c *)

Definition pa_size : Z := n_actions K * y_dim K.

(** Addition into an array cell; out of range is UB. *)
Fixpoint add_at (a : list f64) (i : nat) (v : f64) : option (list f64) :=
  match a, i with
  | [], _ => None
  | x :: r, O => Some (fadd x v :: r)
  | x :: r, S i' => match add_at r i' v with Some r' => Some (x :: r') | None => None end
  end.
Definition add_atZ (a : list f64) (i : Z) (v : f64) : outcome (list f64) :=
  if i <? 0 then UB OutOfBounds
  else match add_at a (Z.to_nat i) v with Some a' => Ok a' | None => UB OutOfBounds end.

(** pa.c:98-101: accumulate one rule's outputs. *)
Fixpoint pa_add (fit : f64) (preds : list f64) (k : Z) (pa nr : list f64)
  : outcome (list f64 * list f64) :=
  match preds with
  | [] => Ok (pa, nr)
  | p :: r =>
      obind (add_atZ pa k (fmul p fit)) (fun pa' =>
      obind (add_atZ nr k fit) (fun nr' => pa_add fit r (k + 1) pa' nr'))
  end.
(** pa.c:94-103.  pred[j] for j < y_dim: a shorter prediction array would be over-read. *)
Fixpoint pa_accum (cs : list (cl B)) (pa nr : list f64) : outcome (list f64 * list f64) :=
  match cs with
  | [] => Ok (pa, nr)
  | c :: r =>
      if Z.of_nat (length (c_prediction c)) <? y_dim K then UB OutOfBounds else
      obind (pa_add (c_fit c) (firstn (Z.to_nat (y_dim K)) (c_prediction c))
                    (c_action c * y_dim K) pa nr)
            (fun '(pa', nr') => pa_accum r pa' nr')
  end.
(** pa.c:104-113. *)
Fixpoint pa_norm (pa nr : list f64) : list f64 :=
  match pa, nr with
  | p :: pr, n :: nr' => (if fne n f0 then fdiv p n else f0) :: pa_norm pr nr'
  | _, _ => []
  end.
(** pa.c:61-114 pa_build. *)
Definition pa_build (x : list f64) : M B unit :=
  ms <~ mget s_mset ;;
  miter (fun l => modify_rand l (fun c => cl_predict c x)) (set_list ms) ;;;
  cs <~ get_all (set_list ms) ;;
  r <~ mlift (pa_accum cs (zeros pa_size) (zeros pa_size)) ;;
  let '(pa, nr) := r in
  mmod (with_pa (pa_norm pa nr) nr).

(** pa.c:128-138: indices of the maximal entries among the first n_actions. *)
Fixpoint best_scan (vals : list f64) (i : Z) (max : f64) (max_i : list Z) : list Z :=
  match vals with
  | [] => max_i
  | v :: r =>
      if fgt v max then best_scan r (i + 1) v [i]
      else if feq v max then best_scan r (i + 1) max (max_i ++ [i])
      else best_scan r (i + 1) max max_i
  end.
(** pa.c:122-142 pa_best_action. *)
Definition pa_best_action (pa : list f64) : RM Z :=
  match firstn (Z.to_nat (n_actions K)) pa with
  | [] => rub OutOfBounds
  | v :: r =>
      if Z.of_nat (length pa) <? n_actions K then rub OutOfBounds else
      let max_i := best_scan r 1 v [0] in
      (i <- rand_uniform_int 0 (Z.of_nat (length max_i)) ;;
       match nth_error max_i (Z.to_nat i) with
       | Some a => if i <? 0 then rub OutOfBounds else ret a
       | None => rub OutOfBounds
       end)%rng
  end.
(** pa.c:149-157 pa_rand_action: redraw until nr[action] != 0. *)
Fixpoint pa_rand_action (fuel : nat) (nr : list f64) : RM Z :=
  match fuel with
  | O => rfuel
  | S f =>
      (a <- rand_uniform_int 0 (n_actions K) ;;
       if a <? 0 then rub OutOfBounds else
       match nth_error nr (Z.to_nat a) with
       | None => rub OutOfBounds
       | Some v => if feq v f0 then pa_rand_action f nr else ret a
       end)%rng
  end.
(** utils.h argmax and pa.c:164-169 pa_best_val. *)
Fixpoint argmax_scan (xs : list f64) (i : nat) (max_i : nat) (max : f64) : nat * f64 :=
  match xs with
  | [] => (max_i, max)
  | v :: r => if fgt v max then argmax_scan r (S i) i v else argmax_scan r (S i) max_i max
  end.
Definition pa_best_val (pa : list f64) : outcome f64 :=
  match pa with [] => Exit | v :: r => Ok (snd (argmax_scan r 1 0 v)) end.
(** pa.c:177-185 pa_val. *)
Definition pa_val (pa : list f64) (action : Z) : outcome f64 :=
  if (action <? 0) || (n_actions K <=? action) then Exit
  else match nth_error pa (Z.to_nat action) with
       | Some v => Ok v
       | None => UB OutOfBounds
       end.

(** ** xcs_supervised.c *)

Definition update_error (e : f64) : M B unit :=
  mmod (fun s => with_stats (fadd (s_error s) (fmul (fsub e (s_error s)) (BETA K)))
                   (s_mset_size s) (s_aset_size s) (s_mfrac s) s).

(** xcs_supervised.c:58-85 xcs_supervised_trial. *)
Definition supervised_trial (x y : list f64) (cover : option (list f64)) : M B unit :=
  clset_init MSET ;;;
  clset_init KSET ;;;
  match cover with
  | Some cv =>
      clset_match x false ;;;
      ms <~ mget s_mset ;;
      if set_sz ms <? 1 then
        (* memcpy(xcsf->pa, cover, pa_size) *)
        if Z.of_nat (length cv) <? pa_size then mub OutOfBounds
        else mmod (fun s => with_pa (firstn (Z.to_nat pa_size) cv) (s_nr s) s)
      else pa_build x
  | None =>
      clset_match x true ;;;
      pa_build x
  end ;;;
  ex <~ mget s_explore ;;
  (if ex : bool then clset_update MSET x y true ;;; ea MSET else mret tt) ;;;
  clset_kill KSET ;;;
  clset_free MSET.

Definition set_explore (b : bool) : M B unit := mmod (with_explore b).

(** struct Input (xcsf.h): rows of features and targets. *)
Record input := mkInput { in_x : list (list f64); in_y : list (list f64) }.
Definition n_samples (d : input) : Z := Z.of_nat (length (in_x d)).

(** xcs_supervised.c:40-48 xcs_supervised_sample.  cnt % n_samples with n_samples = 0 is a
    division by zero. *)
Definition supervised_sample (n cnt : Z) (shuffle : bool) : RM Z :=
  if shuffle then rand_uniform_int 0 n
  else if n =? 0 then rub OutOfBounds else ret (Z.rem cnt n).

Definition row {T} (l : list T) (i : Z) : outcome T :=
  if i <? 0 then UB OutOfBounds
  else match nth_error l (Z.to_nat i) with Some v => Ok v | None => UB OutOfBounds end.

(** xcs_supervised.c:106-127: one iteration of the fitting loop without test data. *)
Definition supervised_fit_step (d : input) (shuffle : bool) (cnt : Z) : M B f64 :=
  i <~ mrand (supervised_sample (n_samples d) cnt shuffle) ;;
  x <~ mlift (row (in_x d) i) ;;
  y <~ mlift (row (in_y d) i) ;;
  set_explore true ;;;
  supervised_trial x y None ;;;
  pa <~ mget s_pa ;;
  let e := loss_ptr K pa y in
  update_error e ;;;
  mret e.

(** xcs_supervised.c:118-125: the test sample of an iteration (exploit trial). *)
Definition supervised_test_step (d : input) (shuffle : bool) (cnt : Z) : M B unit :=
  i <~ mrand (supervised_sample (n_samples d) cnt shuffle) ;;
  x <~ mlift (row (in_x d) i) ;;
  y <~ mlift (row (in_y d) i) ;;
  set_explore false ;;;
  supervised_trial x y None.

(** xcs_supervised.c:98-129 xcs_supervised_fit: returns err / trials. *)
Fixpoint supervised_fit_loop (n : nat) (d : input) (test : option input) (shuffle : bool)
  (cnt : Z) (err : f64) : M B f64 :=
  match n with
  | O => mret err
  | S n' =>
      e <~ supervised_fit_step d shuffle cnt ;;
      match test with
      | Some t => supervised_test_step t shuffle cnt
      | None => mret tt
      end ;;;
      supervised_fit_loop n' d test shuffle (cnt + 1) (fadd err e)
  end.
Definition supervised_fit (d : input) (test : option input) (shuffle : bool) (start trials : Z)
  : M B f64 :=
  err <~ supervised_fit_loop (Z.to_nat trials) d test shuffle start f0 ;;
  mret (fdiv err (of_Z trials)).

(** xcs_supervised.c:140-150 xcs_supervised_predict. *)
Fixpoint predict_rows (xs : list (list f64)) (cover : option (list f64)) : M B (list (list f64)) :=
  match xs with
  | [] => mret []
  | x :: r =>
      supervised_trial x [] cover ;;;
      pa <~ mget s_pa ;;
      ps <~ predict_rows r cover ;;
      mret (pa :: ps)
  end.
Definition supervised_predict (xs : list (list f64)) (cover : option (list f64))
  : M B (list (list f64)) :=
  set_explore false ;;; predict_rows xs cover.

(** xcs_supervised.c:160-173 xcs_supervised_score. *)
Fixpoint score_rows (rows : list (list f64 * list f64)) (cover : option (list f64)) (err : f64)
  : M B f64 :=
  match rows with
  | [] => mret err
  | (x, y) :: r =>
      supervised_trial x y cover ;;;
      pa <~ mget s_pa ;;
      score_rows r cover (fadd err (loss_ptr K pa y))
  end.
Definition supervised_score (d : input) (cover : option (list f64)) : M B f64 :=
  set_explore false ;;;
  err <~ score_rows (combine (in_x d) (in_y d)) cover f0 ;;
  mret (fdiv err (of_Z (n_samples d))).

(** xcs_supervised.c:184-201 xcs_supervised_score_n. *)
Fixpoint score_n_loop (n : nat) (d : input) (cover : option (list f64)) (err : f64) : M B f64 :=
  match n with
  | O => mret err
  | S n' =>
      i <~ mrand (supervised_sample (n_samples d) 0 true) ;;
      x <~ mlift (row (in_x d) i) ;;
      y <~ mlift (row (in_y d) i) ;;
      supervised_trial x y cover ;;;
      pa <~ mget s_pa ;;
      score_n_loop n' d cover (fadd err (loss_ptr K pa y))
  end.
Definition supervised_score_n (d : input) (N : Z) (cover : option (list f64)) : M B f64 :=
  if n_samples d <? N then supervised_score d cover else
  set_explore false ;;;
  err <~ score_n_loop (Z.to_nat N) d cover f0 ;;
  mret (fdiv err (of_Z N)).

(** ** xcs_rl.c *)

(** xcs_rl.c:125-138 xcs_rl_init_trial (x_dim < 1 exits; prev_state is malloc'ed). *)
Definition rl_init_trial : M B unit :=
  if x_dim K <? 1 then mexit else
  mmod (fun s => with_prev f0 f0 (zeros (x_dim K)) s) ;;;
  clset_init PREV_ASET ;;;
  clset_init KSET.
(** xcs_rl.c:144-150 xcs_rl_end_trial. *)
Definition rl_end_trial : M B unit :=
  clset_free PREV_ASET ;;;
  clset_kill KSET.
(** xcs_rl.c:156-161 xcs_rl_init_step. *)
Definition rl_init_step : M B unit := clset_init MSET ;;; clset_init ASET.
(** xcs_rl.c:170-180 xcs_rl_end_step. *)
Definition rl_end_step (state : list f64) (action : Z) (reward : f64) : M B unit :=
  clset_free MSET ;;;
  clset_free PREV_ASET ;;;
  a <~ mget s_aset ;;
  mmod (with_set PREV_ASET a) ;;;
  pa <~ mget s_pa ;;
  v <~ mlift (pa_val pa action) ;;
  if Z.of_nat (length state) <? x_dim K then mub OutOfBounds else
  mmod (with_prev reward v (firstn (Z.to_nat (x_dim K)) state)).
(** xcs_rl.c:191-211 xcs_rl_update. *)
Definition rl_update (state : list f64) (action : Z) (reward : f64) (done : bool) : M B unit :=
  clset_action action ;;;
  pas <~ mget s_prev_aset ;;
  (match set_list pas with
   | [] => mret tt
   | _ =>
       pa <~ mget s_pa ;;
       best <~ mlift (pa_best_val pa) ;;
       pr <~ mget s_prev_reward ;;
       ps <~ mget s_prev_state ;;
       let p := fadd pr (fmul (GAMMA K) best) in
       clset_validate PREV_ASET ;;;
       clset_update PREV_ASET ps [p] false ;;;
       ex <~ mget s_explore ;;
       if ex : bool then ea PREV_ASET else mret tt
   end) ;;;
  if done then
    clset_validate ASET ;;;
    clset_update ASET state [reward] true ;;;
    ex <~ mget s_explore ;;
    if ex : bool then ea ASET else mret tt
  else mret tt.
(** xcs_rl.c:222-237 xcs_rl_error. *)
Definition rl_error (action : Z) (reward : f64) (done : bool) (max_p : f64) : M B f64 :=
  pa <~ mget s_pa ;;
  prediction <~ mlift (pa_val pa action) ;;
  s <~ mget (fun s => s) ;;
  let e1 := match set_list (s_prev_aset s) with
            | [] => f0
            | _ => fadd f0 (fdiv (loss_ptr K [s_prev_pred s]
                              [fadd (s_prev_reward s) (fmul (GAMMA K) prediction)]) max_p)
            end in
  let e2 := if done then fadd e1 (fdiv (loss_ptr K [prediction] [reward]) max_p) else e1 in
  update_error e2 ;;;
  mret e2.
(** xcs_rl.c:246-255 xcs_rl_decision. *)
Definition rl_decision (state : list f64) : M B Z :=
  clset_match state true ;;;
  pa_build state ;;;
  ex <~ mget s_explore ;;
  pa <~ mget s_pa ;;
  nr <~ mget s_nr ;;
  if ex : bool then
    u <~ mrand (rand_uniform f0 f1) ;;
    if flt u (P_EXPLORE K) then mrand (pa_rand_action (loop_fuel K) nr)
    else mrand (pa_best_action pa)
  else mrand (pa_best_action pa).

(** The environment interface (env.h struct EnvVtbl) with an arbitrary state type. *)
Record env (E : Type) := mkEnv {
  env_reset : E -> RM E;
  env_get_state : E -> RM (E * list f64);
  env_execute : E -> Z -> RM (E * f64);
  env_is_done : E -> bool;
  env_max_payoff : E -> f64;
  env_multistep : bool
}.
Arguments env_reset {E} _ _.
Arguments env_get_state {E} _ _.
Arguments env_execute {E} _ _ _.
Arguments env_is_done {E} _ _.
Arguments env_max_payoff {E} _ _.
Arguments env_multistep {E} _.

(** xcs_rl.c:52-63: one step of a trial; returns (env, reward, done, error). *)
Definition rl_step {E} (V_env : env E) (e : E) : M B (E * f64 * bool * f64) :=
  rl_init_step ;;;
  es <~ mrand (env_get_state V_env e) ;;
  let '(e0, state) := es in
  action <~ rl_decision state ;;
  er <~ mrand (env_execute V_env e0 action) ;;
  let '(e', reward) := er in
  let done := env_is_done V_env e' in
  rl_update state action reward done ;;;
  err <~ rl_error action reward done (env_max_payoff V_env e') ;;
  rl_end_step state action reward ;;;
  mret (e', reward, done, err).
(** xcs_rl.c:52-63: the loop; [n] = TELETRANSPORTATION - steps, [err] is the running total. *)
Fixpoint rl_loop {E} (V_env : env E) (n : nat) (e : E) (reward : f64) (steps : Z) (err : f64)
  : M B (E * f64 * Z * f64) :=
  match n with
  | O => mret (e, reward, steps, err)
  | S n' =>
      r <~ rl_step V_env e ;;
      let '(e', reward', done, err') := r in
      if done : bool then mret (e', reward', steps + 1, fadd err err')
      else rl_loop V_env n' e' reward' (steps + 1) (fadd err err')
  end.
(** xcs_rl.c:42-70 xcs_rl_trial; returns (env, performance, mean error). *)
Definition rl_trial {E} (V_env : env E) (e : E) (explore : bool) : M B (E * f64 * f64) :=
  e1 <~ mrand (env_reset V_env e) ;;
  set_explore explore ;;;
  rl_init_trial ;;;
  r <~ rl_loop V_env (Z.to_nat (TELETRANSPORTATION K)) e1 f0 0 f0 ;;
  let '(e2, reward, steps, err) := r in
  rl_end_trial ;;;
  let error := fdiv err (of_Z steps) in
  if env_multistep V_env then mret (e2, of_Z steps, error)
  else mret (e2, (if fgt reward f0 then f1 else f0), error).
(** xcs_rl.c:77-93 xcs_rl_exp: an explore and an exploit trial per iteration. *)
Fixpoint rl_exp_loop {E} (V_env : env E) (n : nat) (e : E) (tperf : f64) : M B (E * f64) :=
  match n with
  | O => mret (e, tperf)
  | S n' =>
      r1 <~ rl_trial V_env e true ;;
      r2 <~ rl_trial V_env (fst (fst r1)) false ;;
      rl_exp_loop V_env n' (fst (fst r2)) (fadd tperf (snd (fst r2)))
  end.
Definition rl_exp {E} (V_env : env E) (e : E) (max_trials : Z) : M B (E * f64) :=
  r <~ rl_exp_loop V_env (Z.to_nat max_trials) e f0 ;;
  mret (fst r, fdiv (snd r) (of_Z max_trials)).
(** xcs_rl.c:103-119 xcs_rl_fit. *)
Definition rl_fit (state : list f64) (action : Z) (reward : f64) : M B f64 :=
  rl_init_trial ;;;
  rl_init_step ;;;
  clset_match state true ;;;
  pa_build state ;;;
  pa <~ mget s_pa ;;
  prediction <~ mlift (pa_val pa action) ;;
  let error := loss_ptr K [prediction] [reward] in
  set_explore true ;;;
  rl_update state action reward true ;;;
  rl_end_step state action reward ;;;
  rl_end_trial ;;;
  update_error error ;;;
  mret error.

(** ** xcsf.c *)

(** xcsf.c:195-206 xcsf_store_pset. *)
Definition store_pset : M B unit :=
  clset_kill PREV_PSET ;;;
  ps <~ mget s_pset ;;
  miter (fun l =>
    src <~ get l ;;
    c <~ mrand (cl_init_copy src) ;;
    l' <~ alloc c ;;
    clset_add PREV_PSET l') (set_list ps).
(** xcsf.c:213-222 xcsf_retrieve_pset. *)
Definition retrieve_pset : M B unit :=
  pp <~ mget s_prev_pset ;;
  if set_sz pp <? 1 then mret tt else
  clset_kill PSET ;;;
  pp' <~ mget s_prev_pset ;;
  mmod (with_set PSET pp') ;;;
  clset_init PREV_PSET.
(** xcsf.c:56-67 xcsf_free (the prediction array's release is not part of the heap). *)
Definition xcsf_free : M B unit :=
  mmod (fun s => with_explore false (with_stats (E0 K) f0 f0 f0 (with_time 0 s))) ;;;
  clset_kill PSET ;;;
  clset_kill PREV_PSET.
(** xcsf.c:37-49 xcsf_init. *)
Definition xcsf_init : M B unit :=
  mmod (fun s => with_explore false (with_stats (E0 K) f0 f0 f0 (with_time 0 s))) ;;;
  clset_init PSET ;;;
  clset_init PREV_PSET ;;;
  mmod (with_pa (zeros pa_size) (zeros pa_size)) ;;;
  clset_pset_init.

(** clset.c:779-788 clset_json_insert_cl, after the rule has been decoded into [c]
    (the decoding itself, cl.c:607-626, is the subject of C28). *)
Definition insert_cl (c : cl B) : M B unit :=
  l <~ alloc c ;;
  clset_add PSET l ;;;
  clset_init KSET ;;;
  clset_pset_enforce_limit ;;;
  clset_kill KSET.

End Model.
