(** * Dynamical GP graphs: /repo/xcsf/dgp.c, cond_dgp.c and rule_dgp.c.

    Simplifications: printing and file input/output are left out; of JSON, the import of states
    and connections is modelled on the numbers in the arrays.  tmp_input and tmp_state are
    rewritten completely before every use and are not kept in the model.  klen = n * max_k and
    node numbers are unbounded integers. *)
From Coq Require Import ZArith Bool List.
From Flocq Require Import BinarySingleNaN.
From Verif Require Import Outcome F64 Rng Arr Sam Pop Cond Blas Pred Comp.
Import ListNotations.
Open Scope Z_scope.

(** dgp.h:30-36 struct ArgsDGP. *)
Record dargs := mkDargs { da_evolve : bool; da_max_k : Z; da_max_t : Z; da_n : Z; da_n_inputs : Z }.

(** dgp.h:41-56 struct Graph. *)
Record graph := mkGraph {
  d_evolve : bool; d_initial : list f64; d_state : list f64; d_conn : list Z; d_func : list Z;
  d_klen : Z; d_max_k : Z; d_max_t : Z; d_n : Z; d_n_inputs : Z; d_t : Z; d_mu : list f64
}.

(** dgp.c:28-32 *)
Definition FUZZY_NOT : Z := 0.
Definition FUZZY_CFMQVS_AND : Z := 1.
Definition FUZZY_CFMQVS_OR : Z := 2.
Definition NUM_FUNC : Z := 3.
(** dgp.c:41-45 MU_TYPE *)
Definition dgp_mu_type : list Z := [SAM_LOG_NORMAL; SAM_LOG_NORMAL; SAM_UNIFORM].

(** Building an array element by element: a[i] = f(i) for i = 0 .. n-1. *)
Fixpoint otab {A} (n : nat) (i : Z) (f : Z -> outcome A) : outcome (list A) :=
  match n with
  | O => Ok []
  | S m => (v <- f i ;; vs <- otab m (i + 1) f ;; Ok (v :: vs))%out
  end.
Fixpoint rtab {A} (n : nat) (m : RM A) : RM (list A) :=
  match n with
  | O => ret []
  | S k => (v <- m ;; vs <- rtab k m ;; ret (v :: vs))%rng
  end.

(** [round] of math.h: halfway cases away from zero. *)
Definition fround (x : f64) : f64 := Bnearbyint mode_NA x.

(** dgp.c:52-61 random_connection. *)
Definition random_connection (n_nodes n_inputs : Z) : RM Z :=
  (u <- rand_uniform f0 f1 ;;
   if flt u fhalf then c <- rand_uniform_int 0 n_nodes ;; ret (c + n_inputs)
   else rand_uniform_int 0 n_inputs)%rng.

(** dgp.c:128-154 node_activate. *)
Definition node_activate (function : Z) (inputs : list f64) (K : Z) : outcome f64 :=
  (s <- (if function =? FUZZY_NOT then v <- rd inputs 0 ;; Ok (fsub f1 v)
         else if function =? FUZZY_CFMQVS_AND then
           v <- rd inputs 0 ;; ofor (K - 1) (fun i s => w <- rd inputs (i + 1) ;; Ok (fmul s w)) v
         else if function =? FUZZY_CFMQVS_OR then
           v <- rd inputs 0 ;; ofor (K - 1) (fun i s => w <- rd inputs (i + 1) ;; Ok (fadd s w)) v
         else Exit) ;;
   Ok (clamp s f0 f1))%out.

(** dgp.c:202-218 synchronous_update: all nodes read the old states. *)
Definition synchronous_update (g : graph) (inputs : list f64) : outcome graph :=
  (s <- otab (Z.to_nat (d_n g)) 0 (fun i =>
     t <- otab (Z.to_nat (d_max_k g)) 0 (fun k =>
        c <- rd (d_conn g) (i * d_max_k g + k) ;;
        if c <? d_n_inputs g then rd inputs c else rd (d_state g) (c - d_n_inputs g)) ;;
     f <- rd (d_func g) i ;;
     node_activate f t (d_max_k g)) ;;
   Ok (mkGraph (d_evolve g) (d_initial g) s (d_conn g) (d_func g) (d_klen g) (d_max_k g) (d_max_t g)
         (d_n g) (d_n_inputs g) (d_t g) (d_mu g)))%out.

(** dgp.c:225-243 graph_init; the arrays are allocated but hold nothing yet (graph_rand or
    graph_copy follow). *)
Definition graph_init (a : dargs) : RM graph :=
  (mu <- sam_init dgp_mu_type ;;
   ret (mkGraph (da_evolve a) [] [] [] [] (da_n a * da_max_k a) (da_max_k a) (da_max_t a) (da_n a)
          (da_n_inputs a) (da_max_t a) mu))%rng.

(** dgp.c:295-309 graph_rand: every element of the four arrays is written. *)
Definition graph_rand (g : graph) : RM graph :=
  (t <- (if d_evolve g then rand_uniform_int 1 (d_max_t g) else ret (d_t g)) ;;
   ns <- rtab (Z.to_nat (d_n g)) (f <- rand_uniform_int 0 NUM_FUNC ;; i <- rand_uniform f0 f1 ;;
                                  s <- rand_uniform f0 f1 ;; ret (f, i, s)) ;;
   cs <- rtab (Z.to_nat (d_klen g)) (random_connection (d_n g) (d_n_inputs g)) ;;
   ret (mkGraph (d_evolve g) (map (fun p => snd (fst p)) ns) (map snd ns) cs (map (fun p => fst (fst p)) ns)
          (d_klen g) (d_max_k g) (d_max_t g) (d_n g) (d_n_inputs g) t (d_mu g)))%rng.

(** memcpy of [n] elements into a block of [cap] elements. *)
Definition copy_array {A} (l : list A) (n cap : Z) : outcome (list A) :=
  if (n <? 0) || (Z.of_nat (length l) <? n) || (cap <? n) then UB OutOfBounds else Ok (firstn (Z.to_nat n) l).
(** dgp.c:250-265 graph_copy, into the blocks allocated by graph_init with [a]. *)
Definition graph_copy (a : dargs) (src : graph) : outcome graph :=
  (s <- copy_array (d_state src) (d_n src) (da_n a) ;;
   i <- copy_array (d_initial src) (d_n src) (da_n a) ;;
   f <- copy_array (d_func src) (d_n src) (da_n a) ;;
   c <- copy_array (d_conn src) (d_klen src) (da_n a * da_max_k a) ;;
   m <- copy_array (d_mu src) 3 3 ;;
   Ok (mkGraph (d_evolve src) i s c f (d_klen src) (d_max_k src) (d_max_t src) (d_n src) (d_n_inputs src) (d_t src) m))%out.

(** dgp.c:273-277 graph_output. *)
Definition graph_output (g : graph) (i : Z) : outcome f64 := rd (d_state g) i.

(** dgp.c:283-289 graph_reset. *)
Definition graph_reset (g : graph) : outcome graph :=
  (s <- ofor (d_n g) (fun i s => v <- rd (d_initial g) i ;; wr s i v) (d_state g) ;;
   Ok (mkGraph (d_evolve g) (d_initial g) s (d_conn g) (d_func g) (d_klen g) (d_max_k g) (d_max_t g)
         (d_n g) (d_n_inputs g) (d_t g) (d_mu g)))%out.

(** dgp.c:317-326 graph_update. *)
Definition graph_update (g : graph) (inputs : list f64) (reset : bool) : outcome graph :=
  (g0 <- (if reset then graph_reset g else Ok g) ;;
   ofor (d_t g) (fun _ g => synchronous_update g inputs) g0)%out.

(** dgp.c:68-82 graph_mutate_functions and 89-103 graph_mutate_connectivity. *)
Definition mutate_array (n : Z) (l : list Z) (rate : outcome f64) (draw : RM Z) : RM (list Z * bool) :=
  rfor n (fun i (st : list Z * bool) =>
    (u <- rand_uniform f0 f1 ;;
     m <- lift rate ;;
     if flt u m then
       orig <- lift (rd (fst st) i) ;;
       v <- draw ;;
       l' <- lift (wr (fst st) i v) ;;
       ret (l', if orig =? v then snd st else true)
     else ret st)%rng) (l, false).

(** dgp.c:110-119 graph_mutate_cycles. *)
Definition mutate_cycles (t max_t : Z) (mu : list f64) : outcome (Z * bool) :=
  (m <- rd mu 2 ;;
   match to_int (fround (fsub (fmul f2 m) f1)) with
   | None => UB BadCast
   | Some n => if (t + n <? 1) || (max_t <? t + n) then Ok (t, false) else Ok (t + n, true)
   end)%out.

(** dgp.c:539-554 graph_mutate. *)
Definition graph_mutate (lm : libm) (g : graph) : RM (graph * bool) :=
  (mu <- sam_adapt lm dgp_mu_type (d_mu g) ;;
   rf <- mutate_array (d_n g) (d_func g) (rd mu 0) (rand_uniform_int 0 NUM_FUNC) ;;
   rc <- mutate_array (d_klen g) (d_conn g) (rd mu 1) (random_connection (d_n g) (d_n_inputs g)) ;;
   rt <- (if d_evolve g then lift (mutate_cycles (d_t g) (d_max_t g) mu) else ret (d_t g, false)) ;;
   ret (mkGraph (d_evolve g) (d_initial g) (d_state g) (fst rc) (fst rf) (d_klen g) (d_max_k g) (d_max_t g)
          (d_n g) (d_n_inputs g) (fst rt) mu, snd rf || snd rc || snd rt))%rng.

(** dgp.c:449-468 graph_json_import_connectivity, on the integers of the array. *)
Definition import_connectivity (g : graph) (items : list Z) : outcome graph :=
  if negb (Z.of_nat (length items) =? d_klen g) then Exit
  else if existsb (fun v => (v <? 0) || (d_n g + d_n_inputs g <? v)) items then Exit
  else Ok (mkGraph (d_evolve g) (d_initial g) (d_state g) items (d_func g) (d_klen g) (d_max_k g) (d_max_t g)
             (d_n g) (d_n_inputs g) (d_t g) (d_mu g)).
(** dgp.c:376-394 graph_json_import_current_state; 401-419 for the initial states. *)
Definition import_states (n : Z) (items : list f64) : outcome (list f64) :=
  if negb (Z.of_nat (length items) =? n) then Exit
  else if existsb (fun v => flt v f0 || fgt v f1) items then Exit
  else Ok items.

(** ** cond_dgp.c *)
Section Cond.
Context (K : cfg) (a : dargs) (stateful : bool).

(** cond_dgp.c:33-40 cond_dgp_init. *)
Definition dgp_init : RM graph := (g <- graph_init a ;; graph_rand g)%rng.
(** cond_dgp.c:62-70 cond_dgp_copy: graph_init draws mutation rates that graph_copy overwrites. *)
Definition dgp_copy (src : graph) : RM graph := (_ <- graph_init a ;; lift (graph_copy a src))%rng.
(** cond_dgp.c:112-121 cond_dgp_match. *)
Definition dgp_match (g : graph) (x : list f64) : outcome (graph * bool) :=
  (g' <- graph_update g x (negb stateful) ;;
   v <- graph_output g' 0 ;; Ok (g', fgt v fhalf))%out.
(** cond_dgp.c:78-86 cond_dgp_cover. *)
Fixpoint dgp_cover (fuel : nat) (g : graph) (x : list f64) : RM graph :=
  match fuel with
  | O => rfuel
  | S f =>
    (g1 <- graph_rand g ;;
     r <- lift (dgp_match g1 x) ;;
     if snd r : bool then ret (fst r) else dgp_cover f (fst r) x)%rng
  end.
(** The function table of cond_dgp.c; update (95-103), crossover (144-152) and general (161-169)
    do nothing; size is 190-196. *)
Definition dgp_cond : condT graph := mkCondT graph
  dgp_init dgp_copy (dgp_cover (loop_fuel K)) (fun g x => lift (dgp_match g x)) (fun g _ _ => ret g)
  (fun _ _ => Ok false) (fun g1 g2 => ret (g1, g2, false)) (graph_mutate (lm K)) (fun g => of_Z (d_n g)).

(** ** rule_dgp.c; [log2] is the libm function. *)
Context (log2 : f64 -> f64).
(** rule_dgp.h:35-38 struct RuleDGP. *)
Record rgraph := mkRgraph { rg_graph : graph; rg_outputs : Z }.

(** rule_dgp.c:33: (int) fmax(1, ceil(log2(n_actions))). *)
Definition n_action_nodes : outcome Z :=
  match to_int (fmax f1 (fceil (log2 (of_Z (n_actions K))))) with Some n => Ok n | None => UB BadCast end.
(** rule_dgp.c:29-37 rule_dgp_cond_init. *)
Definition rdgp_init : RM rgraph := (n <- lift n_action_nodes ;; g <- dgp_init ;; ret (mkRgraph g n))%rng.
(** rule_dgp.c:48-58 rule_dgp_cond_copy. *)
Definition rdgp_copy (src : rgraph) : RM rgraph := (g <- dgp_copy (rg_graph src) ;; ret (mkRgraph g (rg_outputs src)))%rng.
(** rule_dgp.c:79-89 rule_dgp_cond_match. *)
Definition rdgp_match (c : rgraph) (x : list f64) : outcome (rgraph * bool) :=
  (r <- dgp_match (rg_graph c) x ;; Ok (mkRgraph (fst r) (rg_outputs c), snd r))%out.
(** rule_dgp.c:228-243 rule_dgp_act_compute. *)
Definition rdgp_compute (c : rgraph) : outcome Z :=
  (z <- ofor (rg_outputs c) (fun i z =>
     v <- graph_output (rg_graph c) (i + 1) ;;
     if fgt v fhalf then
       match to_int (m_pow (lm K) f2 (of_Z i)) with
       | None => UB BadCast
       | Some p => if in_int (z + p) then Ok (z + p) else UB IntOverflow
       end
     else Ok z) 0 ;;
   Ok (clamp_int z 0 (n_actions K - 1)))%out.
(** rule_dgp.c:217-226 rule_dgp_act_cover: do { graph_rand } while (!match && compute != action). *)
Fixpoint rdgp_cover (fuel : nat) (c : rgraph) (x : list f64) (action : Z) : RM rgraph :=
  match fuel with
  | O => rfuel
  | S f =>
    (g1 <- graph_rand (rg_graph c) ;;
     r <- lift (rdgp_match (mkRgraph g1 (rg_outputs c)) x) ;;
     if snd r : bool then ret (fst r)
     else a <- lift (rdgp_compute (fst r)) ;;
          if a =? action then ret (fst r) else rdgp_cover f (fst r) x action)%rng
  end.
(** rule_dgp.c:91-97 rule_dgp_cond_mutate. *)
Definition rdgp_mutate (c : rgraph) : RM (rgraph * bool) :=
  (r <- graph_mutate (lm K) (rg_graph c) ;; ret (mkRgraph (fst r) (rg_outputs c), snd r))%rng.
End Cond.

(** ** Rules in which one structure is both condition and action (rule_dgp.c, rule_neural.c):
    covering the condition (rule_dgp.c:60-67, rule_neural.c:69-76) and all action functions but
    cover and compute do nothing. *)
Record ruleT (C : Type) := mkRuleT {
  u_init : RM C; u_copy : C -> RM C; u_cover : C -> list f64 -> Z -> RM C;
  u_match : C -> list f64 -> RM (C * bool); u_compute : C -> list f64 -> RM (C * Z);
  u_mutate : C -> RM (C * bool); u_size : C -> f64
}.
Arguments u_init {C} _.
Arguments u_copy {C} _ _.
Arguments u_cover {C} _ _ _ _.
Arguments u_match {C} _ _ _.
Arguments u_compute {C} _ _ _.
Arguments u_mutate {C} _ _.
Arguments u_size {C} _ _.
Section RuleJoin.
Context {C P : Type} (U : ruleT C) (VP : predT P).
Notation pay := (payload C unit P).
Definition rule_join : vtab pay := mkVtab pay
  (mkPay None None None)
  (fun b => (c <- u_init U ;; ret (set_cond b c))%rng)
  (fun b => ret b)
  (fun b => (p <- q_init VP ;; ret (set_pred b p))%rng)
  (fun b src => (s <- need (y_cond src) ;; c <- u_copy U s ;; ret (set_cond b c))%rng)
  (fun b _ => ret b)
  (fun b src => (s <- need (y_pred src) ;; p <- q_copy VP s ;; ret (set_pred b p))%rng)
  (fun b _ => ret b)
  (fun b x n => (c <- need (y_cond b) ;; c' <- u_cover U c x n ;; ret (set_cond b c'))%rng)
  (fun b x => (c <- need (y_cond b) ;; r <- u_match U c x ;; ret (set_cond b (fst r), snd r))%rng)
  (fun b x => (c <- need (y_cond b) ;; r <- u_compute U c x ;; ret (set_cond b (fst r), snd r))%rng)
  (fun b v x => (p <- need (y_pred b) ;; r <- q_compute VP p v x ;; ret (set_pred b (fst r), snd r))%rng)
  (fun b _ _ => ret b)
  (fun b _ _ => ret b)
  (fun b e v x y => (p <- need (y_pred b) ;; r <- q_update VP p e v x y ;; ret (set_pred b (fst r), snd r))%rng)
  (fun _ _ => false)
  (fun _ _ => false)
  (fun b1 b2 => ret (b1, b2, false))
  (fun b1 b2 => ret (b1, b2, false))
  (fun b1 b2 => (p1 <- need (y_pred b1) ;; p2 <- need (y_pred b2) ;; r <- q_crossover VP p1 p2 ;;
                 ret (set_pred b1 (fst (fst r)), set_pred b2 (snd (fst r)), snd r))%rng)
  (fun b => (c <- need (y_cond b) ;; r <- u_mutate U c ;; ret (set_cond b (fst r), snd r))%rng)
  (fun b => ret (b, false))
  (fun b => (p <- need (y_pred b) ;; r <- q_mutate VP p ;; ret (set_pred b (fst r), snd r))%rng)
  (fun b => match y_cond b with Some c => u_size U c | None => f0 end)
  (fun b => match y_pred b with Some p => q_size VP p | None => f0 end).
End RuleJoin.
Definition dgp_rule (K : cfg) (a : dargs) (stateful : bool) (log2 : f64 -> f64) : ruleT rgraph := mkRuleT rgraph
  (rdgp_init K a log2) (rdgp_copy a) (rdgp_cover K stateful (loop_fuel K)) (fun c x => lift (rdgp_match stateful c x))
  (fun c x => (a <- lift (rdgp_compute K c) ;; ret (c, a))%rng) (rdgp_mutate K) (fun c => of_Z (d_n (rg_graph c))).
