(** * Parameters and their setters.

    A parameter is a cell of the system that is [None] until it is first set.  The parameters are
    those of struct XCSF (xcsf.h) and of the argument structures it points to (ea.h, condition.h,
    prediction.h, action.h, dgp.h, gp.h).  The argument structures of GP trees and DGP graphs exist
    once, below the condition (cond->targs, cond->dargs). *)
From Coq Require Import ZArith Bool List String Ascii.
From Verif Require Import Outcome F64 Arr Names.
Import ListNotations.
Open Scope Z_scope.

Inductive ipar : Set :=
  | i_OMP_NUM_THREADS | i_MAX_TRIALS | i_PERF_TRIALS | i_POP_SIZE | i_TELETRANSPORTATION | i_THETA_DEL
  | i_M_PROBATION | i_THETA_SUB | i_X_DIM | i_Y_DIM | i_N_ACTIONS | i_EA_LAMBDA | i_RANDOM_STATE |
  i_LOSS_FUNC | i_EA_SELECT_TYPE | i_COND_BITS | i_COND_TYPE | i_PRED_TYPE | i_ACT_TYPE | i_DGP_MAX_K
  | i_DGP_MAX_T | i_DGP_N | i_DGP_N_INPUTS | i_GP_N_INPUTS | i_GP_N_CONSTANTS | i_GP_INIT_DEPTH |
  i_GP_MAX_LEN.
Inductive dpar : Set :=
  | d_HUBER_DELTA | d_GAMMA | d_P_EXPLORE | d_ALPHA | d_BETA | d_DELTA | d_E0 | d_INIT_ERROR |
  d_INIT_FITNESS | d_NU | d_EA_SELECT_SIZE | d_EA_THETA | d_EA_P_CROSSOVER | d_EA_ERR_REDUC |
  d_EA_FIT_REDUC | d_COND_ETA | d_COND_P_DONTCARE | d_COND_SPREAD_MIN | d_PRED_ETA | d_PRED_ETA_MIN |
  d_COND_MIN | d_COND_MAX | d_PRED_LAMBDA | d_PRED_SCALE_FACTOR | d_PRED_X0 | d_GP_MAX | d_GP_MIN.
Inductive bpar : Set :=
  | b_POP_INIT | b_STATEFUL | b_COMPACTION | b_SET_SUBSUMPTION | b_EXPLORE | b_EA_SUBSUMPTION |
  b_EA_PRED_RESET | b_PRED_EVOLVE_ETA | b_DGP_EVOLVE_CYCLES.

Definition ipar_eq : forall a b : ipar, {a = b} + {a <> b}.
Proof. decide equality. Defined.
Definition dpar_eq : forall a b : dpar, {a = b} + {a <> b}.
Proof. decide equality. Defined.
Definition bpar_eq : forall a b : bpar, {a = b} + {a <> b}.
Proof. decide equality. Defined.

(** [file]: the allocation holding population_file; [loss_code]: the loss function called (its code);
    [seed]: what the generator was last seeded with ([None]: the clock, rand_init). *)
Record sys := mkSys {
  ints : ipar -> option Z;
  dbls : dpar -> option f64;
  bools : bpar -> option bool;
  file : list ascii;
  loss_code : option Z;
  seed : option Z
}.

Definition put_i (x : sys) (p : ipar) (v : Z) : sys :=
  mkSys (fun q => if ipar_eq q p then Some v else ints x q) (dbls x) (bools x) (file x) (loss_code x) (seed x).
Definition put_d (x : sys) (p : dpar) (v : f64) : sys :=
  mkSys (ints x) (fun q => if dpar_eq q p then Some v else dbls x q) (bools x) (file x) (loss_code x) (seed x).
Definition put_b (x : sys) (p : bpar) (v : bool) : sys :=
  mkSys (ints x) (dbls x) (fun q => if bpar_eq q p then Some v else bools x q) (file x) (loss_code x) (seed x).

(** Result of a setter returning an error message: [true] is the NULL pointer (success). *)
Definition fails (x : sys) : bool * sys := (false, x).
Definition done (x : sys) : bool * sys := (true, x).

(** ** Setters that report errors *)

(** param.c:614-624 *)
Definition param_set_omp_num_threads (x : sys) (a : Z) : bool * sys :=
  if (a <? 1) || (1000 <? a) then fails x else done (put_i x i_OMP_NUM_THREADS a).
(** param.c:656-663 *)
Definition param_set_max_trials (x : sys) (a : Z) : bool * sys :=
  if a <? 1 then fails x else done (put_i x i_MAX_TRIALS a).
(** param.c:666-673 *)
Definition param_set_perf_trials (x : sys) (a : Z) : bool * sys :=
  if a <? 1 then fails x else done (put_i x i_PERF_TRIALS a).
(** param.c:676-683 *)
Definition param_set_pop_size (x : sys) (a : Z) : bool * sys :=
  if a <? 1 then fails x else done (put_i x i_POP_SIZE a).
(** param.c:744-751 *)
Definition param_set_teletransportation (x : sys) (a : Z) : bool * sys :=
  if a <? 1 then fails x else done (put_i x i_TELETRANSPORTATION a).
(** param.c:834-841 *)
Definition param_set_theta_del (x : sys) (a : Z) : bool * sys :=
  if a <? 0 then fails x else done (put_i x i_THETA_DEL a).
(** param.c:844-851 *)
Definition param_set_m_probation (x : sys) (a : Z) : bool * sys :=
  if a <? 0 then fails x else done (put_i x i_M_PROBATION a).
(** param.c:861-868 *)
Definition param_set_theta_sub (x : sys) (a : Z) : bool * sys :=
  if a <? 0 then fails x else done (put_i x i_THETA_SUB a).
(** param.c:871-878 *)
Definition param_set_x_dim (x : sys) (a : Z) : bool * sys :=
  if a <? 1 then fails x else done (put_i x i_X_DIM a).
(** param.c:888-895 *)
Definition param_set_y_dim (x : sys) (a : Z) : bool * sys :=
  if a <? 1 then fails x else done (put_i x i_Y_DIM a).
(** param.c:898-905 *)
Definition param_set_n_actions (x : sys) (a : Z) : bool * sys :=
  if a <? 1 then fails x else done (put_i x i_N_ACTIONS a).
(** ea.c:438-445 *)
Definition ea_param_set_lambda (x : sys) (a : Z) : bool * sys :=
  if a <? 2 then fails x else done (put_i x i_EA_LAMBDA a).
(** param.c:724-731 *)
Definition param_set_huber_delta (x : sys) (a : f64) : bool * sys :=
  if flt a f0 then fails x else done (put_d x d_HUBER_DELTA a).
(** param.c:734-741 *)
Definition param_set_gamma (x : sys) (a : f64) : bool * sys :=
  if flt a f0 || fgt a f1 then fails x else done (put_d x d_GAMMA a).
(** param.c:754-761 *)
Definition param_set_p_explore (x : sys) (a : f64) : bool * sys :=
  if flt a f0 || fgt a f1 then fails x else done (put_d x d_P_EXPLORE a).
(** param.c:764-771 *)
Definition param_set_alpha (x : sys) (a : f64) : bool * sys :=
  if flt a f0 || fgt a f1 then fails x else done (put_d x d_ALPHA a).
(** param.c:774-781 *)
Definition param_set_beta (x : sys) (a : f64) : bool * sys :=
  if flt a f0 || fgt a f1 then fails x else done (put_d x d_BETA a).
(** param.c:784-791 *)
Definition param_set_delta (x : sys) (a : f64) : bool * sys :=
  if flt a f0 || fgt a f1 then fails x else done (put_d x d_DELTA a).
(** param.c:794-801 *)
Definition param_set_e0 (x : sys) (a : f64) : bool * sys :=
  if flt a f0 then fails x else done (put_d x d_E0 a).
(** param.c:804-811 *)
Definition param_set_init_error (x : sys) (a : f64) : bool * sys :=
  if flt a f0 then fails x else done (put_d x d_INIT_ERROR a).
(** param.c:814-821 *)
Definition param_set_init_fitness (x : sys) (a : f64) : bool * sys :=
  if flt a f0 then fails x else done (put_d x d_INIT_FITNESS a).
(** param.c:824-831 *)
Definition param_set_nu (x : sys) (a : f64) : bool * sys :=
  if flt a f0 then fails x else done (put_d x d_NU a).
(** ea.c:408-415 *)
Definition ea_param_set_select_size (x : sys) (a : f64) : bool * sys :=
  if flt a f0 || fgt a f1 then fails x else done (put_d x d_EA_SELECT_SIZE a).
(** ea.c:418-425 *)
Definition ea_param_set_theta (x : sys) (a : f64) : bool * sys :=
  if flt a f0 then fails x else done (put_d x d_EA_THETA a).
(** ea.c:428-435 *)
Definition ea_param_set_p_crossover (x : sys) (a : f64) : bool * sys :=
  if flt a f0 || fgt a f1 then fails x else done (put_d x d_EA_P_CROSSOVER a).
(** ea.c:448-455 *)
Definition ea_param_set_err_reduc (x : sys) (a : f64) : bool * sys :=
  if flt a f0 || fgt a f1 then fails x else done (put_d x d_EA_ERR_REDUC a).
(** ea.c:458-465 *)
Definition ea_param_set_fit_reduc (x : sys) (a : f64) : bool * sys :=
  if flt a f0 || fgt a f1 then fails x else done (put_d x d_EA_FIT_REDUC a).
(** param.c:649-653 *)
Definition param_set_pop_init (x : sys) (a : bool) : bool * sys := done (put_b x b_POP_INIT a).
(** param.c:710-714 *)
Definition param_set_stateful (x : sys) (a : bool) : bool * sys := done (put_b x b_STATEFUL a).
(** param.c:717-721 *)
Definition param_set_compaction (x : sys) (a : bool) : bool * sys := done (put_b x b_COMPACTION a).
(** param.c:854-858 *)
Definition param_set_set_subsumption (x : sys) (a : bool) : bool * sys := done (put_b x b_SET_SUBSUMPTION a).
(** param.c:881-885 *)
Definition param_set_explore (x : sys) (a : bool) : bool * sys := done (put_b x b_EXPLORE a).
(** ea.c:468-472 *)
Definition ea_param_set_subsumption (x : sys) (a : bool) : bool * sys := done (put_b x b_EA_SUBSUMPTION a).
(** ea.c:475-479 *)
Definition ea_param_set_pred_reset (x : sys) (a : bool) : bool * sys := done (put_b x b_EA_PRED_RESET a).
(** param.c:627-636; rand_init and rand_init_seed (utils.c:34-58): the seed is
    converted to uint32_t, a non-negative int keeps its value. *)
Definition param_set_random_state (x : sys) (a : Z) : bool * sys :=
  let y := put_i x i_RANDOM_STATE a in
  done (mkSys (ints y) (dbls y) (bools y) (file y) (loss_code y) (if a <? 0 then None else Some a)).

(** [strnlen(a, n)] *)
Fixpoint strnlen (a : list ascii) (n : nat) {struct n} : outcome nat :=
  match n with
  | O => Ok O
  | S k => match a with
           | [] => UB OutOfBounds
           | c :: r => if Ascii.eqb c nul then Ok O else (m <- strnlen r k ;; Ok (S m))%out
           end
  end.
(** [strncpy(dest, a, n)] into an allocation of [n] characters: stops reading at the terminator and
    fills the rest with terminators. *)
Fixpoint strncpy (a : list ascii) (n : nat) {struct n} : outcome (list ascii) :=
  match n with
  | O => Ok []
  | S k => match a with
           | [] => UB OutOfBounds
           | c :: r => if Ascii.eqb c nul then Ok (repeat nul n) else (m <- strncpy r k ;; Ok (c :: m))%out
           end
  end.
(** param.c:35 *)
Definition MAX_LEN : nat := 512.
(** param.c:639-646 *)
Definition param_set_population_file (x : sys) (a : list ascii) : outcome (bool * sys) :=
  (n <- strnlen a MAX_LEN ;;
   f <- strncpy a (S n) ;;
   Ok (done (mkSys (ints x) (dbls x) (bools x) f (loss_code x) (seed x))))%out.

(** loss.c:159-186: the function pointer follows LOSS_FUNC when that is a known code. *)
Definition loss_set_func (x : sys) : outcome (Z * sys) :=
  match ints x i_LOSS_FUNC with
  | None => UB Uninit
  | Some l => Ok (if (0 <=? l) && (l <? 7)
                  then (l, mkSys (ints x) (dbls x) (bools x) (file x) (Some l) (seed x))
                  else (-1, x))
  end.
(** param.c:699-707: exits on an unknown code. *)
Definition param_set_loss_func (x : sys) (a : Z) : outcome sys :=
  if (a <? 0) || (7 <=? a) then Exit
  else (r <- loss_set_func (put_i x i_LOSS_FUNC a) ;; Ok (snd r))%out.
(** param.c:686-696: PARAM_FOUND is [true], PARAM_INVALID [false]. *)
Definition param_set_loss_func_string (x : sys) (a : list ascii) : outcome (bool * sys) :=
  (l <- loss_type_as_int a ;;
   if l =? -1 then Ok (fails x)
   else r <- loss_set_func (put_i x i_LOSS_FUNC l) ;;
        Ok (negb (fst r =? -1), snd r))%out.

(** ea.c:482-489: EA_SELECT_INVALID (-1) on error, else the code. *)
Definition ea_param_set_select_type (x : sys) (a : Z) : Z * sys :=
  if (a =? 0) || (a =? 1) then (a, put_i x i_EA_SELECT_TYPE a) else (-1, x).
(** The four setters of a type by name. *)
(** ea.c:492-500 *)
Definition ea_param_set_type_string (x : sys) (a : list ascii) : outcome (Z * sys) :=
  (t <- ea_type_as_int a ;; Ok (t, if t =? -1 then x else put_i x i_EA_SELECT_TYPE t))%out.
(** condition.c:440-447 *)
Definition cond_param_set_type_string (x : sys) (a : list ascii) : outcome (Z * sys) :=
  (t <- condition_type_as_int a ;; Ok (t, if t =? -1 then x else put_i x i_COND_TYPE t))%out.
(** prediction.c:354-361 *)
Definition pred_param_set_type_string (x : sys) (a : list ascii) : outcome (Z * sys) :=
  (t <- prediction_type_as_int a ;; Ok (t, if t =? -1 then x else put_i x i_PRED_TYPE t))%out.
(** action.c:192-199 *)
Definition action_param_set_type_string (x : sys) (a : list ascii) : outcome (Z * sys) :=
  (t <- action_type_as_int a ;; Ok (t, if t =? -1 then x else put_i x i_ACT_TYPE t))%out.

(** ** Setters without a result: values outside the range are replaced by its nearest end *)

(** condition.c:429-437 *)
Definition cond_param_set_bits (x : sys) (a : Z) : sys := put_i x i_COND_BITS (if a <? 1 then 1 else a).
(** condition.c:450-458 *)
Definition cond_param_set_type (x : sys) (a : Z) : sys := put_i x i_COND_TYPE (if a <? 0 then 0 else a).
(** prediction.c:343-351 *)
Definition pred_param_set_type (x : sys) (a : Z) : sys := put_i x i_PRED_TYPE (if a <? 0 then 0 else a).
(** action.c:202-210 *)
Definition action_param_set_type (x : sys) (a : Z) : sys := put_i x i_ACT_TYPE (if a <? 0 then 0 else a).
(** dgp.c:719-727 *)
Definition graph_param_set_max_k (x : sys) (a : Z) : sys := put_i x i_DGP_MAX_K (if a <? 1 then 1 else a).
(** dgp.c:730-738 *)
Definition graph_param_set_max_t (x : sys) (a : Z) : sys := put_i x i_DGP_MAX_T (if a <? 1 then 1 else a).
(** dgp.c:741-749 *)
Definition graph_param_set_n (x : sys) (a : Z) : sys := put_i x i_DGP_N (if a <? 1 then 1 else a).
(** dgp.c:752-760 *)
Definition graph_param_set_n_inputs (x : sys) (a : Z) : sys := put_i x i_DGP_N_INPUTS (if a <? 1 then 1 else a).
(** gp.c:565-573 *)
Definition tree_param_set_n_inputs (x : sys) (a : Z) : sys := put_i x i_GP_N_INPUTS (if a <? 1 then 1 else a).
(** gp.c:576-584 *)
Definition tree_param_set_n_constants (x : sys) (a : Z) : sys := put_i x i_GP_N_CONSTANTS (if a <? 1 then 1 else a).
(** gp.c:587-595 *)
Definition tree_param_set_init_depth (x : sys) (a : Z) : sys := put_i x i_GP_INIT_DEPTH (if a <? 1 then 1 else a).
(** gp.c:598-606 *)
Definition tree_param_set_max_len (x : sys) (a : Z) : sys := put_i x i_GP_MAX_LEN (if a <? 1 then 1 else a).
(** condition.c:378-389 *)
Definition cond_param_set_eta (x : sys) (a : f64) : sys := put_d x d_COND_ETA (if flt a f0 then f0 else if fgt a f1 then f1 else a).
(** condition.c:404-415 *)
Definition cond_param_set_p_dontcare (x : sys) (a : f64) : sys := put_d x d_COND_P_DONTCARE (if flt a f0 then f0 else if fgt a f1 then f1 else a).
(** condition.c:418-426 *)
Definition cond_param_set_spread_min (x : sys) (a : f64) : sys := put_d x d_COND_SPREAD_MIN (if flt a f0 then f0 else a).
(** prediction.c:291-302 *)
Definition pred_param_set_eta (x : sys) (a : f64) : sys := put_d x d_PRED_ETA (if flt a f0 then f0 else if fgt a f1 then f1 else a).
(** prediction.c:305-316 *)
Definition pred_param_set_eta_min (x : sys) (a : f64) : sys := put_d x d_PRED_ETA_MIN (if flt a f0 then f0 else if fgt a f1 then f1 else a).
(** condition.c:392-395 *)
Definition cond_param_set_min (x : sys) (a : f64) : sys := put_d x d_COND_MIN a.
(** condition.c:398-401 *)
Definition cond_param_set_max (x : sys) (a : f64) : sys := put_d x d_COND_MAX a.
(** prediction.c:319-322 *)
Definition pred_param_set_lambda (x : sys) (a : f64) : sys := put_d x d_PRED_LAMBDA a.
(** prediction.c:325-328 *)
Definition pred_param_set_scale_factor (x : sys) (a : f64) : sys := put_d x d_PRED_SCALE_FACTOR a.
(** prediction.c:331-334 *)
Definition pred_param_set_x0 (x : sys) (a : f64) : sys := put_d x d_PRED_X0 a.
(** gp.c:553-556 *)
Definition tree_param_set_max (x : sys) (a : f64) : sys := put_d x d_GP_MAX a.
(** gp.c:559-562 *)
Definition tree_param_set_min (x : sys) (a : f64) : sys := put_d x d_GP_MIN a.
(** prediction.c:337-340 *)
Definition pred_param_set_evolve_eta (x : sys) (a : bool) : sys := put_b x b_PRED_EVOLVE_ETA a.
(** dgp.c:763-766 *)
Definition graph_param_set_evolve_cycles (x : sys) (a : bool) : sys := put_b x b_DGP_EVOLVE_CYCLES a.

(** ** Default values *)

(** A decimal number k / 10^d. *)
Definition dec (k d : Z) : f64 := lit k (10 ^ d).

(** ea.c:237-248 *)
Definition ea_param_defaults (x : sys) : sys :=
  let x := snd (ea_param_set_select_type x 0) in
  let x := snd (ea_param_set_select_size x (dec 4 1)) in
  let x := snd (ea_param_set_theta x (of_Z 50)) in
  let x := snd (ea_param_set_lambda x 2) in
  let x := snd (ea_param_set_p_crossover x (dec 8 1)) in
  let x := snd (ea_param_set_subsumption x false) in
  let x := snd (ea_param_set_err_reduc x f1) in
  let x := snd (ea_param_set_fit_reduc x (dec 1 1)) in
  snd (ea_param_set_pred_reset x false).
(** action.c:91-95, without the neural layer arguments *)
Definition action_param_defaults (x : sys) : sys := action_param_set_type x 0.
(** cond_ternary.c:426-430 *)
Definition cond_ternary_param_defaults (x : sys) : sys :=
  cond_param_set_bits (cond_param_set_p_dontcare x fhalf) 1.
(** cond_dgp.c:300-310; graph_args_init (zeros) is overwritten throughout *)
Definition cond_dgp_param_defaults (x : sys) : outcome sys :=
  match ints x i_X_DIM with
  | None => UB Uninit
  | Some n =>
      let x := graph_param_set_max_k x 2 in
      let x := graph_param_set_max_t x 10 in
      let x := graph_param_set_n x 10 in
      let x := graph_param_set_n_inputs x n in
      Ok (graph_param_set_evolve_cycles x true)
  end.
(** cond_gp.c:286-298, without drawing the constants *)
Definition cond_gp_param_defaults (x : sys) : outcome sys :=
  match ints x i_X_DIM with
  | None => UB Uninit
  | Some n =>
      let x := tree_param_set_max x f1 in
      let x := tree_param_set_min x f0 in
      let x := tree_param_set_init_depth x 5 in
      let x := tree_param_set_max_len x 10000 in
      let x := tree_param_set_n_constants x 100 in
      Ok (tree_param_set_n_inputs x n)
  end.
(** condition.c:166-177, without the neural layer arguments *)
Definition cond_param_defaults (x : sys) : outcome sys :=
  (let x := cond_param_set_type x 1 in
   let x := cond_param_set_eta x f0 in
   let x := cond_param_set_min x f0 in
   let x := cond_param_set_max x f1 in
   let x := cond_param_set_spread_min x (dec 1 1) in
   let x := cond_ternary_param_defaults x in
   x <- cond_dgp_param_defaults x ;;
   cond_gp_param_defaults x)%out.
(** prediction.c:120-130, without the neural layer arguments *)
Definition pred_param_defaults (x : sys) : sys :=
  let x := pred_param_set_type x 1 in
  let x := pred_param_set_eta x (dec 1 1) in
  let x := pred_param_set_eta_min x (dec 1 5) in
  let x := pred_param_set_lambda x f1 in
  let x := pred_param_set_scale_factor x (of_Z 1000) in
  let x := pred_param_set_x0 x f1 in
  pred_param_set_evolve_eta x true.

(** param.c:45-90: the results of the setters are ignored.  [xcsf->error = xcsf->E0]
    (line 49) copies an indeterminate value; the copy is overwritten by xcsf_init and is left out
    here, as are the other counters and averages. *)
Definition param_init (x : sys) (x_dim y_dim n_actions : Z) : outcome sys :=
  (let x := mkSys (ints x) (dbls x) (bools x) [nul] (loss_code x) (seed x) in
   let x := snd (param_set_n_actions x n_actions) in
   let x := snd (param_set_x_dim x x_dim) in
   let x := snd (param_set_y_dim x y_dim) in
   let x := snd (param_set_omp_num_threads x 8) in
   let x := snd (param_set_random_state x (-1)) in
   let x := snd (param_set_pop_init x true) in
   let x := snd (param_set_max_trials x 100000) in
   let x := snd (param_set_perf_trials x 1000) in
   let x := snd (param_set_pop_size x 2000) in
   x <- param_set_loss_func x 0 ;;
   let x := snd (param_set_huber_delta x f1) in
   let x := snd (param_set_e0 x (dec 1 2)) in
   let x := snd (param_set_alpha x (dec 1 1)) in
   let x := snd (param_set_nu x (of_Z 5)) in
   let x := snd (param_set_beta x (dec 1 1)) in
   let x := snd (param_set_delta x (dec 1 1)) in
   let x := snd (param_set_theta_del x 20) in
   let x := snd (param_set_init_fitness x (dec 1 2)) in
   let x := snd (param_set_init_error x f0) in
   let x := snd (param_set_m_probation x 10000) in
   let x := snd (param_set_stateful x true) in
   let x := snd (param_set_compaction x false) in
   let x := snd (param_set_gamma x (dec 95 2)) in
   let x := snd (param_set_teletransportation x 50) in
   let x := snd (param_set_p_explore x (dec 9 1)) in
   let x := snd (param_set_set_subsumption x false) in
   let x := snd (param_set_theta_sub x 100) in
   let x := ea_param_defaults x in
   let x := action_param_defaults x in
   x <- cond_param_defaults x ;;
   Ok (pred_param_defaults x))%out.
