(** * C36 Setters accept exactly the documented ranges. *)
From Coq Require Import ZArith Bool List String Ascii Reals Relations Lia.
From Flocq Require Import Core BinarySingleNaN.
From Verif Require Import Outcome F64 F64Facts F64Bounds Arr Names Param PropNames Rng Pop PopSpec PropParam.
Import ListNotations.
Open Scope Z_scope.

(** Setters of integers, for all integers: [sets_i f p ok] (PropParam.v) says that f reports success
    and stores the value in p, changing nothing else, exactly when ok holds, and otherwise reports
    an error and returns the very same system. *)
Theorem C36_int :
  sets_i param_set_omp_num_threads i_OMP_NUM_THREADS (fun a : Z => 1 <= a <= 1000) /\
  sets_i param_set_max_trials i_MAX_TRIALS (fun a : Z => 1 <= a) /\
  sets_i param_set_perf_trials i_PERF_TRIALS (fun a : Z => 1 <= a) /\
  sets_i param_set_pop_size i_POP_SIZE (fun a : Z => 1 <= a) /\
  sets_i param_set_teletransportation i_TELETRANSPORTATION (fun a : Z => 1 <= a) /\
  sets_i param_set_theta_del i_THETA_DEL (fun a : Z => 0 <= a) /\
  sets_i param_set_m_probation i_M_PROBATION (fun a : Z => 0 <= a) /\
  sets_i param_set_theta_sub i_THETA_SUB (fun a : Z => 0 <= a) /\
  sets_i param_set_x_dim i_X_DIM (fun a : Z => 1 <= a) /\
  sets_i param_set_y_dim i_Y_DIM (fun a : Z => 1 <= a) /\
  sets_i param_set_n_actions i_N_ACTIONS (fun a : Z => 1 <= a) /\
  sets_i ea_param_set_lambda i_EA_LAMBDA (fun a : Z => 2 <= a).
Proof. exact @int_setters_ok. Qed.
Print Assumptions C36_int.

(** Setters of doubles, for all doubles except NaN (infinities and signed zeros included): [in01] is
    the closed interval from 0 to 1, [from0] zero or more, infinity included. *)
Theorem C36_double :
  sets_d param_set_huber_delta d_HUBER_DELTA from0 /\
  sets_d param_set_gamma d_GAMMA in01 /\
  sets_d param_set_p_explore d_P_EXPLORE in01 /\
  sets_d param_set_alpha d_ALPHA in01 /\
  sets_d param_set_beta d_BETA in01 /\
  sets_d param_set_delta d_DELTA in01 /\
  sets_d param_set_e0 d_E0 from0 /\
  sets_d param_set_init_error d_INIT_ERROR from0 /\
  sets_d param_set_init_fitness d_INIT_FITNESS from0 /\
  sets_d param_set_nu d_NU from0 /\
  sets_d ea_param_set_select_size d_EA_SELECT_SIZE in01 /\
  sets_d ea_param_set_theta d_EA_THETA from0 /\
  sets_d ea_param_set_p_crossover d_EA_P_CROSSOVER in01 /\
  sets_d ea_param_set_err_reduc d_EA_ERR_REDUC in01 /\ sets_d ea_param_set_fit_reduc d_EA_FIT_REDUC in01.
Proof. exact @double_setters_ok. Qed.
Print Assumptions C36_double.

(** REFUTED for NaN: every setter of a double accepts and stores it, because the comparisons a < 0
    and a > 1 are false. *)
Theorem C36_nan_refuted :
  forall x : sys,
  param_set_huber_delta x fnan = (true, put_d x d_HUBER_DELTA fnan) /\
  param_set_gamma x fnan = (true, put_d x d_GAMMA fnan) /\
  param_set_p_explore x fnan = (true, put_d x d_P_EXPLORE fnan) /\
  param_set_alpha x fnan = (true, put_d x d_ALPHA fnan) /\
  param_set_beta x fnan = (true, put_d x d_BETA fnan) /\
  param_set_delta x fnan = (true, put_d x d_DELTA fnan) /\
  param_set_e0 x fnan = (true, put_d x d_E0 fnan) /\
  param_set_init_error x fnan = (true, put_d x d_INIT_ERROR fnan) /\
  param_set_init_fitness x fnan = (true, put_d x d_INIT_FITNESS fnan) /\
  param_set_nu x fnan = (true, put_d x d_NU fnan) /\
  ea_param_set_select_size x fnan = (true, put_d x d_EA_SELECT_SIZE fnan) /\
  ea_param_set_theta x fnan = (true, put_d x d_EA_THETA fnan) /\
  ea_param_set_p_crossover x fnan = (true, put_d x d_EA_P_CROSSOVER fnan) /\
  ea_param_set_err_reduc x fnan = (true, put_d x d_EA_ERR_REDUC fnan) /\
  ea_param_set_fit_reduc x fnan = (true, put_d x d_EA_FIT_REDUC fnan).
Proof. exact @nan_accepted. Qed.
Print Assumptions C36_nan_refuted.

(** Setters of flags. *)
Theorem C36_bool :
  sets_b param_set_pop_init b_POP_INIT /\
  sets_b param_set_stateful b_STATEFUL /\
  sets_b param_set_compaction b_COMPACTION /\
  sets_b param_set_set_subsumption b_SET_SUBSUMPTION /\
  sets_b param_set_explore b_EXPLORE /\
  sets_b ea_param_set_subsumption b_EA_SUBSUMPTION /\ sets_b ea_param_set_pred_reset b_EA_PRED_RESET.
Proof. exact @bool_setters_ok. Qed.
Print Assumptions C36_bool.

(** The loss function: a code outside 0..6 ends the process; otherwise the code and the function
    called are changed together, and nothing else is. *)
Theorem C36_loss :
  forall (x : sys) (a : Z),
  0 <= a < 7 /\ param_set_loss_func x a = Ok (with_loss x a) \/
  ~ 0 <= a < 7 /\ param_set_loss_func x a = Exit.
Proof. exact @loss_setter_ok. Qed.
Print Assumptions C36_loss.

(** The loss function by name. *)
Theorem C36_loss_name :
  forall (x : sys) (s : string) (rest : list ascii),
  plain s ->
  (exists c : Z,
     In (c, s) loss_names /\ param_set_loss_func_string x (arr s rest) = Ok (true, with_loss x c)) \/
  ~ In s (map snd loss_names) /\ param_set_loss_func_string x (arr s rest) = Ok (false, x).
Proof. exact @loss_name_setter_ok. Qed.
Print Assumptions C36_loss_name.

(** Parent selection by code. *)
Theorem C36_ea_select :
  forall (x : sys) (a : Z),
  0 <= a <= 1 /\ ea_param_set_select_type x a = (a, put_i x i_EA_SELECT_TYPE a) \/
  ~ 0 <= a <= 1 /\ ea_param_set_select_type x a = (-1, x).
Proof. exact @ea_select_setter_ok. Qed.
Print Assumptions C36_ea_select.

(** The types of selection, condition, prediction and action by name: [sets_name] stores the code of
    a name of the table, and otherwise reports -1 and leaves the system unchanged. *)
Theorem C36_type_names :
  sets_name ea_param_set_type_string i_EA_SELECT_TYPE ea_names /\
  sets_name cond_param_set_type_string i_COND_TYPE cond_names /\
  sets_name pred_param_set_type_string i_PRED_TYPE pred_names /\
  sets_name action_param_set_type_string i_ACT_TYPE act_names.
Proof. exact @name_setters_ok. Qed.
Print Assumptions C36_type_names.

(** Setters of the condition, prediction, action, DGP and GP integers report nothing: they store the
    nearest value in the range and change nothing else. *)
Theorem C36_clamped_int :
  puts_i cond_param_set_bits i_COND_BITS (Z.max 1) /\
  puts_i cond_param_set_type i_COND_TYPE (Z.max 0) /\
  puts_i pred_param_set_type i_PRED_TYPE (Z.max 0) /\
  puts_i action_param_set_type i_ACT_TYPE (Z.max 0) /\
  puts_i graph_param_set_max_k i_DGP_MAX_K (Z.max 1) /\
  puts_i graph_param_set_max_t i_DGP_MAX_T (Z.max 1) /\
  puts_i graph_param_set_n i_DGP_N (Z.max 1) /\
  puts_i graph_param_set_n_inputs i_DGP_N_INPUTS (Z.max 1) /\
  puts_i tree_param_set_n_inputs i_GP_N_INPUTS (Z.max 1) /\
  puts_i tree_param_set_n_constants i_GP_N_CONSTANTS (Z.max 1) /\
  puts_i tree_param_set_init_depth i_GP_INIT_DEPTH (Z.max 1) /\
  puts_i tree_param_set_max_len i_GP_MAX_LEN (Z.max 1).
Proof. exact @clamped_int_setters_ok. Qed.
Print Assumptions C36_clamped_int.

(** Setters of the condition and prediction doubles report nothing: [into01 a v] says v is in [0,1]
    unless a is NaN, and v is a when a is in [0,1] or NaN. *)
Theorem C36_clamped_double :
  puts_d cond_param_set_eta d_COND_ETA into01 /\
  puts_d cond_param_set_p_dontcare d_COND_P_DONTCARE into01 /\
  puts_d cond_param_set_spread_min d_COND_SPREAD_MIN into0 /\
  puts_d pred_param_set_eta d_PRED_ETA into01 /\ puts_d pred_param_set_eta_min d_PRED_ETA_MIN into01.
Proof. exact @clamped_double_setters_ok. Qed.
Print Assumptions C36_clamped_double.

(** Setters without a documented range. *)
Theorem C36_unrestricted :
  puts_d cond_param_set_min d_COND_MIN (fun a v : f64 => v = a) /\
  puts_d cond_param_set_max d_COND_MAX (fun a v : f64 => v = a) /\
  puts_d pred_param_set_lambda d_PRED_LAMBDA (fun a v : f64 => v = a) /\
  puts_d pred_param_set_scale_factor d_PRED_SCALE_FACTOR (fun a v : f64 => v = a) /\
  puts_d pred_param_set_x0 d_PRED_X0 (fun a v : f64 => v = a) /\
  puts_d tree_param_set_max d_GP_MAX (fun a v : f64 => v = a) /\
  puts_d tree_param_set_min d_GP_MIN (fun a v : f64 => v = a) /\
  puts_b pred_param_set_evolve_eta b_PRED_EVOLVE_ETA /\
  puts_b graph_param_set_evolve_cycles b_DGP_EVOLVE_CYCLES.
Proof. exact @free_setters_ok. Qed.
Print Assumptions C36_unrestricted.

(** REFUTED for the clamped parameters: an invalid value changes the system and no error is
    reported. *)
Theorem C36_clamped_refuted :
  exists (x : sys) (a : f64),
    is_nan a = false /\
    ~ in01 a /\ dbls (cond_param_set_eta x a) d_COND_ETA = Some f1 /\ dbls x d_COND_ETA = Some f0.
Proof. exact @clamp_silent. Qed.
Print Assumptions C36_clamped_refuted.

(** REFUTED for the type codes: a code that names no condition is stored without a report. *)
Theorem C36_type_refuted :
  forall x : sys, ints (cond_param_set_type x 8) i_COND_TYPE = Some 8 /\ condition_type_as_string 8 = Exit.
Proof. exact @type_unchecked. Qed.
Print Assumptions C36_type_refuted.

(** The population file name: names of up to 512 characters are stored with their terminator. *)
Theorem C36_file :
  forall (x : sys) (s : string) (rest : list ascii),
  plain s ->
  (length s <= MAX_LEN)%nat ->
  param_set_population_file x (arr s rest) = Ok (true, with_file x (arr s [])).
Proof. exact @file_setter_ok. Qed.
Print Assumptions C36_file.

(** REFUTED for longer names: what is stored has no terminator, so any later use of it as a string
    reads outside its allocation. *)
Theorem C36_file_refuted :
  forall (x : sys) (s : string) (rest : list ascii),
  plain s ->
  (MAX_LEN < length s)%nat ->
  exists f : list ascii, param_set_population_file x (arr s rest) = Ok (true, with_file x f) /\ ~ In nul f.
Proof. exact @file_setter_long. Qed.
Print Assumptions C36_file_refuted.

(** A system whose parameters have all been set. *)
Definition C36_sys : sys := mkSys (fun _ => Some 3) (fun _ => Some f1) (fun _ => Some true) (arr "file" []) (Some 3) (Some 7).
Example C36_example :
  fst (param_set_omp_num_threads C36_sys 1000) = true /\ ints (snd (param_set_omp_num_threads C36_sys 1000)) i_OMP_NUM_THREADS = Some 1000 /\
  param_set_omp_num_threads C36_sys 1001 = (false, C36_sys) /\
  param_set_pop_size C36_sys 0 = (false, C36_sys) /\ param_set_pop_size C36_sys (-2147483648) = (false, C36_sys) /\
  fst (param_set_beta C36_sys (lit 1 5)) = true /\ param_set_beta C36_sys (lit 6 5) = (false, C36_sys) /\
  fst (param_set_beta C36_sys f1) = true /\ fst (param_set_beta C36_sys (B754_zero true)) = true /\
  param_set_beta C36_sys (B754_infinity false) = (false, C36_sys) /\ param_set_e0 C36_sys (B754_infinity true) = (false, C36_sys) /\
  fst (param_set_e0 C36_sys (B754_infinity false)) = true /\ fst (param_set_e0 C36_sys fnan) = true /\
  ints (cond_param_set_bits C36_sys (-4)) i_COND_BITS = Some 1 /\
  ea_param_set_select_type C36_sys 2 = (-1, C36_sys) /\
  (exists y, param_set_loss_func_string C36_sys (arr "huber" []) = Ok (true, y) /\ ints y i_LOSS_FUNC = Some 6 /\ loss_code y = Some 6).
Proof.
  assert (E : flt (lit 6 5) f0 || fgt (lit 6 5) f1 = true) by (vm_compute; reflexivity).
  assert (G : flt (lit 1 5) f0 || fgt (lit 1 5) f1 = false) by (vm_compute; reflexivity).
  repeat apply conj; try (eexists; repeat split; fail); unfold param_set_beta; rewrite ?G, ?E; reflexivity.
Qed.
