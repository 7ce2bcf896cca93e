(** * Parameters as JSON: /repo/xcsf/param.c, with the functions it calls in ea.c, action.c,
    condition.c, prediction.c, cond_ternary.c, gp.c, dgp.c, pred_nlms.c, pred_rls.c and
    neural_layer_args.c; the use made of it in pybind_wrapper.cpp.

    A document is the tree that cJSON_Parse builds from the text that cJSON_Print writes (Json.v).
    The library, which is not part of the pinned source, writes a number that is not finite as null
    and all others such that reading gives the same double; valueint is the double converted to
    int, with saturation.  C strings are the characters before the terminator.  Seeding the
    generator is recorded in the parameters (Param.v); what is drawn afterwards is whatever the
    generator of this model holds.  Error messages are left out: [Exit]. *)
From Coq Require Import ZArith Bool List String Ascii DecimalString.
From Flocq Require Import Core BinarySingleNaN.
From Verif Require Import Outcome F64 Rng Arr Names Param Json Clock Dgp Layer Net Recur.
Import ListNotations.
Open Scope Z_scope.

(** ** Documents *)

(** cJSON.c parse_number: valueint. *)
Definition saturated (v : f64) : Z :=
  if fle (of_Z int_max) v then int_max
  else if fle v (of_Z int_min) then int_min
  else match to_int v with Some z => z | None => 0 end.
(** cJSON_AddNumberToObject, printed and parsed. *)
Definition num (v : f64) : json := if is_finite v then JNum v (saturated v) else JNull.
Definition member := (string * json)%type.
(** The list starting at json->child: the names of the elements of an array are NULL. *)
Definition children (j : json) : list (option string * json) :=
  match j with
  | JObj m => map (fun p => (Some (fst p), snd p)) m
  | JArr l => map (fun v => (None, v)) l
  | _ => []
  end.
Definition key (e : option string * json) : outcome string :=
  match fst e with Some s => Ok s | None => UB NullDeref end.
(** [strncmp(s, name, n) == 0]; both end with a terminator. *)
Fixpoint same (s name : string) (n : nat) {struct n} : bool :=
  match n with
  | O => true
  | S k =>
    match s, name with
    | EmptyString, EmptyString => true
    | String x s', String y n' => if Ascii.eqb x y then (if Ascii.eqb x nul then true else same s' n' k) else false
    | String x _, EmptyString => Ascii.eqb x nul
    | EmptyString, String y _ => Ascii.eqb y nul
    end
  end.
Definition is_num (j : json) : bool := match j with JNum _ _ => true | _ => false end.
Definition is_bool (j : json) : bool := match j with JBool _ => true | _ => false end.
Definition is_str (j : json) : bool := match j with JStr _ => true | _ => false end.
Definition valueint (j : json) : Z := match j with JNum _ i => i | JBool true => 1 | _ => 0 end.
(** [true ? json->type == cJSON_True : false] *)
Definition is_true (j : json) : bool := match j with JBool b => b | _ => false end.
(** valuestring, with its terminator. *)
Definition valuestring (j : json) : list ascii := match j with JStr s => chars s ++ [nul] | _ => [] end.
(** The characters of an array up to the terminator. *)
Fixpoint cstring (l : list ascii) : outcome string :=
  match l with
  | [] => UB OutOfBounds
  | c :: r => if Ascii.eqb c nul then Ok EmptyString else (s <- cstring r ;; Ok (String c s))%out
  end.

(** ** The parameters: those of Param.v, the lists of layer parameters (neural_layer_args.h) with
    recurrent_function, and the constants of GP trees. *)
Definition larg2 := (largs * Z)%type.
Record params := mkParams { p_sys : sys; p_act : list larg2; p_cond : list larg2; p_pred : list larg2; p_consts : list f64 }.
Definition with_sys (p : params) (x : sys) : params := mkParams x (p_act p) (p_cond p) (p_pred p) (p_consts p).
Definition with_act (p : params) (l : list larg2) : params := mkParams (p_sys p) l (p_cond p) (p_pred p) (p_consts p).
Definition with_cond (p : params) (l : list larg2) : params := mkParams (p_sys p) (p_act p) l (p_pred p) (p_consts p).
Definition with_pred (p : params) (l : list larg2) : params := mkParams (p_sys p) (p_act p) (p_cond p) l (p_consts p).
Definition with_consts (p : params) (l : list f64) : params := mkParams (p_sys p) (p_act p) (p_cond p) (p_pred p) l.

Definition geti (x : sys) (p : ipar) : outcome Z := match ints x p with Some v => Ok v | None => UB Uninit end.
Definition getd (x : sys) (p : dpar) : outcome f64 := match dbls x p with Some v => Ok v | None => UB Uninit end.
Definition getb (x : sys) (p : bpar) : outcome bool := match bools x p with Some v => Ok v | None => UB Uninit end.

(** neural_layer_args.c:41-70 layer_args_init *)
Definition layer_args_init : larg2 :=
  (mkLargs CONNECTED 0 0 0 0 0 0 0 0 0 0 0 f0 f0 f0 f0 f0 f0 false false false false false false, 0).
(** gp.c:539-548 tree_args_init_constants *)
Definition tree_constants (x : sys) : RM (list f64) :=
  (n <- lift (geti x i_GP_N_CONSTANTS) ;; lo <- lift (getd x d_GP_MIN) ;; hi <- lift (getd x d_GP_MAX) ;;
   rtab (Z.to_nat n) (rand_uniform lo hi))%rng.
(** cond_neural.c:382-404, act_neural.c:269-296, pred_neural.c:430-457: default layers.  ([grow] 1,
    n_max 100, hidden layer logistic.) *)
Definition hidden (xd n : Z) (eta mom : f64) (e s : bool) : largs :=
  mkLargs CONNECTED xd n 100 1 0 0 0 0 0 0 0 eta f0 mom f0 f0 f0 true true false e true s.
Definition cond_layers (xd : Z) : list larg2 :=
  [(hidden xd 10 f0 f0 false false, 0);
   (mkLargs CONNECTED 10 10 1 1 3 0 0 0 0 0 0 f0 f0 f0 f0 f0 f0 true false false false true false, 0)].
Definition act_layers (xd na : Z) : list larg2 :=
  [(hidden xd 1 f0 f0 false false, 0);
   (mkLargs CONNECTED 1 na na 1 3 0 0 0 0 0 0 f0 f0 f0 f0 f0 f0 true false false false true false, 0);
   (mkLargs SOFTMAX na na na 1 3 0 0 0 0 0 0 f0 f0 f0 f0 f0 f1 true false false false true false, 0)].
Definition pred_layers (xd yd : Z) : list larg2 :=
  [(hidden xd 10 (dec 1 2) (dec 9 1) true true, 0);
   (mkLargs CONNECTED 10 yd yd 1 0 0 0 0 0 0 0 (dec 1 2) f0 (dec 9 1) f0 f0 f0 true false false true true true, 0)].
(** param.c:45-90 param_init, with what Param.v leaves out. *)
Definition params_init (x : sys) (xd yd na : Z) : RM params :=
  (x <- lift (param_init x xd yd na) ;;
   xd <- lift (geti x i_X_DIM) ;; yd <- lift (geti x i_Y_DIM) ;; na <- lift (geti x i_N_ACTIONS) ;;
   c <- tree_constants x ;;
   ret (mkParams x (act_layers xd na) (cond_layers xd) (pred_layers xd yd) c))%rng.

(** ** Export *)
Definition fi (name : string) (x : sys) (p : ipar) : outcome (list member) := (v <- geti x p ;; Ok [(name, num (of_Z v))])%out.
Definition fd (name : string) (x : sys) (p : dpar) : outcome (list member) := (v <- getd x p ;; Ok [(name, num v)])%out.
Definition fb (name : string) (x : sys) (p : bpar) : outcome (list member) := (v <- getb x p ;; Ok [(name, JBool v)])%out.
(** cJSON_AddStringToObject *)
Definition fs (name : string) (s : outcome (list ascii)) : outcome (list member) := (a <- s ;; t <- cstring a ;; Ok [(name, JStr t)])%out.
Definition when (b : bool) (o : outcome (list member)) : outcome (list member) := if b then o else Ok [].
Fixpoint cat (l : list (outcome (list member))) : outcome (list member) :=
  match l with
  | [] => Ok []
  | o :: r => (a <- o ;; b <- cat r ;; Ok (a ++ b))%out
  end.

(** param.c:115-157 *)
Definition general_json (x : sys) : outcome (list member) :=
  (loss <- geti x i_LOSS_FUNC ;; na <- geti x i_N_ACTIONS ;;
   cat [Ok [("version"%string, JStr "1.4.7")]; fi "x_dim" x i_X_DIM; fi "y_dim" x i_Y_DIM; fi "n_actions" x i_N_ACTIONS;
        fi "omp_num_threads" x i_OMP_NUM_THREADS; fi "random_state" x i_RANDOM_STATE;
        fs "population_file" (Ok (file x)); fb "pop_init" x b_POP_INIT;
        fi "max_trials" x i_MAX_TRIALS; fi "perf_trials" x i_PERF_TRIALS; fi "pop_size" x i_POP_SIZE;
        fs "loss_func" (loss_type_as_string loss); when (loss =? 6) (fd "huber_delta" x d_HUBER_DELTA);
        when (1 <? na) (cat [fd "gamma" x d_GAMMA; fi "teletransportation" x i_TELETRANSPORTATION; fd "p_explore" x d_P_EXPLORE]);
        fb "set_subsumption" x b_SET_SUBSUMPTION; fi "theta_sub" x i_THETA_SUB; fd "e0" x d_E0; fd "alpha" x d_ALPHA; fd "nu" x d_NU;
        fd "beta" x d_BETA; fd "delta" x d_DELTA; fi "theta_del" x i_THETA_DEL; fd "init_fitness" x d_INIT_FITNESS;
        fd "init_error" x d_INIT_ERROR; fi "m_probation" x i_M_PROBATION; fb "stateful" x b_STATEFUL; fb "compaction" x b_COMPACTION])%out.
(** ea.c:255-274 *)
Definition ea_json (x : sys) : outcome (list member) :=
  (t <- geti x i_EA_SELECT_TYPE ;;
   cat [fs "select_type" (ea_type_as_string t); when (t =? 1) (fd "select_size" x d_EA_SELECT_SIZE); fd "theta_ea" x d_EA_THETA;
        fi "lambda" x i_EA_LAMBDA; fd "p_crossover" x d_EA_P_CROSSOVER; fd "err_reduc" x d_EA_ERR_REDUC; fd "fit_reduc" x d_EA_FIT_REDUC;
        fb "subsumption" x b_EA_SUBSUMPTION; fb "pred_reset" x b_EA_PRED_RESET])%out.

(** neural_layer.c:520-532 *)
Definition receives_images (t : Z) : bool := (t =? AVGPOOL) || (t =? MAXPOOL) || (t =? UPSAMPLE) || (t =? CONVOLUTIONAL).
Definition zi (name : string) (z : Z) : list member := [(name, num (of_Z z))].
Definition zpos (name : string) (z : Z) : list member := if 0 <? z then zi name z else [].
(** neural_layer_args.c:282-303 *)
Definition silent (t : Z) : bool := (t =? AVGPOOL) || (t =? MAXPOOL) || (t =? UPSAMPLE) || (t =? DROPOUT) || (t =? NOISE) || (t =? SOFTMAX).
Definition activation_json (a : larg2) : outcome (list member) :=
  let t := la_type (fst a) in
  when (negb (silent t)) (cat [fs "activation" (neural_activation_string (la_function (fst a)));
                               when (t =? LSTM) (fs "recurrent_activation" (neural_activation_string (snd a)))]).
(** neural_layer_args.c:114-138 *)
Definition inputs_json (a : largs) : list member :=
  if receives_images (la_type a)
  then zpos "height" (la_height a) ++ zpos "width" (la_width a) ++ zpos "channels" (la_channels a) ++
       zpos "size" (la_size a) ++ zpos "stride" (la_stride a) ++ zpos "pad" (la_pad a)
  else zi "n_inputs" (la_n_inputs a).
(** neural_layer_args.c:332-348 *)
Definition scale_json (a : largs) : list member :=
  let t := la_type a in
  (if (t =? NOISE) || (t =? DROPOUT) then [("probability"%string, num (la_probability a))] else []) ++
  (if (t =? NOISE) || (t =? SOFTMAX) then [("scale"%string, num (la_scale a))] else []).
Definition scale_cont (t : Z) : bool := (t =? NOISE) || (t =? DROPOUT) || (t =? SOFTMAX) || (t =? MAXPOOL).
(** neural_layer_args.c:231-242 *)
Definition evo_json (a : largs) : list member :=
  [("evolve_weights"%string, JBool (la_evolve_weights a)); ("evolve_functions"%string, JBool (la_evolve_functions a));
   ("evolve_connect"%string, JBool (la_evolve_connect a)); ("evolve_neurons"%string, JBool (la_evolve_neurons a))] ++
  (if la_evolve_neurons a then zi "n_max" (la_n_max a) ++ zi "max_neuron_grow" (la_grow a) else []).
(** neural_layer_args.c:180-193 *)
Definition sgd_json (a : largs) : list member :=
  [("sgd_weights"%string, JBool (la_sgd_weights a))] ++
  (if la_sgd_weights a
   then [("eta"%string, num (la_eta a)); ("evolve_eta"%string, JBool (la_evolve_eta a))] ++
        (if la_evolve_eta a then [("eta_min"%string, num (la_eta_min a))] else []) ++
        [("momentum"%string, num (la_momentum a)); ("decay"%string, num (la_decay a))]
   else []).
(** neural_layer_args.c:384-403: one layer. *)
Definition layer_json (a : larg2) : outcome json :=
  let t := la_type (fst a) in
  (h <- fs "type" (layer_type_as_string t) ;;
   f <- activation_json a ;;
   Ok (JObj (h ++ f ++ inputs_json (fst a) ++ scale_json (fst a) ++
             (if scale_cont t then [] else zpos "n_init" (la_n_init (fst a)) ++ evo_json (fst a) ++ sgd_json (fst a)))))%out.
Fixpoint layers_json (i : nat) (l : list larg2) : outcome (list member) :=
  match l with
  | [] => Ok []
  | a :: r =>
    (j <- layer_json a ;; js <- layers_json (S i) r ;;
     Ok ((("layer_" ++ NilZero.string_of_uint (Nat.to_uint i))%string, j) :: js))%out
  end.

Section Export.
Context (lm : libm).
(** layer_init for all types of layers; the layer as the code that made it sees it. *)
Definition any_init (a : larg2) : RM (layer f64) :=
  if la_type (fst a) =? RECURRENT then (r <- recurrent_init lm (fst a) ;; ret (r_l r))%rng
  else if la_type (fst a) =? LSTM then (m <- lstm_init lm (fst a) (snd a) ;; ret (m_l m))%rng
  else layer_init lm (fst a).
(** neural.c:53-86 neural_create as far as the parameters are concerned: it writes the number of
    inputs of every layer but the first into them.  The network is freed again. *)
Fixpoint parse_from (prev : option (layer f64)) (args : list larg2) : RM (list larg2 * list (layer f64)) :=
  match args with
  | [] => ret ([], [])
  | a :: r =>
    (let a' := (pass_args prev (fst a), snd a) in
     l <- any_init a' ;; ' (rs, ls) <- parse_from (Some l) r ;; ret (a' :: rs, l :: ls))%rng
  end.
Definition parse_inputs (args : list larg2) : RM (list larg2) :=
  (' (rs, ls) <- parse_from None args ;;
   let n := of_layers ls in
   if (Z.of_nat (List.length ls) <? 1) || (nn_outputs n <? 1) || (nn_inputs n <? 1) then rexit else ret rs)%rng.
(** neural_layer_args.c:376-407 layer_args_json_export: also the parameters afterwards. *)
Definition layer_args_json_export (args : list larg2) : RM (json * list larg2) :=
  (rs <- parse_inputs args ;; m <- lift (layers_json 0 rs) ;; ret (JObj m, rs))%rng.

Definition rule_type (t : Z) : bool := (t =? 11) || (t =? 12) || (t =? 13).
(** action.c:102-122 *)
Definition action_json (p : params) : RM (json * params) :=
  (t <- lift (geti (p_sys p) i_ACT_TYPE) ;;
   h <- lift (fs "type" (action_type_as_string t)) ;;
   if t =? 1 then ' (j, l) <- layer_args_json_export (p_act p) ;; ret (JObj (h ++ [("args"%string, j)]), with_act p l)
   else ret (JObj h, p))%rng.
(** condition.c:184-196, cond_ternary.c:386-396, gp.c:448-460, dgp.c:638-649 *)
Definition csr_json (x : sys) : outcome (list member) :=
  cat [fd "eta" x d_COND_ETA; fd "min" x d_COND_MIN; fd "max" x d_COND_MAX; fd "spread_min" x d_COND_SPREAD_MIN].
Definition ternary_json (x : sys) : outcome (list member) := cat [fd "p_dontcare" x d_COND_P_DONTCARE; fi "bits" x i_COND_BITS].
Definition gp_json (x : sys) : outcome (list member) :=
  cat [fd "min_constant" x d_GP_MIN; fd "max_constant" x d_GP_MAX; fi "n_constants" x i_GP_N_CONSTANTS;
       fi "init_depth" x i_GP_INIT_DEPTH; fi "max_len" x i_GP_MAX_LEN].
Definition dgp_json (x : sys) : outcome (list member) :=
  cat [fi "max_k" x i_DGP_MAX_K; fi "max_t" x i_DGP_MAX_T; fi "n" x i_DGP_N; fb "evolve_cycles" x b_DGP_EVOLVE_CYCLES].
(** condition.c:231-272 *)
Definition cond_json (p : params) : RM (json * params) :=
  (let x := p_sys p in
   t <- lift (geti x i_COND_TYPE) ;;
   h <- lift (fs "type" (condition_type_as_string t)) ;;
   let plain (o : outcome (list member)) : RM (json * params) := m <- lift o ;; ret (JObj (h ++ [("args"%string, JObj m)]), p) in
   if t =? 7 then plain (ternary_json x)
   else if (t =? 3) || (t =? 1) || (t =? 2) then plain (csr_json x)
   else if t =? 5 then plain (gp_json x)
   else if (t =? 6) || (t =? 11) then plain (dgp_json x)
   else if (t =? 4) || (t =? 12) || (t =? 13) then
     ' (j, l) <- layer_args_json_export (p_cond p) ;; ret (JObj (h ++ [("args"%string, j)]), with_cond p l)
   else ret (JObj h, p))%rng.
(** pred_nlms.c:318-332, pred_rls.c:322-332 *)
Definition nlms_json (x : sys) : outcome (list member) :=
  (e <- getb x b_PRED_EVOLVE_ETA ;;
   cat [fd "x0" x d_PRED_X0; fd "eta" x d_PRED_ETA; fb "evolve_eta" x b_PRED_EVOLVE_ETA; when e (fd "eta_min" x d_PRED_ETA_MIN)])%out.
Definition rls_json (x : sys) : outcome (list member) :=
  cat [fd "x0" x d_PRED_X0; fd "lambda" x d_PRED_LAMBDA; fd "scale_factor" x d_PRED_SCALE_FACTOR].
(** prediction.c:137-170 *)
Definition pred_json (p : params) : RM (json * params) :=
  (let x := p_sys p in
   t <- lift (geti x i_PRED_TYPE) ;;
   h <- lift (fs "type" (prediction_type_as_string t)) ;;
   let plain (o : outcome (list member)) : RM (json * params) := m <- lift o ;; ret (JObj (h ++ [("args"%string, JObj m)]), p) in
   if (t =? 1) || (t =? 2) then plain (nlms_json x)
   else if (t =? 3) || (t =? 4) then plain (rls_json x)
   else if t =? 5 then ' (j, l) <- layer_args_json_export (p_pred p) ;; ret (JObj (h ++ [("args"%string, j)]), with_pred p l)
   else ret (JObj h, p))%rng.
(** param.c:112-184 param_json_export: the document, and the parameters afterwards. *)
Definition param_json_export (p : params) : RM (json * params) :=
  (let x := p_sys p in
   g <- lift (general_json x) ;;
   e <- lift (ea_json x) ;;
   ct <- lift (geti x i_COND_TYPE) ;;
   na <- lift (geti x i_N_ACTIONS) ;;
   ' (a, p) <- (if negb (rule_type ct) && (1 <? na)
                then ' (j, p) <- action_json p ;; ret ([("action"%string, j)], p) else ret ([], p)) ;;
   ' (c, p) <- cond_json p ;;
   ' (r, p) <- pred_json p ;;
   ret (JObj (g ++ [("ea"%string, JObj e)] ++ a ++ [("condition"%string, c)] ++ [("prediction"%string, r)]), p))%rng.
End Export.

(** ** Import *)

(** utils.h:133-140 catch_error *)
Definition catch_error (r : bool * sys) : outcome (option sys) := if fst r then Ok (Some (snd r)) else Exit.
Definition found (x : sys) : outcome (option sys) := Ok (Some x).

(** param.c:192-244; [None]: not found. *)
Definition import_general (x : sys) (s : string) (j : json) : outcome (option sys) :=
  if same s "version" 8 then found x
  else if same s "x_dim" 6 && is_num j then catch_error (param_set_x_dim x (valueint j))
  else if same s "y_dim" 6 && is_num j then catch_error (param_set_y_dim x (valueint j))
  else if same s "n_actions" 10 && is_num j then catch_error (param_set_n_actions x (valueint j))
  else if same s "omp_num_threads" 16 && is_num j then catch_error (param_set_omp_num_threads x (valueint j))
  else if same s "random_state" 13 && is_num j then catch_error (param_set_random_state x (valueint j))
  else if same s "population_file" 16 && is_str j then (r <- param_set_population_file x (valuestring j) ;; catch_error r)%out
  else if same s "pop_size" 9 && is_num j then catch_error (param_set_pop_size x (valueint j))
  else if same s "max_trials" 11 && is_num j then catch_error (param_set_max_trials x (valueint j))
  else if same s "pop_init" 9 && is_bool j then catch_error (param_set_pop_init x (is_true j))
  else if same s "perf_trials" 12 && is_num j then catch_error (param_set_perf_trials x (valueint j))
  else if same s "loss_func" 10 && is_str j then (r <- param_set_loss_func_string x (valuestring j) ;; catch_error r)%out
  else if same s "huber_delta" 12 && is_num j then catch_error (param_set_huber_delta x (valuedouble j))
  else Ok None.
(** param.c:252-269 *)
Definition import_multi (x : sys) (s : string) (j : json) : outcome (option sys) :=
  if same s "teletransportation" 19 && is_num j then catch_error (param_set_teletransportation x (valueint j))
  else if same s "gamma" 6 && is_num j then catch_error (param_set_gamma x (valuedouble j))
  else if same s "p_explore" 10 && is_num j then catch_error (param_set_p_explore x (valuedouble j))
  else Ok None.
(** param.c:277-293 *)
Definition import_subsump (x : sys) (s : string) (j : json) : outcome (option sys) :=
  if same s "set_subsumption" 16 && is_bool j then catch_error (param_set_set_subsumption x (is_true j))
  else if same s "theta_sub" 10 && is_num j then catch_error (param_set_theta_sub x (valueint j))
  else Ok None.
(** param.c:300-340 *)
Definition import_cl_general (x : sys) (s : string) (j : json) : outcome (option sys) :=
  if same s "alpha" 6 && is_num j then catch_error (param_set_alpha x (valuedouble j))
  else if same s "beta" 5 && is_num j then catch_error (param_set_beta x (valuedouble j))
  else if same s "delta" 6 && is_num j then catch_error (param_set_delta x (valuedouble j))
  else if same s "nu" 3 && is_num j then catch_error (param_set_nu x (valuedouble j))
  else if same s "theta_del" 10 && is_num j then catch_error (param_set_theta_del x (valueint j))
  else if same s "init_fitness" 13 && is_num j then catch_error (param_set_init_fitness x (valuedouble j))
  else if same s "init_error" 11 && is_num j then catch_error (param_set_init_error x (valuedouble j))
  else if same s "e0" 3 && is_num j then catch_error (param_set_e0 x (valuedouble j))
  else if same s "m_probation" 12 && is_num j then catch_error (param_set_m_probation x (valueint j))
  else if same s "stateful" 9 && is_bool j then catch_error (param_set_stateful x (is_true j))
  else if same s "compaction" 11 && is_bool j then catch_error (param_set_compaction x (is_true j))
  else Ok None.

(** Loops over a list of members, each given to [f]. *)
Fixpoint over {X} (f : X -> string -> json -> outcome X) (x : X) (l : list (option string * json)) : outcome X :=
  match l with
  | [] => Ok x
  | e :: r => (s <- key e ;; y <- f x s (snd e) ;; over f y r)%out
  end.
(** A member that is not found ends the import. *)
Definition need_found {X} (o : outcome (option X)) : outcome X := (r <- o ;; match r with Some x => Ok x | None => Exit end)%out.

(** ea.c:281-326 *)
Definition ea_import (x : sys) (s : string) (j : json) : outcome sys :=
  need_found
  (if same s "select_type" 12 && is_str j then
     (r <- ea_param_set_type_string x (valuestring j) ;; if fst r =? -1 then Exit else found (snd r))%out
   else if same s "select_size" 12 && is_num j then catch_error (ea_param_set_select_size x (valuedouble j))
   else if same s "theta_ea" 9 && is_num j then catch_error (ea_param_set_theta x (valuedouble j))
   else if same s "lambda" 7 && is_num j then catch_error (ea_param_set_lambda x (valueint j))
   else if same s "p_crossover" 12 && is_num j then catch_error (ea_param_set_p_crossover x (valuedouble j))
   else if same s "err_reduc" 10 && is_num j then catch_error (ea_param_set_err_reduc x (valuedouble j))
   else if same s "fit_reduc" 10 && is_num j then catch_error (ea_param_set_fit_reduc x (valuedouble j))
   else if same s "subsumption" 12 && is_bool j then catch_error (ea_param_set_subsumption x (is_true j))
   else if same s "pred_reset" 11 && is_bool j then catch_error (ea_param_set_pred_reset x (is_true j))
   else Ok None).

(** *** Layer parameters *)
Definition la_ints (a : largs) (n_init n_max grow height width channels size stride pad : Z) : largs :=
  mkLargs (la_type a) (la_n_inputs a) n_init n_max grow (la_function a) height width channels size stride pad
    (la_eta a) (la_eta_min a) (la_momentum a) (la_decay a) (la_probability a) (la_scale a)
    (la_evolve_weights a) (la_evolve_neurons a) (la_evolve_functions a) (la_evolve_eta a) (la_evolve_connect a) (la_sgd_weights a).
Definition la_dbls (a : largs) (eta eta_min momentum decay probability scale : f64) : largs :=
  mkLargs (la_type a) (la_n_inputs a) (la_n_init a) (la_n_max a) (la_grow a) (la_function a) (la_height a) (la_width a) (la_channels a)
    (la_size a) (la_stride a) (la_pad a) eta eta_min momentum decay probability scale
    (la_evolve_weights a) (la_evolve_neurons a) (la_evolve_functions a) (la_evolve_eta a) (la_evolve_connect a) (la_sgd_weights a).
Definition la_bools (a : largs) (w n f e c s : bool) : largs :=
  mkLargs (la_type a) (la_n_inputs a) (la_n_init a) (la_n_max a) (la_grow a) (la_function a) (la_height a) (la_width a) (la_channels a)
    (la_size a) (la_stride a) (la_pad a) (la_eta a) (la_eta_min a) (la_momentum a) (la_decay a) (la_probability a) (la_scale a) w n f e c s.
Definition la_codes (a : largs) (type n_inputs function : Z) : largs :=
  mkLargs type n_inputs (la_n_init a) (la_n_max a) (la_grow a) function (la_height a) (la_width a) (la_channels a)
    (la_size a) (la_stride a) (la_pad a) (la_eta a) (la_eta_min a) (la_momentum a) (la_decay a) (la_probability a) (la_scale a)
    (la_evolve_weights a) (la_evolve_neurons a) (la_evolve_functions a) (la_evolve_eta a) (la_evolve_connect a) (la_sgd_weights a).
Section Fields.
Variable a : largs.
Definition put_height v := la_ints a (la_n_init a) (la_n_max a) (la_grow a) v (la_width a) (la_channels a) (la_size a) (la_stride a) (la_pad a).
Definition put_width v := la_ints a (la_n_init a) (la_n_max a) (la_grow a) (la_height a) v (la_channels a) (la_size a) (la_stride a) (la_pad a).
Definition put_channels v := la_ints a (la_n_init a) (la_n_max a) (la_grow a) (la_height a) (la_width a) v (la_size a) (la_stride a) (la_pad a).
Definition put_size v := la_ints a (la_n_init a) (la_n_max a) (la_grow a) (la_height a) (la_width a) (la_channels a) v (la_stride a) (la_pad a).
Definition put_stride v := la_ints a (la_n_init a) (la_n_max a) (la_grow a) (la_height a) (la_width a) (la_channels a) (la_size a) v (la_pad a).
Definition put_pad v := la_ints a (la_n_init a) (la_n_max a) (la_grow a) (la_height a) (la_width a) (la_channels a) (la_size a) (la_stride a) v.
Definition put_n_init v := la_ints a v (la_n_max a) (la_grow a) (la_height a) (la_width a) (la_channels a) (la_size a) (la_stride a) (la_pad a).
Definition put_n_max v := la_ints a (la_n_init a) v (la_grow a) (la_height a) (la_width a) (la_channels a) (la_size a) (la_stride a) (la_pad a).
Definition put_grow v := la_ints a (la_n_init a) (la_n_max a) v (la_height a) (la_width a) (la_channels a) (la_size a) (la_stride a) (la_pad a).
Definition put_eta v := la_dbls a v (la_eta_min a) (la_momentum a) (la_decay a) (la_probability a) (la_scale a).
Definition put_eta_min v := la_dbls a (la_eta a) v (la_momentum a) (la_decay a) (la_probability a) (la_scale a).
Definition put_momentum v := la_dbls a (la_eta a) (la_eta_min a) v (la_decay a) (la_probability a) (la_scale a).
Definition put_decay v := la_dbls a (la_eta a) (la_eta_min a) (la_momentum a) v (la_probability a) (la_scale a).
Definition put_probability v := la_dbls a (la_eta a) (la_eta_min a) (la_momentum a) (la_decay a) v (la_scale a).
Definition put_scale v := la_dbls a (la_eta a) (la_eta_min a) (la_momentum a) (la_decay a) (la_probability a) v.
Definition put_weights v := la_bools a v (la_evolve_neurons a) (la_evolve_functions a) (la_evolve_eta a) (la_evolve_connect a) (la_sgd_weights a).
Definition put_neurons v := la_bools a (la_evolve_weights a) v (la_evolve_functions a) (la_evolve_eta a) (la_evolve_connect a) (la_sgd_weights a).
Definition put_functions v := la_bools a (la_evolve_weights a) (la_evolve_neurons a) v (la_evolve_eta a) (la_evolve_connect a) (la_sgd_weights a).
Definition put_evolve_eta v := la_bools a (la_evolve_weights a) (la_evolve_neurons a) (la_evolve_functions a) v (la_evolve_connect a) (la_sgd_weights a).
Definition put_connect v := la_bools a (la_evolve_weights a) (la_evolve_neurons a) (la_evolve_functions a) (la_evolve_eta a) v (la_sgd_weights a).
Definition put_sgd v := la_bools a (la_evolve_weights a) (la_evolve_neurons a) (la_evolve_functions a) (la_evolve_eta a) (la_evolve_connect a) v.
Definition put_type v := la_codes a v (la_n_inputs a) (la_function a).
Definition put_n_inputs v := la_codes a (la_type a) v (la_function a).
Definition put_function v := la_codes a (la_type a) (la_n_inputs a) v.
End Fields.

(** neural_layer_args.c:414-447 with 147-173, 201-226, 250-276, 311-325, 356-369: one member; an
    unknown name ends the import (all callers exit).  n_inputs is read but not used. *)
Definition layer_import (a : larg2) (s : string) (j : json) : outcome larg2 :=
  let ok (b : largs) : outcome larg2 := Ok (b, snd a) in
  let a0 := fst a in
  if same s "type" 5 && is_str j then (t <- layer_type_as_int (valuestring j) ;; ok (put_type a0 t))%out
  else if same s "activation" 15 && is_str j then (f <- neural_activation_as_int (valuestring j) ;; ok (put_function a0 f))%out
  else if same s "recurrent_activation" 17 && is_str j then (f <- neural_activation_as_int (valuestring j) ;; Ok (a0, f))%out
  else if same s "height" 7 && is_num j then ok (put_height a0 (valueint j))
  else if same s "width" 6 && is_num j then ok (put_width a0 (valueint j))
  else if same s "channels" 9 && is_num j then ok (put_channels a0 (valueint j))
  else if same s "size" 5 && is_num j then ok (put_size a0 (valueint j))
  else if same s "stride" 7 && is_num j then ok (put_stride a0 (valueint j))
  else if same s "pad" 4 && is_num j then ok (put_pad a0 (valueint j))
  else if same s "n_inputs" 9 && is_num j then ok a0
  else if same s "probability" 15 && is_num j then ok (put_probability a0 (valuedouble j))
  else if same s "scale" 6 && is_num j then ok (put_scale a0 (valuedouble j))
  else if same s "n_init" 7 && is_num j then ok (put_n_init a0 (valueint j))
  else if same s "evolve_weights" 15 && is_bool j then ok (put_weights a0 (is_true j))
  else if same s "evolve_functions" 17 && is_bool j then ok (put_functions a0 (is_true j))
  else if same s "evolve_connect" 15 && is_bool j then ok (put_connect a0 (is_true j))
  else if same s "evolve_neurons" 15 && is_bool j then ok (put_neurons a0 (is_true j))
  else if same s "n_max" 6 && is_num j then ok (put_n_max a0 (valueint j))
  else if same s "max_neuron_grow" 16 && is_num j then ok (put_grow a0 (valueint j))
  else if same s "sgd_weights" 12 && is_bool j then ok (put_sgd a0 (is_true j))
  else if same s "eta" 4 && is_num j then ok (put_eta a0 (valuedouble j))
  else if same s "evolve_eta" 11 && is_bool j then ok (put_evolve_eta a0 (is_true j))
  else if same s "eta_min" 8 && is_num j then ok (put_eta_min a0 (valuedouble j))
  else if same s "momentum" 9 && is_num j then ok (put_momentum a0 (valuedouble j))
  else if same s "decay" 6 && is_num j then ok (put_decay a0 (valuedouble j))
  else Exit.
(** neural_layer_args.c:464-493 *)
Definition validate_inputs (a : largs) : outcome largs :=
  (a <- (if (la_type a =? DROPOUT) || (la_type a =? NOISE) then
           if la_n_inputs a <? 1
           then (n <- cint (la_channels a * la_height a) ;; n <- cint (n * la_width a) ;; Ok (put_n_inputs a n))
           else if (la_channels a <? 1) || (la_height a <? 1) || (la_width a <? 1)
           then Ok (put_width (put_height (put_channels a 1) 1) (la_n_inputs a))
           else Ok a
         else Ok a) ;;
   if receives_images (la_type a)
   then if (la_channels a <? 1) || (la_height a <? 1) || (la_width a <? 1) then Exit else Ok a
   else if la_n_inputs a <? 1 then Exit else Ok a)%out.
(** neural_layer_args.c:508-518 *)
Definition validate_layer (a : largs) : outcome largs :=
  if la_evolve_neurons a && (la_grow a <? 1) then Exit
  else Ok (if la_n_max a <? la_n_init a then put_n_max a (la_n_init a) else a).
(** neural_layer_args.c:499-520 layer_args_validate *)
Definition layer_args_validate (l : list larg2) : outcome (list larg2) :=
  match l with
  | [] => Exit
  | a :: r => (b <- validate_inputs (fst a) ;; omap (fun a => (b <- validate_layer (fst a) ;; Ok (b, snd a))%out) ((b, snd a) :: r))%out
  end.
(** cond_neural.c:352-376, act_neural.c:304-328, pred_neural.c:464-488: the names of the layers
    are not looked at. *)
Definition layers_import (x : sys) (j : json) : outcome (list larg2) :=
  (xd <- geti x i_X_DIM ;;
   l <- omap (fun e => over layer_import (put_n_inputs (fst layer_args_init) xd, snd layer_args_init) (children (snd e))) (children j) ;;
   layer_args_validate l)%out.

(** *** Parts *)
(** condition.c:204-224, cond_ternary.c:404-419, gp.c:468-492, dgp.c:657-678 *)
Definition csr_import (x : sys) (s : string) (j : json) : outcome sys :=
  if same s "eta" 4 && is_num j then Ok (cond_param_set_eta x (valuedouble j))
  else if same s "min" 4 && is_num j then Ok (cond_param_set_min x (valuedouble j))
  else if same s "max" 4 && is_num j then Ok (cond_param_set_max x (valuedouble j))
  else if same s "spread_min" 11 && is_num j then Ok (cond_param_set_spread_min x (valuedouble j))
  else Exit.
Definition ternary_import (x : sys) (s : string) (j : json) : outcome sys :=
  if same s "p_dontcare" 11 && is_num j then Ok (cond_param_set_p_dontcare x (valuedouble j))
  else if same s "bits" 5 && is_num j then Ok (cond_param_set_bits x (valueint j))
  else Exit.
Definition gp_import (x : sys) (s : string) (j : json) : outcome sys :=
  if same s "min_constant" 13 && is_num j then Ok (tree_param_set_min x (valuedouble j))
  else if same s "max_constant" 13 && is_num j then Ok (tree_param_set_max x (valuedouble j))
  else if same s "n_constants" 12 && is_num j then Ok (tree_param_set_n_constants x (valueint j))
  else if same s "init_depth" 11 && is_num j then Ok (tree_param_set_init_depth x (valueint j))
  else if same s "max_len" 8 && is_num j then Ok (tree_param_set_max_len x (valueint j))
  else Exit.
Definition dgp_import (x : sys) (s : string) (j : json) : outcome sys :=
  if same s "max_k" 6 && is_num j then Ok (graph_param_set_max_k x (valueint j))
  else if same s "max_t" 6 && is_num j then Ok (graph_param_set_max_t x (valueint j))
  else if same s "n" 2 && is_num j then Ok (graph_param_set_n x (valueint j))
  else if same s "evolve_cycles" 14 && is_bool j then Ok (graph_param_set_evolve_cycles x (is_true j))
  else Exit.
(** pred_nlms.c:340-361, pred_rls.c:341-358 *)
Definition nlms_args_import (x : sys) (s : string) (j : json) : outcome sys :=
  if same s "x0" 3 && is_num j then Ok (pred_param_set_x0 x (valuedouble j))
  else if same s "eta" 4 && is_num j then Ok (pred_param_set_eta x (valuedouble j))
  else if same s "evolve_eta" 11 && is_bool j then Ok (pred_param_set_evolve_eta x (is_true j))
  else if same s "eta_min" 8 && is_num j then Ok (pred_param_set_eta_min x (valuedouble j))
  else Exit.
Definition rls_args_import (x : sys) (s : string) (j : json) : outcome sys :=
  if same s "x0" 3 && is_num j then Ok (pred_param_set_x0 x (valuedouble j))
  else if same s "lambda" 7 && is_num j then Ok (pred_param_set_lambda x (valuedouble j))
  else if same s "scale_factor" 13 && is_num j then Ok (pred_param_set_scale_factor x (valuedouble j))
  else Exit.

(** The type of a part: missing, not a string or unknown ends the import. *)
Definition type_import (set : sys -> list ascii -> outcome (Z * sys)) (x : sys) (j : json) : outcome (Z * sys) :=
  match item j "type" with
  | Some (JStr s) => (r <- set x (chars s ++ [nul]) ;; if fst r =? -1 then Exit else Ok r)%out
  | _ => Exit
  end.
(** param.c:346-370 with action.c:130-146 *)
Definition action_import (p : params) (j : json) : outcome params :=
  (r <- type_import action_param_set_type_string (p_sys p) j ;;
   let p := with_sys p (snd r) in
   match item j "args" with
   | None => Ok p
   | Some a =>
     if fst r =? 0 then Ok p
     else if fst r =? 1 then (l <- layers_import (p_sys p) a ;; Ok (with_act p l)) else Exit
   end)%out.
(** param.c:376-400 with condition.c:280-311, cond_gp.c:273-279 *)
Definition cond_import (p : params) (j : json) : RM params :=
  (r <- lift (type_import cond_param_set_type_string (p_sys p) j) ;;
   let p := with_sys p (snd r) in
   let t := fst r in
   match item j "args" with
   | None => ret p
   | Some a =>
     let plain f : RM params := x <- lift (over f (p_sys p) (children a)) ;; ret (with_sys p x) in
     if t =? 7 then plain ternary_import
     else if (t =? 3) || (t =? 1) || (t =? 2) then plain csr_import
     else if t =? 5 then
       (x <- lift (over gp_import (p_sys p) (children a)) ;; c <- tree_constants x ;; ret (with_consts (with_sys p x) c))
     else if (t =? 6) || (t =? 11) then plain dgp_import
     else if (t =? 4) || (t =? 12) || (t =? 13) then (l <- lift (layers_import (p_sys p) a) ;; ret (with_cond p l))
     else rexit
   end)%rng.
(** param.c:406-430 with prediction.c:178-201 *)
Definition pred_import (p : params) (j : json) : outcome params :=
  (r <- type_import pred_param_set_type_string (p_sys p) j ;;
   let p := with_sys p (snd r) in
   let t := fst r in
   match item j "args" with
   | None => Ok p
   | Some a =>
     if t =? 0 then Ok p
     else if (t =? 1) || (t =? 2) then (x <- over nlms_args_import (p_sys p) (children a) ;; Ok (with_sys p x))
     else if (t =? 3) || (t =? 4) then (x <- over rls_args_import (p_sys p) (children a) ;; Ok (with_sys p x))
     else if t =? 5 then (l <- layers_import (p_sys p) a ;; Ok (with_pred p l)) else Exit
   end)%out.

(** param.c:436-473 param_json_import: one member, then all. *)
Definition import_one (p : params) (e : option string * json) : RM params :=
  (let x := p_sys p in
   let j := snd e in
   s <- lift (key e) ;;
   r <- lift (import_general x s j) ;;
   match r with Some y => ret (with_sys p y) | None =>
   r <- lift (import_multi x s j) ;;
   match r with Some y => ret (with_sys p y) | None =>
   r <- lift (import_subsump x s j) ;;
   match r with Some y => ret (with_sys p y) | None =>
   r <- lift (import_cl_general x s j) ;;
   match r with Some y => ret (with_sys p y) | None =>
   if same s "ea" 3 then y <- lift (over ea_import x (children j)) ;; ret (with_sys p y)
   else if same s "action" 7 then lift (action_import p j)
   else if same s "condition" 10 then cond_import p j
   else if same s "prediction" 11 then lift (pred_import p j)
   else rexit
   end end end end)%rng.
Fixpoint import_list (p : params) (l : list (option string * json)) : RM params :=
  match l with
  | [] => ret p
  | e :: r => (q <- import_one p e ;; import_list q r)%rng
  end.
Definition param_json_import (p : params) (j : json) : RM params := import_list p (children j).

(** ** The Python object: pybind_wrapper.cpp:98-129 (constructor, with update_params 817-834) and
    852-876 (set_params, the keywords as a document). *)
Definition py_construct (lm : libm) (blank : sys) (kwargs : json) : RM params :=
  (p <- params_init blank 1 1 1 ;;
   ' (_, p) <- param_json_export lm p ;;
   param_json_import p kwargs)%rng.
