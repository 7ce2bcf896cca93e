(** * Changing the shape of networks in a running system: /repo/xcsf/xcsf.c:151-188
    (xcsf_pred_expand, xcsf_ae_to_classifier), pred_neural.c:300-383 and neural.c:94-195.

    Networks as in Net.v, the population as in Pop.v.  The linked list behind [neural_insert] and
    [neural_remove] is in Llist.v; here are only their effects on the list of layers and on the
    numbers that struct Net keeps. *)
From Coq Require Import ZArith Bool List.
From Verif Require Import Outcome F64 Rng Sam Arr Pop Blas Comp Dgp Act Layer Net.
Import ListNotations.
Open Scope Z_scope.

(** neural.c:94-132 neural_insert.  At position 0 of a network that has layers, [iter] is the
    tail, so new->next is NULL; iter->next has just been set when it is compared with NULL, and the
    other branch dereferences new->next. *)
Definition insert_layer (n : nn f64) (l : layer f64) (pos : Z) : outcome (nn f64) :=
  match nn_layers n with
  | [] => Ok (mkNn [l] (l_n_inputs l) (l_n_outputs l))
  | ls =>
    if pos <=? 0 then UB NullDeref
    else
      Ok (mkNn (firstn (Z.to_nat pos) ls ++ l :: skipn (Z.to_nat pos) ls) (nn_inputs n)
            (if Z.of_nat (length ls) <=? pos then l_n_outputs l else nn_outputs n))
  end.
(** neural.c:180-183 neural_push *)
Definition push_layer (n : nn f64) (l : layer f64) : outcome (nn f64) := insert_layer n l (Z.of_nat (length (nn_layers n))).
(** neural.c:190-194 neural_pop: neural_remove (139-174) of the head. *)
Definition pop_layer (n : nn f64) : outcome (nn f64) :=
  match rev (nn_layers n) with
  | [] => Exit
  | [_] => Exit
  | _ :: p :: r => Ok (mkNn (rev (p :: r)) (nn_inputs n) (l_n_outputs p))
  end.

(** neural_layer_args.c:41-70 layer_args_init, with the fields set by both functions below.
    [a] is the first element of xcsf->pred->largs. *)
Definition new_args (a : largs) (function n_inputs n_init n_max : Z) (evolve_functions : bool) : largs :=
  mkLargs CONNECTED n_inputs n_init n_max 0 function 0 0 0 0 0 0
    (la_eta a) (la_eta_min a) (la_momentum a) (la_decay a) f0 f0
    (la_evolve_weights a) false evolve_functions (la_evolve_eta a) (la_evolve_connect a) (la_sgd_weights a).

Section Expand.
Context (lm : libm) (fuel : nat) (a : largs).

(** pred_neural.c:306-340 pred_neural_expand *)
Definition pred_neural_expand (n : nn f64) : RM (nn f64) :=
  (h <- match rev (nn_layers n) with
        | [] => rub NullDeref
        | [o] => ret (o, l_n_inputs o)
        | _ :: h :: _ => ret (h, l_n_outputs h)
        end ;;
   l <- layer_init lm (new_args a (la_function a) (snd h) (l_n_outputs (fst h)) (l_max_outputs (fst h)) (la_evolve_functions a)) ;;
   n <- lift (insert_layer n l (Z.of_nat (length (nn_layers n)) - 1)) ;;
   neural_resize lm fuel n)%rng.

(** pred_neural.c:356-358 *)
Fixpoint pop_layers (k : nat) (n : nn f64) : outcome (nn f64) :=
  match k with
  | O => Ok n
  | S k' => if 1 <? Z.of_nat (length (nn_layers n)) then (n <- pop_layer n ;; pop_layers k' n)%out else Ok n
  end.
(** pred_neural.c:348-383 pred_neural_ae_to_classifier.  The number of outputs is the parameter
    y_dim. *)
Definition softmax_args (y : Z) (c : largs) : largs :=
  mkLargs SOFTMAX y (la_n_init c) (la_n_max c) (la_grow c) (la_function c)
    (la_height c) (la_width c) (la_channels c) (la_size c) (la_stride c) (la_pad c)
    (la_eta c) (la_eta_min c) (la_momentum c) (la_decay c) (la_probability c) f1
    (la_evolve_weights c) (la_evolve_neurons c) (la_evolve_functions c) (la_evolve_eta c) (la_evolve_connect c) (la_sgd_weights c).
Definition pred_neural_ae_to_classifier (y n_del : Z) (n : nn f64) : RM (nn f64) :=
  (n <- lift (pop_layers (Z.to_nat n_del) n) ;;
   let c := new_args a LINEAR (nn_outputs n) y y false in
   l <- layer_init lm c ;;
   n <- lift (push_layer n l) ;;
   l <- layer_init lm (softmax_args y c) ;;
   lift (push_layer n l))%rng.
End Expand.

(** ** The system *)
Section System.
Context {C A : Type} (K : cfg) (a : largs).
Notation B := (payload C A (nn f64)).

Definition on_pred (f : nn f64 -> RM (nn f64)) (b : B) : RM B :=
  (p <- need (y_pred b) ;; p <- f p ;; ret (set_pred b p))%rng.
(** xcsf.c:156-159 and 182-185 *)
Definition forget (t : Z) (c : cl B) : cl B := Pop.set_time t (set_exp 0 (set_err (INIT_ERROR K) (set_fit (INIT_FITNESS K) c))).
(** xcsf.c:150-162 xcsf_pred_expand *)
Definition xcsf_pred_expand : M B unit :=
  (ps <~ mget s_pset ;;
   miter (fun i =>
     c <~ get i ;;
     b <~ mrand (on_pred (pred_neural_expand (lm K) (loop_fuel K) a) (c_body c)) ;;
     t <~ mget s_time ;;
     put i (forget t (set_body b c))) (set_list ps))%m.
End System.

(** The configuration with another number of outputs and loss function; param.c:887-895
    param_set_y_dim keeps the old number if the new one is not positive.  [onehot] is
    loss_onehot (loss.c). *)
Definition reconfigured (K : cfg) (y : Z) (onehot : list f64 -> list f64 -> f64) : cfg :=
  mkCfg (n_actions K) (x_dim K) (if y <? 1 then y_dim K else y)
    (POP_SIZE K) (THETA_DEL K) (M_PROBATION K) (THETA_SUB K) (TELETRANSPORTATION K)
    (ALPHA K) (BETA K) (DELTA K) (E0 K) (INIT_ERROR K) (INIT_FITNESS K)
    (NU K) (GAMMA K) (P_EXPLORE K)
    (POP_INIT K) (SET_SUBSUMPTION K) (COMPACTION K)
    (ea_tournament K) (ea_select_size K) (ea_theta K) (ea_lambda K)
    (ea_subsumption K) (ea_pred_reset K) (ea_err_reduc K) (ea_fit_reduc K)
    onehot (lm K) (loop_fuel K) (vla0_is_ub K).

Section Classifier.
Context {C A : Type} (a : largs).
Notation B := (payload C A (nn f64)).
(** xcsf.c:170-188 xcsf_ae_to_classifier, from line 176 on: [K] is the configuration after
    lines 174 and 175.  The prediction arrays are allocated without values (pa.c:46-53), and
    written before they are read (pa.c:65-125): zeros here. *)
Definition xcsf_ae_to_classifier (K : cfg) (n_del : Z) : M B unit :=
  (mmod (with_pa (repeat f0 (Z.to_nat (n_actions K * y_dim K))) (repeat f0 (Z.to_nat (n_actions K * y_dim K)))) ;;;
   ps <~ mget s_pset ;;
   miter (fun i =>
     c <~ get i ;;
     b <~ mrand (on_pred (pred_neural_ae_to_classifier (lm K) a (y_dim K) n_del) (c_body c)) ;;
     t <~ mget s_time ;;
     put i (forget K t (set_body b (Pop.set_prediction (repeat f0 (Z.to_nat (y_dim K))) c)))) (set_list ps))%m.
End Classifier.
