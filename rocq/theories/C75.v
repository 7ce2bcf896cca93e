(** * C75 LSTM layers compute the gates, train all weights and survive copies and files. *)
From Coq Require Import ZArith Bool List Lia.
From Verif Require Import Outcome F64 Rng RngFacts Sam SamFacts PopSpec Arr ArrFacts Blas BlasFacts Act Layer LayerFacts PropMut Net NetFacts NetLayer File FileFacts Recur RecFacts PropRecur PropLstm.
Import ListNotations.
Open Scope Z_scope.

(** Making a layer always succeeds. [msound]: the eight connected layers are sound, fit each other
    and the arrays; prev_state and prev_cell are zero. [rarg_ok]: parameters within the limits. *)
Theorem C75_init :
  forall (lm : libm) (a : largs) (rf : Z) (g : rng),
  libm_ok lm ->
  gen_ok g ->
  rarg_ok a ->
  0 <= rf < NUM_ACTIVATIONS ->
  exists (m : lstm f64) (g' : rng),
    lstm_init lm a rf g = Ok (m, g') /\
    gen_ok g' /\
    msound m /\
    (l_n_inputs (m_l m), l_n_outputs (m_l m), l_max_outputs (m_l m), l_options (m_l m),
     l_function (m_l m), m_rec m) =
    (la_n_inputs a, la_n_init a, la_n_max a, layer_args_opt a, la_function a, rf) /\
    m_h m = zeros f0 (la_n_init a) /\ m_c m = zeros f0 (la_n_init a).
Proof. exact @C75_init_lemma. Qed.
Print Assumptions C75_init.

(** The forward pass. [gate_sum w u h x i]: the clamped sum of w on the last output plus that of u
    on the input; [cl]: clamping. *)
Theorem C75_forward :
  forall (lm : libm) (m : lstm f64) (x : list f64) (fn rf : f64 -> f64),
  msound m ->
  l_n_inputs (m_l m) <= len x ->
  (forall v : f64, neural_activate (f64_arith lm) (l_function (m_l m)) v = Ok (fn v)) ->
  (forall v : f64, neural_activate (f64_arith lm) (m_rec m) v = Ok (rf v)) ->
  exists m' : lstm f64,
    lstm_forward (f64_arith lm) m x = Ok m' /\
    msound m' /\
    same_lstm m m' /\
    m_prev_state m' = m_prev_state m /\
    m_prev_cell m' = m_prev_cell m /\
    m_dc m' = m_dc m /\
    l_delta (m_l m') = l_delta (m_l m) /\
    (l_eta (m_l m'), l_mu (m_l m')) = (l_eta (m_l m), l_mu (m_l m)) /\
    l_output (m_l m') = m_h m' /\
    m_cell m' = m_c m' /\
    (forall i : Z,
     0 <= i < l_n_outputs (m_l m) ->
     at_ f0 (m_f m') i = rf (cl lm (gate_sum lm (m_wf m) (m_uf m) (m_h m) x i)) /\
     at_ f0 (m_i m') i = rf (cl lm (gate_sum lm (m_wi m) (m_ui m) (m_h m) x i)) /\
     at_ f0 (m_g m') i = fn (cl lm (gate_sum lm (m_wg m) (m_ug m) (m_h m) x i)) /\
     at_ f0 (m_o m') i = rf (cl lm (gate_sum lm (m_wo m) (m_uo m) (m_h m) x i)) /\
     at_ f0 (m_c m') i =
     fadd (fmul (at_ f0 (m_c m) i) (at_ f0 (m_f m') i)) (fmul (at_ f0 (m_i m') i) (at_ f0 (m_g m') i)) /\
     at_ f0 (m_h m') i = fmul (fn (cl lm (at_ f0 (m_c m') i))) (at_ f0 (m_o m') i)).
Proof. exact @lstm_forward_ok. Qed.
Print Assumptions C75_forward.

(** The backward pass: the errors of the eight layers and what is added to their updates ([learned
    x]: error times x). The layers on the last output learn from zeros; the error of the forget gate
    is multiplied by zero; the derivatives are taken at the outputs of the activation functions. *)
Theorem C75_backward :
  forall (lm : libm) (m : lstm f64) (x : list f64) (od : option (list f64)) (fn : f64 -> f64),
  (f64 -> f64) ->
  forall gfn grf : f64 -> f64,
  msound m ->
  l_n_inputs (m_l m) <= len x ->
  odel_ok (l_n_inputs (m_l m)) od ->
  (forall v : f64, neural_activate (f64_arith lm) (l_function (m_l m)) v = Ok (fn v)) ->
  (forall v : f64, neural_gradient (f64_arith lm) (l_function (m_l m)) v = Ok (gfn v)) ->
  (forall v : f64, neural_gradient (f64_arith lm) (m_rec m) v = Ok (grf v)) ->
  exists (m' : lstm f64) (od' : option (list f64)),
    lstm_backward (f64_arith lm) m x od = Ok (m', od') /\
    msound m' /\
    same_lstm m m' /\
    m_l m' = m_l m /\
    m_h m' = m_h m /\
    m_c m' = m_c m /\
    match od with
    | Some d => exists d' : list f64, od' = Some d' /\ len d' = len d
    | None => od' = None
    end /\
    Forall (fun p : layer f64 * layer f64 => learned x (fst p) (snd p))
      [(m_uf m, m_uf m'); (m_ui m, m_ui m'); (m_ug m, m_ug m'); (m_uo m, m_uo m')] /\
    Forall (fun p : layer f64 * layer f64 => learned (zeros f0 (l_n_outputs (m_l m))) (fst p) (snd p))
      [(m_wf m, m_wf m'); (m_wi m, m_wi m'); (m_wg m, m_wg m'); (m_wo m, m_wo m')] /\
    (forall i : Z,
     0 <= i < l_n_outputs (m_l m) ->
     (at_ f0 (l_delta (m_uo m')) i =
      fmul (fmul (fn (cl lm (at_ f0 (m_c m) i))) (at_ f0 (l_delta (m_l m)) i)) (grf (at_ f0 (m_o m) i)) /\
      at_ f0 (l_delta (m_ug m')) i =
      fmul (fmul (cell_error lm m fn gfn i) (at_ f0 (m_i m) i)) (gfn (at_ f0 (m_g m) i)) /\
      at_ f0 (l_delta (m_ui m')) i =
      fmul (fmul (cell_error lm m fn gfn i) (at_ f0 (m_g m) i)) (grf (at_ f0 (m_i m) i)) /\
      at_ f0 (l_delta (m_uf m')) i = fmul (fmul (cell_error lm m fn gfn i) f0) (grf (at_ f0 (m_f m) i))) /\
     (at_ f0 (l_delta (m_wo m')) i = at_ f0 (l_delta (m_uo m')) i /\
      at_ f0 (l_delta (m_wg m')) i = at_ f0 (l_delta (m_ug m')) i /\
      at_ f0 (l_delta (m_wi m')) i = at_ f0 (l_delta (m_ui m')) i /\
      at_ f0 (l_delta (m_wf m')) i = at_ f0 (l_delta (m_uf m')) i) /\
     at_ f0 (m_dc m') i = fmul (cell_error lm m fn gfn i) (at_ f0 (m_f m) i)).
Proof. exact @lstm_backward_ok. Qed.
Print Assumptions C75_backward.

(** Any sequence of forward passes, learning, randomising, mutations and copies: no fault. Only
    drawing a number of neurons to add may not end. *)
Theorem C75_life :
  forall (lm : libm) (fuel : nat) (a : largs) (rf : Z) (os : list mop) (g : rng),
  libm_ok lm ->
  gen_ok g ->
  (1 <= fuel)%nat ->
  rarg_ok a ->
  0 <= rf < NUM_ACTIVATIONS ->
  Forall (mop_ok (la_n_inputs a)) os ->
  match lstm_life lm fuel a rf os g with
  | Ok (m, g') =>
      msound m /\
      l_n_inputs (m_l m) = la_n_inputs a /\ 1 <= l_n_outputs (m_l m) <= la_n_max a /\ gen_ok g'
  | OutOfFuel => True
  | _ => False
  end.
Proof. exact @C75_life_lemma. Qed.
Print Assumptions C75_life.

(** REFUTED that all weights are trained: in every sound layer a backward pass leaves the updates of
    the weights of wf, wi, wg, wo and uf, and of the biases of wf and uf, unchanged (or makes them
    NaN). *)
Theorem C75_refuted_training :
  forall (lm : libm) (m : lstm f64) (x : list f64) (od : option (list f64)) (m' : lstm f64)
    (od' : option (list f64)),
  msound m ->
  l_n_inputs (m_l m) <= len x ->
  odel_ok (l_n_inputs (m_l m)) od ->
  lstm_backward (f64_arith lm) m x od = Ok (m', od') ->
  Forall (fun p : layer f64 * layer f64 => unmoved (l_weight_updates (fst p)) (l_weight_updates (snd p)))
    [(m_wf m, m_wf m'); (m_wi m, m_wi m'); (m_wg m, m_wg m'); (m_wo m, m_wo m'); (m_uf m, m_uf m')] /\
  unmoved (l_bias_updates (m_wf m)) (l_bias_updates (m_wf m')) /\
  unmoved (l_bias_updates (m_uf m)) (l_bias_updates (m_uf m')).
Proof. exact @C75_untrained_lemma. Qed.
Print Assumptions C75_refuted_training.

(** A copy computes what a layer of the same weights with zero cells and outputs computes. *)
Theorem C75_copy :
  forall (lm : libm) (m : lstm f64) (xs : list (list f64)),
  msound m ->
  xs <> [] ->
  Forall (fun x : list f64 => l_n_inputs (m_l m) <= len x) xs ->
  exists c : lstm f64,
    lstm_copy m = Ok c /\
    msound c /\
    same_lstm m c /\
    m_h c = zeros f0 (l_n_outputs (m_l m)) /\
    m_c c = zeros f0 (l_n_outputs (m_l m)) /\
    (forall m0 : lstm f64,
     msound m0 ->
     same_lstm m m0 ->
     m_h m0 = zeros f0 (l_n_outputs (m_l m)) ->
     m_c m0 = zeros f0 (l_n_outputs (m_l m)) ->
     exists q q' : lstm f64,
       msteps lm m0 xs = Ok q /\ msteps lm c xs = Ok q' /\ l_output (m_l q') = l_output (m_l q)).
Proof. exact @C75_copy_lemma. Qed.
Print Assumptions C75_copy.

(** REFUTED that a copy computes what the original does. *)
Theorem C75_refuted_copy :
  exists (lm : libm) (m : lstm f64) (x : list f64) (m1 m2 : lstm f64) (y1 y2 : f64),
    msound m /\
    msteps lm m [x] = Ok m1 /\
    lstm_copy m1 = Ok m2 /\
    lstm_out (msteps lm m1 [x]) = Ok y1 /\ lstm_out (msteps lm m2 [x]) = Ok y2 /\ feq y1 y2 = false.
Proof. exact @C75_copy_differs_lemma. Qed.
Print Assumptions C75_refuted_copy.

(** A layer read from a file: both activation functions are logistic. If they were before, the layer
    computes what the original does. *)
Theorem C75_load :
  forall (lm : libm) (m : lstm f64) (xs : list (list f64)),
  msound m ->
  xs <> [] ->
  Forall (fun x : list f64 => l_n_inputs (m_l m) <= len x) xs ->
  exists c : lstm f64,
    codec (lstm_save m) lstm_load c /\
    msound c /\
    l_function (m_l c) = LOGISTIC /\
    m_rec c = LOGISTIC /\
    (l_function (m_l m) = LOGISTIC ->
     m_rec m = LOGISTIC ->
     exists q q' : lstm f64,
       msteps lm m xs = Ok q /\ msteps lm c xs = Ok q' /\ l_output (m_l q') = l_output (m_l q)).
Proof. exact @C75_load_lemma. Qed.
Print Assumptions C75_load.

(** REFUTED for other activation functions. *)
Theorem C75_refuted_load :
  exists (lm : libm) (m : lstm f64) (x : list f64) (c : lstm f64) (y1 y2 : f64),
    msound m /\
    codec (lstm_save m) lstm_load c /\
    lstm_out (msteps lm m [x]) = Ok y1 /\ lstm_out (msteps lm c [x]) = Ok y2 /\ feq y1 y2 = false.
Proof. exact @C75_load_differs_lemma. Qed.
Print Assumptions C75_refuted_load.

(** Parameters that meet the limits; a life with every operation from them. *)
Definition lstm_args : largs := mkLargs LSTM 1 1 2 1 LOGISTIC 0 0 0 0 0 0 f1 f0 f0 f0 f0 f0 true true true true true true.
Example C75_args : rarg_ok lstm_args /\ 0 <= LOGISTIC < NUM_ACTIVATIONS /\ Forall (mop_ok (la_n_inputs lstm_args)) [MForward [f1]; MLearn [f1] (fun _ => f1); MMutate; MCopy; MForward [f1]] /\ gen_ok tape3.
Proof.
  split; [unfold rarg_ok; vm_compute; intuition congruence|]. split; [vm_compute; intuition congruence|]. split; [|intros Hf; discriminate Hf].
  repeat (apply Forall_cons; [first [exact I|vm_compute; discriminate]|]). apply Forall_nil.
Qed.
Example C75_runs : match lstm_life const_lm 9 lstm_args LOGISTIC [MForward [f1]; MLearn [f1] (fun _ => f1); MMutate; MCopy; MForward [f1]] tape3 with
  | Ok (m, _) => l_n_outputs (m_l m) = len (l_output (m_l m)) | _ => False end.
Proof. vm_compute. reflexivity. Qed.
(** Linear functions and weights 1, the input 1: every gate is 1, the cell 1; then every gate is 2, the cell
    1 * 2 + 2 * 2 = 6, the output 12. *)
Example C75_pass : msound one_lstm /\ match lstm_out (msteps const_lm one_lstm [[f1]]), lstm_out (msteps const_lm one_lstm [[f1]; [f1]]) with
  | Ok a, Ok b => to_int a = Some 1 /\ to_int b = Some 12 | _, _ => False end.
Proof. split; [apply unit_msound; lia|]. vm_compute. auto. Qed.
(** The candidate layer of the input is trained, the forget layer is not. *)
Example C75_learns : match msteps const_lm (unit_lstm (2 ^ SGD_WEIGHTS) 1 f1 f1) [[f1]; [f1]] with
  | Ok m => match lstm_backward (f64_arith const_lm) (with_parts m (set_delta [f1] (m_l m)) (m_uf m) (m_ui m) (m_ug m) (m_uo m) (m_wf m) (m_wi m) (m_wg m) (m_wo m)) [f1] None with
    | Ok (q, _) => match rd (l_weight_updates (m_ug q)) 0, rd (l_weight_updates (m_uf q)) 0, rd (l_weight_updates (m_wg q)) 0 with
      | Ok a, Ok b, Ok c => to_int a = Some 4 /\ to_int b = Some 0 /\ to_int c = Some 0 | _, _, _ => False end
    | _ => False end
  | _ => False end.
Proof. vm_compute. auto. Qed.
