(** * C50 Backpropagation is the gradient. *)
From Coq Require Import ZArith Bool List Reals Lra Lia.
From Flocq Require Import Core BinarySingleNaN.
From Verif Require Import Outcome F64 F64Facts F64Bounds Rng Arr ArrFacts Blas BlasFacts Exact Demo Act ActFacts Image Layer LayerFacts PropConn PoolFacts PropPool.
Import ListNotations.
Open Scope Z_scope.

(** Exact arithmetic, any layer size, any weights, inputs and objective E of the outputs with
    gradient d, when no neuron state is at or beyond the limits of +-100: the backward pass adds to
    each weight update, bias update and input delta exactly the partial derivative of E. *)
Theorem C50 :
  forall (E : list R -> R) (l : layer R) (x d : list R) (f : R -> R) (l1 : layer R) (od : option (list R)),
  conn_shape l ->
  0 <= l_function l < NUM_ACTIVATIONS ->
  denotes (neural_activate R_arith) (l_function l) f ->
  l_n_inputs l <= len x ->
  connected_forward R_arith l x = Ok l1 ->
  (forall i : Z,
   0 <= i < l_n_outputs l ->
   (-100 < net l (l_weights l) (l_biases l) x i < 100)%R /\
   (exists g : R, derivable_pt_lim f (net l (l_weights l) (l_biases l) x i) g)) ->
  gradient E (l_output l1) d ->
  len d = l_n_outputs l ->
  (forall dl : list R, od = Some dl -> len dl = l_n_inputs l) ->
  exists (l2 : layer R) (od' : option (list R)),
    connected_backward R_arith (set_delta d l1) x od = Ok (l2, od') /\
    (forall k : Z,
     0 <= k < l_n_weights l ->
     if has l SGD_WEIGHTS
     then
      derivable_pt_lim (fun t : R => loss E l (set_nth (l_weights l) (Z.to_nat k) t) (l_biases l) x)
        (at_ 0%R (l_weights l) k) (at_ 0 (l_weight_updates l2) k - at_ 0 (l_weight_updates l) k)%R
     else at_ 0%R (l_weight_updates l2) k = at_ 0%R (l_weight_updates l) k) /\
    (forall k : Z,
     0 <= k < l_n_biases l ->
     if has l SGD_WEIGHTS
     then
      derivable_pt_lim (fun t : R => loss E l (l_weights l) (set_nth (l_biases l) (Z.to_nat k) t) x)
        (at_ 0%R (l_biases l) k) (at_ 0 (l_bias_updates l2) k - at_ 0 (l_bias_updates l) k)%R
     else at_ 0%R (l_bias_updates l2) k = at_ 0%R (l_bias_updates l) k) /\
    match od with
    | Some dl =>
        exists dl' : list R,
          od' = Some dl' /\
          len dl' = len dl /\
          (forall j : Z,
           0 <= j < l_n_inputs l ->
           derivable_pt_lim (fun t : R => loss E l (l_weights l) (l_biases l) (set_nth x (Z.to_nat j) t))
             (at_ 0%R x j) (at_ 0 dl' j - at_ 0 dl j)%R)
    | None => od' = None
    end /\
    (exists dd bu wu : list R,
       l2 = set_delta dd (set_bias_updates bu (set_weight_updates wu l1)) /\ conn_shape l2).
Proof. exact @C50_lemma. Qed.
Print Assumptions C50.

(** The delta the output layer starts from, truth minus output, is the gradient of minus half the
    squared error, so the accumulated updates point downhill. *)
Theorem C50_squared :
  forall y o d : list R,
  len d = len o ->
  (forall i : Z, 0 <= i < len o -> at_ 0%R d i = (at_ 0 y i - at_ 0 o i)%R) -> gradient (squared y) o d.
Proof. exact @C50_squared_lemma. Qed.
Print Assumptions C50_squared.

(** REFUTED for states beyond the limits: they are clamped, so the derivative is 0, but the backward
    pass adds 20. *)
Theorem C50_refuted :
  exists (E : list R -> R) (l : layer R) (x d : list R) (l1 l2 : layer R),
    conn_shape l /\
    denotes (neural_activate R_arith) (l_function l) (fun v : R => v) /\
    len x = l_n_inputs l /\
    connected_forward R_arith l x = Ok l1 /\
    gradient E (l_output l1) d /\
    len d = l_n_outputs l /\
    has l SGD_WEIGHTS = true /\
    connected_backward R_arith (set_delta d l1) x None = Ok (l2, None) /\
    derivable_pt_lim (fun t : R => loss E l (set_nth (l_weights l) 0 t) (l_biases l) x)
      (at_ 0%R (l_weights l) 0) 0%R /\
    (at_ 0 (l_weight_updates l2) 0 - at_ 0 (l_weight_updates l) 0)%R = 20%R.
Proof. exact @C50_refuted_lemma. Qed.
Print Assumptions C50_refuted.

(** Two logistic neurons with two inputs, trained towards (1, 0). *)
Definition C50_layer : layer R :=
  mkLayer CONNECTED 8 LOGISTIC 2 2 2 0 4 2 4 1%R 1%R 0%R 0%R 0%R 0%R 0%R 0 0 0 0 2 1 1 0 0 0
    [0%R; 0%R] [0%R; 0%R] [1%R; (-2)%R; (/ 2)%R; 3%R] [0%R; 0%R; 0%R; 0%R] [0%R; 1%R] [0%R; 0%R] [0%R; 0%R] []
    [true; true; true; true] [] [].
Example C50_example : exists f l1 d,
  conn_shape C50_layer /\ 0 <= l_function C50_layer < NUM_ACTIVATIONS /\ denotes (neural_activate R_arith) (l_function C50_layer) f /\
  l_n_inputs C50_layer <= len [1%R; (-1)%R] /\ connected_forward R_arith C50_layer [1%R; (-1)%R] = Ok l1 /\
  (forall i, 0 <= i < l_n_outputs C50_layer ->
     (-100 < net C50_layer (l_weights C50_layer) (l_biases C50_layer) [1; -1] i < 100)%R /\
     exists g, derivable_pt_lim f (net C50_layer (l_weights C50_layer) (l_biases C50_layer) [1%R; (-1)%R] i) g) /\
  gradient (squared [1%R; 0%R]) (l_output l1) d /\ len d = l_n_outputs C50_layer /\ has C50_layer SGD_WEIGHTS = true /\
  net C50_layer (l_weights C50_layer) (l_biases C50_layer) [1%R; (-1)%R] 0 = 3%R /\
  net C50_layer (l_weights C50_layer) (l_biases C50_layer) [1%R; (-1)%R] 1 = (-3 / 2)%R.
Proof.
  assert (FN : 0 <= LOGISTIC < NUM_ACTIVATIONS) by (unfold LOGISTIC, NUM_ACTIVATIONS; lia).
  destruct (C46_lemma LOGISTIC FN) as (f & g & F & _).
  assert (CS : conn_shape C50_layer) by (constructor; try reflexivity; vm_compute; congruence).
  destruct (connected_forward_ok R_arith C50_layer [1%R; (-1)%R] f CS ltac:(vm_compute; congruence) F) as (st & out & E & L1 & L2 & H).
  assert (N0 : net C50_layer (l_weights C50_layer) (l_biases C50_layer) [1%R; (-1)%R] 0 = 3%R).
  { unfold net. change (l_n_inputs C50_layer) with 2. change (rsum 2) with (sumn 2). cbn [sumn Z.of_nat Pos.of_succ_nat].
    transitivity (0 + (0 + 1 * 1 + (-2) * (-1)))%R; [reflexivity|lra]. }
  assert (N1 : net C50_layer (l_weights C50_layer) (l_biases C50_layer) [1%R; (-1)%R] 1 = (-3 / 2)%R).
  { unfold net. change (l_n_inputs C50_layer) with 2. change (rsum 2) with (sumn 2). cbn [sumn Z.of_nat Pos.of_succ_nat].
    transitivity (1 + (0 + / 2 * 1 + 3 * (-1)))%R; [reflexivity|lra]. }
  exists f, (set_state st (set_output out C50_layer)), [(at_ 0 [1; 0] 0 - at_ 0 out 0)%R; (at_ 0 [1; 0] 1 - at_ 0 out 1)%R].
  split; [exact CS|]. split; [exact FN|]. split; [exact F|]. split; [vm_compute; congruence|]. split; [exact E|]. split.
  - intros i I. change (l_n_outputs C50_layer) with 2 in I. assert (C : i = 0 \/ i = 1) by lia. split.
    + destruct C; subst i; [rewrite N0|rewrite N1]; lra.
    + apply (C46_where_lemma LOGISTIC f FN F). right. repeat split; discriminate.
  - split; [|auto]. apply C50_squared_lemma.
    + cbn [l_output set_state set_output]. rewrite L2. reflexivity.
    + cbn [l_output set_state set_output]. rewrite L2. intros i I. change (l_n_outputs C50_layer) with 2 in I.
      assert (C : i = 0 \/ i = 1) by lia. destruct C; subst i; reflexivity.
Qed.
