(** * C45 Neural outputs lie in their activation's range. *)
From Coq Require Import ZArith Bool List Lia Reals Lra.
From Flocq Require Import Core BinarySingleNaN.
From Verif Require Import Outcome F64 F64Facts F64Bounds Rng RngFacts SamFacts Pop Arr ArrFacts Act Layer LayerFacts MutFacts PropMut Net NetFacts NetLayer NetChain PropNet RangeFacts PropRange.
Import ListNotations.
Open Scope Z_scope.

From Flocq Require Import Core BinarySingleNaN.
(** Every activation function of a finite state gives a number of its range: logistic and gaussian
    in [0,1]; tanh, loggy, sin and cos in [-1,1]; rectifier and soft plus >= 0; none NaN. [range_ok]
    is the contract of math.h; SELU needs the state clamped, see C45_refuted_selu. *)
Theorem C45_activation :
  forall (lm : libm) (a : Z) (x : f64),
  range_ok lm ->
  0 <= a < NUM_ACTIVATIONS ->
  is_finite x = true ->
  (a = SELU -> state_range x) -> exists y : f64, neural_activate (f64_arith lm) a x = Ok y /\ in_range a y.
Proof. exact @C45_activation_lemma. Qed.
Print Assumptions C45_activation.

(** On the states layers really use (neural_activate_array clamps them to [-100,100]) every
    activation is also at most 128 in magnitude. *)
Theorem C45_state :
  forall (lm : libm) (a : Z) (x : f64),
  range_ok lm ->
  0 <= a < NUM_ACTIVATIONS ->
  state_range x ->
  exists y : f64,
    neural_activate (f64_arith lm) a x = Ok y /\ in_range a y /\ between (of_Z (-128)) (of_Z 128) y.
Proof. exact @C45_state_lemma. Qed.
Print Assumptions C45_state.

(** Connected layers: weights and biases up to 2^kw and inputs up to 2^ki with kw + ki <= 980 (the
    code keeps learned weights within [-10,10], so inputs may be as large as 2^976): the forward
    pass is defined, states are within [-100,100], every output is in the range of the activation
    function. *)
Theorem C45_connected :
  forall (lm : libm) (l : layer f64) (x : list f64) (kw ki : Z),
  range_ok lm ->
  conn_shape l ->
  0 <= l_function l < NUM_ACTIVATIONS ->
  l_n_inputs l <= 2 ^ 31 ->
  l_n_inputs l <= len x ->
  0 <= kw ->
  0 <= ki ->
  kw + ki <= 980 ->
  Forall (small kw) (l_weights l) ->
  Forall (small kw) (l_biases l) ->
  (forall j : Z, 0 <= j < l_n_inputs l -> small ki (at_ f0 x j)) ->
  exists st out : list f64,
    connected_forward (f64_arith lm) l x = Ok (set_state st (set_output out l)) /\
    len st = l_n_outputs l /\
    len out = l_n_outputs l /\
    Forall state_range st /\ Forall (fun y : f64 => in_range (l_function l) y /\ small 7 y) out.
Proof. exact @C45_connected_lemma. Qed.
Print Assumptions C45_connected.

(** Softmax layers with a positive scale, not extremely small: every output in [0,1]. *)
Theorem C45_softmax :
  forall (lm : libm) (l : layer f64) (x : list f64) (ki ks : Z),
  range_ok lm ->
  plain_shape l ->
  l_n_inputs l <= len x ->
  0 <= ki ->
  0 <= ks ->
  ki + ks <= 980 ->
  (forall j : Z, 0 <= j < l_n_inputs l -> small ki (at_ f0 x j)) ->
  is_finite (l_scale l) = true ->
  (bpow radix2 (- ks) <= B2R (l_scale l))%R ->
  exists out : list f64,
    softmax_forward (f64_arith lm) l x = Ok (set_output out l) /\
    len out = l_n_outputs l /\ Forall unit_range out.
Proof. exact @C45_softmax_lemma. Qed.
Print Assumptions C45_softmax.

(** A whole network of connected, softmax, dropout and noise layers outside of training: every layer
    has its outputs in range, so none is NaN. *)
Theorem C45_network :
  forall (lm : libm) (n : nn f64) (x : list f64) (kw ks ki : Z) (g : rng),
  range_ok lm ->
  net_ok n ->
  nn_inputs n <= len x ->
  0 <= kw ->
  0 <= ks ->
  7 <= ki ->
  kw + ki <= 980 ->
  ki + ks <= 980 ->
  Forall (calm kw ks) (nn_layers n) ->
  (forall j : Z, 0 <= j < nn_inputs n -> small ki (at_ f0 x j)) ->
  exists (ls : list (layer f64)) (g' : rng),
    neural_propagate lm false n x g = Ok (with_layers n ls, g') /\ Forall (ranged ki) ls.
Proof. exact @C45_network_lemma. Qed.
Print Assumptions C45_network.

(** REFUTED as stated: finite inputs and weights within the limits of the code, NaN output (infinity
    minus infinity). *)
Theorem C45_refuted_layer :
  exists (lm : libm) (l : layer f64) (x : list f64) (l' : layer f64),
    range_ok lm /\
    conn_shape l /\
    Forall (between (of_Z WEIGHT_MIN) (of_Z WEIGHT_MAX)) (l_weights l) /\
    Forall (fun b : f64 => is_finite b = true) (l_biases l) /\
    len x = l_n_inputs l /\
    Forall (fun v : f64 => is_finite v = true) x /\
    connected_forward (f64_arith lm) l x = Ok l' /\ is_nan (at_ f0 (l_output l') 0) = true.
Proof. exact @C45_refuted_layer_lemma. Qed.
Print Assumptions C45_refuted_layer.

(** REFUTED for SELU and a finite but unclamped state: 0 * expm1(x) is 0 * infinity above 710. *)
Theorem C45_refuted_selu :
  exists (lm : libm) (x y : f64),
    range_ok lm /\ is_finite x = true /\ neural_activate (f64_arith lm) SELU x = Ok y /\ is_nan y = true.
Proof. exact @C45_refuted_selu_lemma. Qed.
Print Assumptions C45_refuted_selu.

(** REFUTED for softmax with scale 0, which no setter rejects. *)
Theorem C45_refuted_scale :
  exists (lm : libm) (l : layer f64) (x : list f64) (l' : layer f64),
    range_ok lm /\
    plain_shape l /\
    l_scale l = f0 /\
    x = [f1; f1] /\
    softmax_forward (f64_arith lm) l x = Ok l' /\
    Forall (fun y : f64 => is_nan y = true) (l_output l').
Proof. exact @C45_refuted_scale_lemma. Qed.
Print Assumptions C45_refuted_scale.

(** REFUTED for softmax with a negative scale: the subtracted maximum is the minimum, exp overflows.
    *)
Theorem C45_refuted_negative :
  exists (lm : libm) (l : layer f64) (x : list f64) (l' : layer f64),
    range_ok lm /\
    plain_shape l /\
    l_scale l = of_Z (-1) /\
    x = [of_Z 1000; f0] /\
    softmax_forward (f64_arith lm) l x = Ok l' /\ is_nan (at_ f0 (l_output l') 1) = true.
Proof. exact @C45_refuted_negative_lemma. Qed.
Print Assumptions C45_refuted_negative.

(** The hypotheses are met. *)
Example C45_contract_example : range_ok edge_lm.
Proof. exact edge_ok. Qed.
Lemma small_1 k x : 0 <= k -> is_finite x = true -> (Rabs (B2R x) <= 1)%R -> small k x.
Proof. intros K F B. split; [exact F|]. eapply Rle_trans; [exact B|]. now apply bpow_ge_1. Qed.
Lemma small_0 k : 0 <= k -> small k f0. Proof. intros K. apply small_1; [exact K|reflexivity|]. rewrite f0_R, Rabs_R0. lra. Qed.
Lemma small_f1 k : 0 <= k -> small k f1. Proof. intros K. apply small_1; [exact K|apply f1_fin|]. rewrite f1_R, Rabs_R1. lra. Qed.
Example C45_network_example : net_ok two_layers /\ Forall (calm 4 10) (nn_layers two_layers) /\
  match neural_propagate edge_lm false two_layers [f1; f0] tape3 with
  | Ok (n, _) => map (fun l => len (l_output l)) (nn_layers n) = [2; 2] /\
     forallb (fun l => forallb (fun y => flt f0 y && flt y f1) (l_output l)) (nn_layers n) = true
  | _ => False
  end.
Proof.
  split; [exact two_layers_ok|]. split.
  - apply Forall_cons; [|apply Forall_cons; [|apply Forall_nil]].
    + split; [|intros T; discriminate T]. intros _. split; [change (Forall (small 4) [f1; f0; f0; f1])|change (Forall (small 4) [f0; f0])];
        repeat (apply Forall_cons || apply Forall_nil); (apply small_0 || apply small_f1); lia.
    + split; [intros T; discriminate T|]. intros _. change (l_scale (soft_layer f1)) with f1. split; [apply f1_fin|]. rewrite f1_R.
      change 1%R with (bpow radix2 0). apply bpow_le. lia.
  - vm_compute. auto.
Qed.
