(** * C42 Neural connectivity mutation never disconnects. *)
From Coq Require Import ZArith Bool List Reals Lra Lia.
From Flocq Require Import Core BinarySingleNaN.
From Verif Require Import Outcome F64 F64Facts F64Bounds Rng RngFacts Sam SamFacts Arr ArrFacts Blas BlasFacts Exact Demo Act ActFacts Image Layer LayerFacts PropConn PoolFacts PropPool ConvFacts PropConv MutFacts FiltFacts UpdFacts PropMut PropUpd.
Import ListNotations.
Open Scope Z_scope.

(** Connectivity mutation with the repair that follows it, any layer, any random numbers and any
    libm: it terminates (the first pass of the repair suffices), keeps inactive weights zero and the
    number of active weights right, and if it reports a change then every neuron has an input and
    every input a neuron; if not, nothing changed. Only connections, their weights and the number of
    active weights ever change. *)
Theorem C42 :
  forall (lm : libm) (fuel : nat) (l : layer f64) (en dis : f64) (g : rng),
  (1 <= fuel)%nat ->
  conn_shape l ->
  tidy l ->
  l_n_weights l <= N_WEIGHTS_MAX ->
  exists (l' : layer f64) (b : bool) (g' : rng),
    connectivity lm fuel l en dis g = Ok (l', b, g') /\
    conn_shape l' /\
    tidy l' /\
    (b = true -> wired l') /\
    (b = false -> l' = l) /\ l' = rewire (l_active l') (l_weights l') (l_n_active l') l.
Proof. exact @C42_lemma. Qed.
Print Assumptions C42.

(** The whole mutation of a connected layer keeps inactive weights zero and the count right; a layer
    in which every neuron has an input and every input a neuron stays so, unless the number of
    neurons changed. *)
Theorem C42_mutate :
  forall (lm : libm) (fuel : nat) (l : layer f64) (g : rng) (l' : layer f64) (b : bool) (g' : rng),
  (1 <= fuel)%nat ->
  conn_shape l ->
  tidy l ->
  growable l ->
  connected_mutate lm fuel l g = Ok (l', b, g') ->
  conn_shape l' /\ tidy l' /\ (wired l -> l_n_outputs l' = l_n_outputs l -> wired l').
Proof. exact @C42_mutate_lemma. Qed.
Print Assumptions C42_mutate.

(** REFUTED when a neuron is removed: the second input of the mutated layer feeds nothing. *)
Theorem C42_refuted_removal :
  exists (lm : libm) (l : layer f64) (g : rng) (l' : layer f64) (b : bool) (g' : rng),
    conn_shape l /\
    tidy l /\
    growable l /\
    wired l /\
    has l EVOLVE_CONNECT = true /\
    connected_mutate lm 1 l g = Ok (l', b, g') /\
    l_n_outputs l' = 1 /\
    (forall o : Z, 0 <= o < l_n_outputs l' -> at_ false (l_active l') (l_n_inputs l' * o + 1) = false).
Proof. exact @C42_refuted_removal_lemma. Qed.
Print Assumptions C42_refuted_removal.

(** REFUTED when a neuron is added: the new neuron has no input. *)
Theorem C42_refuted_addition :
  exists (lm : libm) (l : layer f64) (g : rng) (l' : layer f64) (b : bool) (g' : rng),
    conn_shape l /\
    tidy l /\
    growable l /\
    wired l /\
    has l EVOLVE_CONNECT = true /\
    connected_mutate lm 1 l g = Ok (l', b, g') /\
    l_n_outputs l' = 3 /\
    (forall i : Z, 0 <= i < l_n_inputs l' -> at_ false (l_active l') (l_n_inputs l' * 2 + i) = false).
Proof. exact @C42_refuted_addition_lemma. Qed.
Print Assumptions C42_refuted_addition.

(** REFUTED for convolutional layers, which have no repair step: the only weight of the only filter
    is switched off. *)
Theorem C42_refuted_conv :
  exists (lm : libm) (l : layer f64) (g : rng) (l' : layer f64) (b : bool) (g' : rng),
    conv_shape l /\
    len (l_active l) = l_n_weights l /\
    l_out_c l = l_n_filters l /\
    tidy l /\
    conv_growable l /\
    l_active l = [true] /\
    convolutional_mutate lm 1 l g = Ok (l', b, g') /\ l_n_filters l' = 1 /\ l_active l' = [false].
Proof. exact @C42_refuted_conv_lemma. Qed.
Print Assumptions C42_refuted_conv.

(** Resizing for a new number of inputs keeps all of this: inactive weights stay zero, the count
    stays right, every neuron has an input and every input a neuron if connectivity evolves, the
    active connections that still exist survive with their weights, and new inputs feed every
    neuron. *)
Theorem C42_resize :
  forall (lm : libm) (fuel : nat) (l : layer f64) (pn : Z) (g : rng),
  (1 <= fuel)%nat ->
  conn_shape l ->
  tidy l ->
  1 <= l_n_outputs l ->
  1 <= pn ->
  pn * l_n_outputs l <= N_WEIGHTS_MAX ->
  exists (l' : layer f64) (g' : rng),
    connected_resize lm fuel l pn g = Ok (l', g') /\
    conn_shape l' /\
    tidy l' /\
    l_n_inputs l' = pn /\
    l_n_outputs l' = l_n_outputs l /\
    l_biases l' = l_biases l /\
    (has l EVOLVE_CONNECT = true -> wired l') /\
    (forall o i : Z,
     0 <= o < l_n_outputs l ->
     0 <= i < pn ->
     i < l_n_inputs l ->
     let k := l_n_inputs l * o + i in
     let k' := pn * o + i in
     (at_ false (l_active l) k = true ->
      at_ false (l_active l') k' = true /\ at_ fnan (l_weights l') k' = at_ fnan (l_weights l) k) /\
     (has l EVOLVE_CONNECT = false ->
      at_ false (l_active l') k' = at_ false (l_active l) k /\
      at_ fnan (l_weights l') k' = at_ fnan (l_weights l) k)) /\
    (forall o i : Z,
     0 <= o < l_n_outputs l -> l_n_inputs l <= i < pn -> at_ false (l_active l') (pn * o + i) = true).
Proof. exact @C43_resize_lemma. Qed.
Print Assumptions C42_resize.

(** So does a gradient-descent step. *)
Theorem C42_update :
  forall (lm : libm) (l : layer f64),
  conn_shape l ->
  tidy l ->
  exists l' : layer f64,
    weights_update (f64_arith lm) l = Ok l' /\
    conn_shape l' /\
    tidy l' /\
    l_active l' = l_active l /\
    l_n_active l' = l_n_active l /\
    l' = weights_only l (l_weights l') (l_weight_updates l') (l_biases l') (l_bias_updates l').
Proof. exact @C42_update_lemma. Qed.
Print Assumptions C42_update.

(** The count. *)
Theorem C42_count :
  forall l : layer f64,
  len (l_active l) = l_n_weights l -> layer_calc_n_active l = Ok (set_n_active (actives (l_active l)) l).
Proof. exact @C42_count_lemma. Qed.
Print Assumptions C42_count.

(** Two inputs, two neurons, the first feeding the first and the second the second. *)
Example C42_example :
  conn_shape (diag_layer 5) /\ tidy (diag_layer 5) /\ growable (diag_layer 5) /\ wired (diag_layer 5) /\ l_n_weights (diag_layer 5) <= N_WEIGHTS_MAX /\
  match connectivity const_lm 1 (diag_layer 5) fhalf fhalf tape3 with
  | Ok (l, b, _) => l_active l = [false; true; true; false] /\ l_n_active l = 2 /\ b = true
  | _ => False
  end.
Proof.
  destruct (diag_ok 5 ltac:(lia)) as (C & T & G & W). split; [exact C|]. split; [exact T|]. split; [exact G|]. split; [exact W|].
  split; [vm_compute; discriminate|]. vm_compute. auto.
Qed.
Example C42_nothing_example :
  match connectivity const_lm 1 (diag_layer 5) (lit 1 1000) (lit 1 1000) tape3 with Ok (l, b, _) => l_active l = l_active (diag_layer 5) /\ b = false | _ => False end.
Proof. vm_compute. auto. Qed.
Example C42_resize_example :
  match connected_resize const_lm 1 (diag_layer 5) 3 tape3 with Ok (l, _) => l_active l = [true; false; true; false; true; true] | _ => False end.
Proof. vm_compute. reflexivity. Qed.
