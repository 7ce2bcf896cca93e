(** * C43 Neuron growth respects limits. *)
From Coq Require Import ZArith Bool List Reals Lra Lia.
From Flocq Require Import Core BinarySingleNaN.
From Verif Require Import Outcome F64 F64Facts F64Bounds Rng RngFacts Sam SamFacts Arr ArrFacts Blas BlasFacts Exact Demo Act ActFacts Image Layer LayerFacts PropConn PoolFacts PropPool ConvFacts PropConv MutFacts FiltFacts UpdFacts PropMut PropUpd.
Import ListNotations.
Open Scope Z_scope.

(** The number of neurons to add, for any random numbers and any libm: the layer stays within one
    and its maximum. *)
Theorem C43_count :
  forall (lm : libm) (fuel : nat) (l : layer f64) (mu : f64) (g : rng) (n : Z) (g' : rng),
  0 <= l_n_outputs l <= 1000000000 ->
  1 <= l_max_outputs l ->
  Z.abs (l_grow l) <= 1000000000 ->
  layer_mutate_neurons lm fuel l mu g = Ok (n, g') -> n = 0 \/ 1 <= l_n_outputs l + n <= l_max_outputs l.
Proof. exact @C43_count_lemma. Qed.
Print Assumptions C43_count.

(** Adding or removing neurons: terminates, and the surviving weights, connections and biases are
    kept; new ones are as stated by [grown]; nothing else changes. *)
Theorem C43_add :
  forall (lm : libm) (l : layer f64) (N : Z) (g : rng),
  conn_shape l ->
  1 <= l_n_inputs l ->
  1 <= l_n_outputs l + N <= N_OUTPUTS_MAX ->
  (l_n_outputs l + N) * l_n_inputs l <= N_WEIGHTS_MAX ->
  exists (l' : layer f64) (g' : rng),
    layer_add_neurons lm l N g = Ok (l', g') /\
    grown l l' N /\
    survives l l' /\ fixed l' = fixed l /\ l_mu l' = l_mu l /\ l_function l' = l_function l.
Proof. exact @C43_add_lemma. Qed.
Print Assumptions C43_add.

(** The whole mutation of a connected layer. *)
Theorem C43_mutate :
  forall (lm : libm) (fuel : nat) (l : layer f64) (g : rng) (l' : layer f64) (b : bool) (g' : rng),
  (1 <= fuel)%nat ->
  conn_shape l ->
  tidy l -> growable l -> connected_mutate lm fuel l g = Ok (l', b, g') -> layer_mutated l l'.
Proof. exact @C43_mutate_lemma. Qed.
Print Assumptions C43_mutate.

(** With a libm accurate enough for the normal draws to be within 64, it never fails; only the loop
    drawing a self-adaptive rate may still be running. *)
Theorem C43_safe :
  forall (lm : libm) (fuel : nat) (l : layer f64) (g : rng),
  libm_ok lm ->
  gen_ok g ->
  (1 <= fuel)%nat ->
  conn_shape l ->
  tidy l ->
  growable l ->
  match connected_mutate lm fuel l g with
  | Ok (_, _, g') => gen_ok g'
  | OutOfFuel => True
  | _ => False
  end.
Proof. exact @C43_safe_lemma. Qed.
Print Assumptions C43_safe.

(** The same for the filters of a convolutional layer. *)
Theorem C43_filters :
  forall (lm : libm) (l : layer f64) (N : Z) (g : rng),
  conv_shape l ->
  len (l_active l) = l_n_weights l ->
  1 <= l_n_filters l + N ->
  l_out_h l * l_out_w l * (l_n_filters l + N) <= N_OUTPUTS_MAX ->
  (l_n_filters l + N) * (l_channels l * l_size l * l_size l) <= N_WEIGHTS_MAX ->
  exists (l' : layer f64) (g' : rng),
    convolutional_add_filters lm l N g = Ok (l', g') /\ filters l l' N /\ filters_survive l l'.
Proof. exact @C43_filters_lemma. Qed.
Print Assumptions C43_filters.

(** The whole mutation of a convolutional layer. *)
Theorem C43_conv :
  forall (lm : libm) (fuel : nat) (l : layer f64) (g : rng) (l' : layer f64) (b : bool) (g' : rng),
  conv_shape l ->
  len (l_active l) = l_n_weights l ->
  l_out_c l = l_n_filters l ->
  tidy l -> conv_growable l -> convolutional_mutate lm fuel l g = Ok (l', b, g') -> conv_mutated l l'.
Proof. exact @C43_conv_lemma. Qed.
Print Assumptions C43_conv.

(** It never fails either. *)
Theorem C43_conv_safe :
  forall (lm : libm) (fuel : nat) (l : layer f64) (g : rng),
  libm_ok lm ->
  gen_ok g ->
  conv_shape l ->
  len (l_active l) = l_n_weights l ->
  l_out_c l = l_n_filters l ->
  tidy l ->
  conv_growable l ->
  match convolutional_mutate lm fuel l g with
  | Ok (_, _, g') => gen_ok g'
  | OutOfFuel => True
  | _ => False
  end.
Proof. exact @C43_conv_safe_lemma. Qed.
Print Assumptions C43_conv_safe.

Example C43_example :
  conn_shape (diag_layer 5) /\ tidy (diag_layer 5) /\ growable (diag_layer 5) /\
  match connected_mutate const_lm 1 (diag_layer 5) tape3, connected_mutate const_lm 1 (diag_layer 1) tape3c with
  | Ok (l, _, _), Ok (l', _, _) => (l_n_outputs l, l_active l) = (1, [true; false]) /\ (l_n_outputs l', l_active l') = (3, [true; false; false; true; false; false])
  | _, _ => False
  end.
Proof.
  destruct (diag_ok 5 ltac:(lia)) as (C & T & G & W). split; [exact C|]. split; [exact T|]. split; [exact G|]. vm_compute. auto.
Qed.
Example C43_filters_example :
  match convolutional_add_filters const_lm one_filter 2 tape3 with
  | Ok (l, _) => (l_n_filters l, l_n_weights l, l_n_outputs l, l_out_c l) = (3, 3, 6, 3) /\ map to_int (firstn 1 (l_weights l)) = [Some 1]
  | _ => False
  end.
Proof. vm_compute. auto. Qed.
