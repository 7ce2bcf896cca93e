(** * C66 Networks keep their shape through evolution and learning. *)
From Coq Require Import ZArith Bool List Lia.
From Verif Require Import Outcome F64 Rng SamFacts Arr ArrFacts Act Layer LayerFacts MutFacts PropMut Net NetFacts NetLayer NetChain PropNet.
Import ListNotations.
Open Scope Z_scope.

(** [args_ok n args]: parameters of a network with n inputs that respects the limits even when every
    layer grows to its maximum. [net_ok c]: chained, sound layers, room to grow. [faces c]: the
    number of outputs the network keeps is that of its output layer. For every generator creation
    returns such a network. *)
Theorem C66_create :
  forall (lm : libm) (args : list largs) (n : Z) (g : rng),
  args_ok n args ->
  exists (c : nn f64) (g' : rng),
    neural_create lm args g = Ok (c, g') /\
    net_ok c /\
    faces c /\
    nn_inputs c = n /\
    nn_outputs c = args_outputs n args /\
    Forall2
      (fun (a : largs) (l : layer f64) =>
       l_type l = la_type a /\ (l_type l = CONNECTED -> l_options l = layer_args_opt a)) args
      (nn_layers c).
Proof. exact @C66_create_lemma. Qed.
Print Assumptions C66_create.

(** Copying returns a network with the same weights, biases, connections, functions and sizes
    ([content]). *)
Theorem C66_copy :
  forall n : nn f64,
  net_ok n ->
  exists n' : nn f64,
    neural_copy n = Ok n' /\
    net_ok n' /\
    faces n' /\ nn_inputs n' = nn_inputs n /\ map content (nn_layers n') = map content (nn_layers n).
Proof. exact @C66_copy_lemma. Qed.
Print Assumptions C66_copy.

(** Randomising changes no size. *)
Theorem C66_rand :
  forall (lm : libm) (n : nn f64) (g : rng),
  net_ok n ->
  exists (ls : list (layer f64)) (g' : rng),
    neural_rand lm n g = Ok (with_layers n ls, g') /\
    net_ok (with_layers n ls) /\ map dims ls = map dims (nn_layers n).
Proof. exact @C66_rand_lemma. Qed.
Print Assumptions C66_rand.

(** Propagating changes only states and outputs. *)
Theorem C66_propagate :
  forall (lm : libm) (train : bool) (n : nn f64) (x : list f64) (g : rng),
  net_ok n ->
  nn_inputs n <= len x ->
  exists (ls : list (layer f64)) (g' : rng),
    neural_propagate lm train n x g = Ok (with_layers n ls, g') /\
    net_ok (with_layers n ls) /\ map content ls = map content (nn_layers n).
Proof. exact @C66_propagate_lemma. Qed.
Print Assumptions C66_propagate.

(** Reading an output the network has. *)
Theorem C66_output :
  forall (n : nn f64) (i : Z),
  net_ok n -> faces n -> 0 <= i < nn_outputs n -> exists v : f64, neural_output n i = Ok v.
Proof. exact @C66_output_lemma. Qed.
Print Assumptions C66_output.

(** Learning changes no size and no output, if there is a target for every output of the output
    layer. *)
Theorem C66_learn :
  forall (lm : libm) (n : nn f64) (truth input : list f64) (p : layer f64),
  net_ok n ->
  out_layer n = Some p ->
  l_n_outputs p <= len truth ->
  nn_inputs n <= len input ->
  exists ls : list (layer f64),
    neural_learn (f64_arith lm) n truth input = Ok (with_layers n ls) /\
    net_ok (with_layers n ls) /\
    map dims ls = map dims (nn_layers n) /\ map l_output ls = map l_output (nn_layers n).
Proof. exact @C66_learn_lemma. Qed.
Print Assumptions C66_learn.

(** Mutation gives a network that is chained again, whatever neurons were added and removed; the
    numbers of neurons change only where evolving them is enabled. The bound on repeated draws of a
    non-zero step is the only way not to return. *)
Theorem C66_mutate :
  forall (lm : libm) (fuel : nat) (n : nn f64) (g : rng),
  libm_ok lm ->
  gen_ok g ->
  (1 <= fuel)%nat ->
  net_ok n ->
  match neural_mutate lm fuel n g with
  | Ok (n', _, g') =>
      gen_ok g' /\
      (exists ls : list (layer f64),
         n' = with_layers n ls /\
         net_ok n' /\
         map kind ls = map kind (nn_layers n) /\
         (~ Exists evolves (nn_layers n) -> map dims ls = map dims (nn_layers n)))
  | OutOfFuel => True
  | _ => False
  end.
Proof. exact @C66_mutate_lemma. Qed.
Print Assumptions C66_mutate.

(** Without evolving numbers of neurons mutation always returns, whatever the generator and libm do.
    *)
Theorem C66_mutate_fixed :
  forall (lm : libm) (fuel : nat) (n : nn f64) (g : rng),
  (1 <= fuel)%nat ->
  net_ok n ->
  ~ Exists evolves (nn_layers n) ->
  exists (ls : list (layer f64)) (b : bool) (g' : rng),
    neural_mutate lm fuel n g = Ok (with_layers n ls, b, g') /\
    net_ok (with_layers n ls) /\ map dims ls = map dims (nn_layers n).
Proof. exact @C66_mutate_fixed_lemma. Qed.
Print Assumptions C66_mutate_fixed.

(** neural_resize chains any sound layers that fit the limits. *)
Theorem C66_resize :
  forall (lm : libm) (fuel : nat) (n : nn f64) (g : rng),
  (1 <= fuel)%nat ->
  nn_layers n <> [] ->
  Forall sound (nn_layers n) ->
  room (nn_inputs n) (nn_layers n) ->
  match nn_layers n with
  | [] => True
  | l :: _ => l_n_inputs l = nn_inputs n
  end ->
  exists (ls : list (layer f64)) (g' : rng),
    neural_resize lm fuel n g = Ok (with_layers n ls, g') /\
    net_ok (with_layers n ls) /\ map kind ls = map kind (nn_layers n).
Proof. exact @C66_resize_lemma. Qed.
Print Assumptions C66_resize.

(** After any history of these operations the network is chained, has the inputs and kinds of layers
    it was created with; with the theorems above, the next operation is safe too. *)
Theorem C66_life :
  forall (lm : libm) (args : list largs) (n : Z) (c : nn f64),
  libm_ok lm ->
  args_ok n args ->
  life lm args c -> net_ok c /\ nn_inputs c = n /\ map l_type (nn_layers c) = map la_type args.
Proof. exact @C66_life_lemma. Qed.
Print Assumptions C66_life.

(** REFUTED for the number of outputs: when the output layer loses a neuron the network keeps the
    old number, and neural_output, used by pred_neural, act_neural and rule_neural, reads past the
    outputs. *)
Theorem C66_refuted_outputs :
  exists (lm : libm) (n n' : nn f64) (fuel : nat) (b : bool) (g g' : rng),
    net_ok n /\
    faces n /\
    neural_mutate lm fuel n g = Ok (n', b, g') /\ 1 < nn_outputs n' /\ neural_output n' 1 = UB OutOfBounds.
Proof. exact @C66_refuted_outputs_lemma. Qed.
Print Assumptions C66_refuted_outputs.

(** REFUTED for targets: an output layer with more neurons than y_dim passes the check in
    pred_neural_compute, and learning reads past the targets. *)
Theorem C66_refuted_targets :
  forall lm : libm,
  exists (n : nn f64) (truth x : list f64),
    net_ok n /\
    faces n /\
    len truth <= nn_outputs n /\
    nn_inputs n <= len x /\ neural_learn (f64_arith lm) n truth x = UB OutOfBounds.
Proof. exact @C66_refuted_targets_lemma. Qed.
Print Assumptions C66_refuted_targets.

(** REFUTED for image layers: layer_add_neurons leaves out_w as it was, so a pooling, convolutional
    or upsampling layer behind a connected layer that lost neurons is resized to the old size and
    reads past its input. *)
Theorem C66_refuted_image :
  exists (lm : libm) (n n' : nn f64) (fuel : nat) (b : bool) (g g' : rng) (x : list f64),
    with_pool = Ok n /\
    len x = nn_inputs n /\
    (exists (n1 : nn f64) (g1 : rng), neural_propagate lm false n x g = Ok (n1, g1)) /\
    neural_mutate lm fuel n g = Ok (n', b, g') /\ neural_propagate lm false n' x g' = UB OutOfBounds.
Proof. exact @C66_refuted_image_lemma. Qed.
Print Assumptions C66_refuted_image.

(** Two inputs, a connected layer of 3 (up to 4) neurons, dropout, a connected layer of 2 neurons, softmax. *)
Definition some_args : list largs :=
  [mkLargs CONNECTED 2 3 4 1 0 0 0 0 0 0 0 fhalf f0 f0 f0 f0 f0 true true true true true true;
   mkLargs DROPOUT 0 0 0 0 0 0 0 0 0 0 0 f0 f0 f0 f0 fhalf f0 false false false false false false;
   mkLargs CONNECTED 0 2 2 0 4 0 0 0 0 0 0 fhalf f0 f0 f0 f0 f0 true false true true true true;
   mkLargs SOFTMAX 0 0 0 0 0 0 0 0 0 0 0 f0 f0 f0 f0 f0 f1 false false false false false false].
Definition shapes (n : nn f64) := map (fun l => (l_type l, l_n_inputs l, l_n_outputs l)) (nn_layers n).
Example C66_args_example : args_ok 2 some_args.
Proof.
  split; [reflexivity|]. split; [lia|]. cbn [some_args args_fit].
  split; [left; vm_compute; intuition congruence|]. split; [right; split; [right; left; reflexivity|vm_compute; discriminate]|].
  split; [left; vm_compute; intuition congruence|]. split; [right; split; [left; reflexivity|vm_compute; discriminate]|exact I].
Qed.
(** Creation, mutation that adds a neuron to the first layer, propagation and learning. *)
Example C66_example :
  match neural_create const_lm some_args tape3 with
  | Ok (c, _) => shapes c = [(CONNECTED, 2, 3); (DROPOUT, 3, 3); (CONNECTED, 3, 2); (SOFTMAX, 2, 2)] /\
    match neural_propagate const_lm true c [f1; f0] tape3 with
    | Ok (c1, _) => match neural_learn (f64_arith const_lm) c1 [f1; f0] [f1; f0] with Ok c2 => shapes c2 = shapes c /\ nn_outputs c2 = 2 | _ => False end
    | _ => False
    end
  | _ => False
  end.
Proof. vm_compute. auto. Qed.
Example C66_mutate_example :
  match neural_mutate const_lm 1 (mkNn [diag_layer 1; small_layer [true; true] [f1; f1] 1 0 0 low_mu] 2 1) tape3c with
  | Ok (n, b, _) => shapes n = [(CONNECTED, 2, 3); (CONNECTED, 3, 1)] /\ b = true
  | _ => False
  end.
Proof. vm_compute. auto. Qed.
