(** * C69 What networks compute, and when they report a change. *)
From Coq Require Import ZArith Bool List Reals Lra Lia.
From Flocq Require Import Core BinarySingleNaN.
From Verif Require Import Outcome F64 F64Facts F64Bounds Rng Sam Pop Arr ArrFacts Blas Exact Act ActFacts Layer LayerFacts MutFacts PropMut Net NetFacts NetLayer NetChain PropNet RangeFacts PropRange PropFwd PropFlag Demo.
Import ListNotations.
Open Scope Z_scope.

(** Any sound network (C66) and generator. [through lm train ls x ls']: layer by layer the input of
    the next is the output of this one, the content (everything but states and outputs) is kept, and
    the outputs are what the type of layer computes ([computes]: weighted sums, clamped and
    activated; inputs passed on; normalised exponentials). *)
Theorem C69_propagate :
  forall (lm : libm) (train : bool) (n : nn f64) (x : list f64) (g : rng),
  net_ok n ->
  nn_inputs n <= len x ->
  exists (ls : list (layer f64)) (g' : rng),
    neural_propagate lm train n x g = Ok (with_layers n ls, g') /\
    net_ok (with_layers n ls) /\ through lm train (nn_layers n) x ls /\ (train = false -> g' = g).
Proof. exact @C69_propagate_lemma. Qed.
Print Assumptions C69_propagate.

(** A neural prediction is the first outputs of the last layer, in order. *)
Theorem C69_predict :
  forall (K : cfg) (train : bool) (n : nn f64) (x v : list f64) (g : rng),
  net_ok n ->
  faces n ->
  nn_inputs n <= len x ->
  0 <= y_dim K <= nn_outputs n ->
  len v = y_dim K ->
  exists (ls : list (layer f64)) (v' : list f64) (g' : rng),
    net_compute K train n v x g = Ok (with_layers n ls, v', g') /\
    net_ok (with_layers n ls) /\
    through (lm K) train (nn_layers n) x ls /\
    len v' = y_dim K /\ (forall i : Z, 0 <= i < y_dim K -> at_ f0 v' i = at_ f0 (outputs_of ls) i).
Proof. exact @C69_predict_lemma. Qed.
Print Assumptions C69_predict.

(** A neural condition matches exactly if the first output is above one half. *)
Theorem C69_match :
  forall (K : cfg) (train : bool) (n : nn f64) (x : list f64) (g : rng),
  net_ok n ->
  faces n ->
  nn_inputs n <= len x ->
  exists (ls : list (layer f64)) (g' : rng),
    net_match K train n x g = Ok (with_layers n ls, flt fhalf (at_ f0 (outputs_of ls) 0), g') /\
    net_ok (with_layers n ls) /\ through (lm K) train (nn_layers n) x ls.
Proof. exact @C69_match_lemma. Qed.
Print Assumptions C69_match.

(** The size of a network is the number of its active weights. *)
Theorem C69_size :
  forall n : nn f64,
  Forall (fun l : layer f64 => weighty l = true -> tidy l) (nn_layers n) ->
  neural_size n =
  fold_right Z.add 0
    (map (fun l : layer f64 => if weighty l then actives (l_active l) else 0) (nn_layers n)).
Proof. exact @C69_size_lemma. Qed.
Print Assumptions C69_size.

(** Any layers: when mutation returns false every layer is the same apart from mutation rates (zeros
    may change sign); when it returns true and connections do not evolve some layer has another
    learning rate, number of neurons, activation function, weight or bias. *)
Theorem C69_flag :
  forall (lm : libm) (fuel : nat) (n n' : nn f64) (b : bool) (g g' : rng),
  neural_mutate lm fuel n g = Ok (n', b, g') ->
  nn_inputs n' = nn_inputs n /\
  nn_outputs n' = nn_outputs n /\
  (if b
   then
    Forall
      (fun l : layer f64 =>
       l_type l <> CONVOLUTIONAL /\ (l_type l = CONNECTED -> has l EVOLVE_CONNECT = false)) 
      (nn_layers n) -> some_changed (nn_layers n) (nn_layers n')
   else Forall2 unchanged (nn_layers n) (nn_layers n')).
Proof. exact @C69_flag_lemma. Qed.
Print Assumptions C69_flag.

(** The hypotheses are met: a logistic and a softmax layer. *)
Example C69_example : net_ok two_layers /\ faces two_layers /\ nn_inputs two_layers <= len [f1; f0] /\
  match neural_propagate edge_lm false two_layers [f1; f0] tape3 with
  | Ok (n, _) => map (fun l => len (l_output l)) (nn_layers n) = [2; 2] /\ flt f0 (at_ f0 (outputs_of (nn_layers n)) 0) = true
  | _ => False
  end /\ neural_size two_layers = 2.
Proof.
  split; [exact two_layers_ok|]. split; [eexists; split; reflexivity|]. split; [vm_compute; congruence|]. split; [vm_compute; auto|vm_compute; reflexivity].
Qed.
(** Nothing may evolve: unchanged and not reported.  A neuron added: reported. *)
Example C69_flag_example :
  match neural_mutate const_lm 1 (mkNn [small_layer [true; true] [f1; f1] 1 0 0 low_mu] 2 1) tape3 with
  | Ok (n, b, _) => (b, map (fun l => map to_int (l_weights l)) (nn_layers n)) = (false, [[Some 1; Some 1]]) | _ => False end /\
  match neural_mutate const_lm 1 (mkNn [diag_layer 1] 2 2) tape3c with Ok (n, b, _) => b = true | _ => False end.
Proof. split; vm_compute; reflexivity. Qed.
