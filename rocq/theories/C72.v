(** * C72 Networks in a population can be deepened and turned into classifiers. *)
From Coq Require Import ZArith Bool List Lia.
From Verif Require Import Outcome F64 Rng Sam Arr ArrFacts Pop Comp Dgp Act Layer PropMut Net NetFacts NetLayer NetChain PropRange Expand PropExpand.
Import ListNotations.
Open Scope Z_scope.

(** One network with a hidden layer: the new layer is put before the output layer, the others are
    the very same, and the network is sound. *)
Theorem C72_expand :
  forall (lm : libm) (fuel : nat) (a : largs) (n : nn f64) (pre : list (layer f64)) 
    (h out : layer f64) (g : rng),
  net_ok n ->
  faces n ->
  nn_layers n = pre ++ [h; out] ->
  0 <= la_function a < NUM_ACTIVATIONS ->
  l_n_outputs h <= l_max_outputs h <= caps (nn_inputs n) (pre ++ [h]) ->
  l_max_outputs h <= N_OUTPUTS_MAX ->
  l_max_outputs h * caps (nn_inputs n) (pre ++ [h]) <= N_WEIGHTS_MAX ->
  exists (l : layer f64) (g' : rng),
    let n' := {| nn_layers := pre ++ [h; l; out]; nn_inputs := nn_inputs n; nn_outputs := nn_outputs n |}
      in
    pred_neural_expand lm fuel a n g = Ok (n', g') /\
    net_ok n' /\
    faces n' /\
    l_n_inputs l = l_n_outputs h /\
    l_n_outputs l = l_n_outputs h /\
    l_max_outputs l = l_max_outputs h /\ like_args a (la_function a) (la_evolve_functions a) l.
Proof. exact @C72_expand_lemma. Qed.
Print Assumptions C72_expand.

(** One network: n_del layers are removed from the end (but never the first), a linear and a softmax
    layer of y neurons appended. [kept n_del ls]: the first max(1, length - n_del) layers. *)
Theorem C72_classifier :
  forall (lm : libm) (a : largs) (y n_del : Z) (n : nn f64) (g : rng),
  net_ok n ->
  faces n ->
  1 <= y <= N_OUTPUTS_MAX ->
  y * caps (nn_inputs n) (kept n_del (nn_layers n)) <= N_WEIGHTS_MAX ->
  exists (l s : layer f64) (g' : rng),
    let n' :=
      {| nn_layers := kept n_del (nn_layers n) ++ [l; s]; nn_inputs := nn_inputs n; nn_outputs := y |} in
    pred_neural_ae_to_classifier lm a y n_del n g = Ok (n', g') /\
    net_ok n' /\
    faces n' /\
    l_n_outputs l = y /\
    l_max_outputs l = y /\
    like_args a LINEAR false l /\ l_type s = SOFTMAX /\ l_n_outputs s = y /\ l_scale s = f1.
Proof. exact @C72_classifier_lemma. Qed.
Print Assumptions C72_classifier.

(** The whole population: every rule gets an expanded network and starts anew; nothing else changes.
    *)
Theorem C72_pred_expand :
  forall (C A : Type) (K : cfg) (a : largs) (s : st (payload C A (nn f64))),
  NoDup (set_list (s_pset s)) ->
  0 <= la_function a < NUM_ACTIVATIONS ->
  (forall i : loc,
   In i (set_list (s_pset s)) ->
   exists (c : cl (payload C A (nn f64))) (n : nn f64),
     s_heap s i = Some c /\ y_pred (c_body c) = Some n /\ expandable n) ->
  exists (hp : loc -> option (cl (payload C A (nn f64)))) (g' : rng),
    xcsf_pred_expand K a s = Ok (tt, with_rng g' (with_heap hp (s_next s) s)) /\
    (forall i : loc, ~ In i (set_list (s_pset s)) -> hp i = s_heap s i) /\
    (forall i : loc,
     In i (set_list (s_pset s)) ->
     exists (c : cl (payload C A (nn f64))) (n : nn f64) (c' : cl (payload C A (nn f64))) 
     (n' : nn f64),
       s_heap s i = Some c /\
       y_pred (c_body c) = Some n /\
       hp i = Some c' /\
       y_pred (c_body c') = Some n' /\
       renewed K (s_time s) c c' /\ c_prediction c' = c_prediction c /\ expanded a n n').
Proof. exact @C72_pred_expand_lemma. Qed.
Print Assumptions C72_pred_expand.

(** The whole population: every rule gets a converted network and a prediction of the new length and
    starts anew; the prediction arrays have the new size; nothing else changes, in particular not
    the rules of the stored population. *)
Theorem C72_to_classifier :
  forall (C A : Type) (K : cfg) (a : largs) (n_del : Z) (s : st (payload C A (nn f64))),
  NoDup (set_list (s_pset s)) ->
  1 <= y_dim K <= N_OUTPUTS_MAX ->
  (forall i : loc,
   In i (set_list (s_pset s)) ->
   exists (c : cl (payload C A (nn f64))) (n : nn f64),
     s_heap s i = Some c /\ y_pred (c_body c) = Some n /\ convertible (y_dim K) n_del n) ->
  exists (hp : loc -> option (cl (payload C A (nn f64)))) (g' : rng) (pa nr : list f64),
    xcsf_ae_to_classifier a K n_del s = Ok (tt, with_rng g' (with_heap hp (s_next s) (with_pa pa nr s))) /\
    length pa = Z.to_nat (n_actions K * y_dim K) /\
    length nr = Z.to_nat (n_actions K * y_dim K) /\
    (forall i : loc, ~ In i (set_list (s_pset s)) -> hp i = s_heap s i) /\
    (forall i : loc,
     In i (set_list (s_pset s)) ->
     exists (c : cl (payload C A (nn f64))) (n : nn f64) (c' : cl (payload C A (nn f64))) 
     (n' : nn f64),
       s_heap s i = Some c /\
       y_pred (c_body c) = Some n /\
       hp i = Some c' /\
       y_pred (c_body c') = Some n' /\
       renewed K (s_time s) c c' /\
       Z.of_nat (length (c_prediction c')) = y_dim K /\ converted a (y_dim K) n_del n n').
Proof. exact @C72_to_classifier_lemma. Qed.
Print Assumptions C72_to_classifier.

(** The list of layers: inserting here is inserting into the linked list of Llist.v. *)
Theorem C72_insert :
  forall (h : Llist.heap) (nt : Llist.net) (ls : list (nat * layer f64)) (n : nn f64) 
    (l : layer f64) (pos : Z),
  repr h nt ls ->
  same_as nt ls n ->
  match insert_layer n l pos with
  | Ok n' =>
      exists (h' : Llist.heap) (nt' : Llist.net) (ls' : list (nat * layer f64)),
        Llist.neural_insert l_n_inputs l_n_outputs h nt l pos = Ok (h', nt') /\
        repr h' nt' ls' /\ same_as nt' ls' n'
  | UB k => Llist.neural_insert l_n_inputs l_n_outputs h nt l pos = UB k
  | _ => Llist.neural_insert l_n_inputs l_n_outputs h nt l pos = OutOfFuel
  end.
Proof. exact @C72_insert_lemma. Qed.
Print Assumptions C72_insert.

(** The same for removing the output layer. *)
Theorem C72_pop :
  forall (h : Llist.heap) (nt : Llist.net) (ls : list (nat * layer f64)) (n : nn f64),
  repr h nt ls ->
  same_as nt ls n ->
  match pop_layer n with
  | Ok n' =>
      exists (h' : Llist.heap) (nt' : Llist.net) (ls' : list (nat * layer f64)),
        Llist.neural_pop l_n_outputs h nt = Ok (h', nt') /\ repr h' nt' ls' /\ same_as nt' ls' n'
  | Exit => Llist.neural_pop l_n_outputs h nt = Exit
  | _ => False
  end.
Proof. exact @C72_pop_lemma. Qed.
Print Assumptions C72_pop.

(** REFUTED for networks of one layer: a null pointer is always dereferenced. *)
Theorem C72_refuted_single :
  forall (lm : libm) (fuel : nat) (a : largs) (n : nn f64) (o : layer f64) (g : rng),
  net_ok n ->
  nn_layers n = [o] ->
  l_type o = CONNECTED ->
  0 <= la_function a < NUM_ACTIVATIONS -> pred_neural_expand lm fuel a n g = UB NullDeref.
Proof. exact @C72_refuted_single_lemma. Qed.
Print Assumptions C72_refuted_single.

(** REFUTED for the system after the conversion: the parameters from which networks are made are not
    converted. A rule made by covering has the old number of outputs; if that is less than the
    number of classes the program exits when the rule predicts. *)
Theorem C72_refuted_cover :
  forall (K : cfg) (train : bool) (args : list largs) (ni : Z) (x v : list f64) (g : rng),
  match args with
  | [] => False
  | b :: _ => la_n_inputs b = ni
  end ->
  1 <= ni <= len x ->
  args_fit ni args ->
  args_outputs ni args < y_dim K ->
  len v = y_dim K ->
  exists (c : nn f64) (g' : rng),
    neural_create (lm K) args g = Ok (c, g') /\ net_compute K train c v x g' = Exit.
Proof. exact @C72_refuted_cover_lemma. Qed.
Print Assumptions C72_refuted_cover.

(** REFUTED if the output layer has evolved (C66_refuted_outputs) and is not removed: the number of
    inputs of the new layer is out of date, and it reads past its input. *)
Theorem C72_refuted_stale :
  exists (lm : libm) (fuel : nat) (n n1 n2 : nn f64) (b : bool) (g g1 g2 : rng),
    net_ok n /\
    faces n /\
    neural_mutate lm fuel n g = Ok (n1, b, g1) /\
    pred_neural_ae_to_classifier lm some_largs 2 0 n1 g1 = Ok (n2, g2) /\
    neural_propagate lm false n2 [f1; f1] g2 = UB OutOfBounds.
Proof. exact @C72_refuted_stale_lemma. Qed.
Print Assumptions C72_refuted_stale.

(** The hypotheses are met: a network of a connected and a softmax layer. *)
Example C72_expandable : expandable two_layers /\ convertible 3 1 two_layers.
Proof.
  assert (F : faces two_layers) by (eexists; split; reflexivity).
  split; (split; [exact two_layers_ok|split; [exact F|]]); [|vm_compute; discriminate].
  exists [], (set_function LOGISTIC (diag_layer 5)), (soft_layer f1). split; [reflexivity|]. vm_compute. intuition discriminate.
Qed.
Definition layer_shapes (n : nn f64) := map (fun l => (l_type l, l_n_inputs l, l_n_outputs l)) (nn_layers n).
Example C72_example :
  match pred_neural_expand const_lm 1 some_largs two_layers tape3 with
  | Ok (n, _) => layer_shapes n = [(CONNECTED, 2, 2); (CONNECTED, 2, 2); (SOFTMAX, 2, 2)]
  | _ => False
  end /\
  match pred_neural_ae_to_classifier const_lm some_largs 3 1 two_layers tape3 with
  | Ok (n, _) => layer_shapes n = [(CONNECTED, 2, 2); (CONNECTED, 2, 3); (SOFTMAX, 3, 3)] /\ nn_outputs n = 3
  | _ => False
  end.
Proof. vm_compute. auto. Qed.
(** A population of one rule. *)
Example C72_population : let s := mkSt (fun i => if Nat.eqb i 0 then Some (mkCl f0 f0 1 5 f0 7 true [f0; f0] 0 3 2 (mkPay (Some tt) (Some tt) (Some two_layers))) else None)
    1%nat (mkSet [0%nat] 1 1) (mkSet [] 0 0) (mkSet [] 0 0) (mkSet [] 0 0) (mkSet [] 0 0) (mkSet [] 0 0) 9 f0 f0 f0 f0 f0 f0 [] [] [] true tape3 in
  NoDup (set_list (s_pset s)) /\
  (forall i, In i (set_list (s_pset s)) -> exists c n, s_heap s i = Some c /\ y_pred (c_body c) = Some n /\ expandable n).
Proof.
  cbv zeta. split; [repeat constructor; intros []|]. intros i [<-|[]]. eexists _, two_layers. split; [reflexivity|]. split; [reflexivity|]. apply C72_expandable.
Qed.
