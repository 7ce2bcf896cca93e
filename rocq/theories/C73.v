(** * C73 Systems whose conditions, actions and predictions are networks stay sound. *)
From Coq Require Import ZArith Bool List Lia.
From Verif Require Import Outcome F64 Rng Pop PopSpec PopFit PopRL PopOps PopSeq Arr ArrFacts Comp CompFacts Act Loss Layer PropMut Net NetFacts NetLayer NetChain PropNet PropFwd NetAct PropSys Demo.
Import ListNotations.
Open Scope Z_scope.

(** Any configuration in the limits, any operations from an empty system. [steady ni no n]: a sound
    network (C66) of connected layers with a fixed number of neurons and softmax layers, ni inputs,
    no outputs. [steady_arg]: parameters of such layers. [train] stands for exploring, see
    C73_train. *)
Theorem C73_life :
  forall (dom : list f64 -> Prop) (K : cfg) (kf : Z) (train : bool) (cargs aargs pargs : list largs)
    (E : Type) (VE : env E) (einv : E -> Prop) (V : vtab (payload (nn f64) (nn f64) (nn f64)))
    (wf : payload (nn f64) (nn f64) (nn f64) -> Prop),
  cfg_ok K kf ->
  (1 <= loop_fuel K)%nat ->
  1 <= n_actions K ->
  args_ok (x_dim K) cargs ->
  Forall (fun a : largs => la_type a = CONNECTED /\ la_evolve_neurons a = false) cargs ->
  args_ok (x_dim K) aargs ->
  Forall steady_arg aargs ->
  n_actions K <= args_outputs (x_dim K) aargs ->
  args_ok (x_dim K) pargs ->
  Forall steady_arg pargs ->
  args_outputs (x_dim K) pargs = y_dim K ->
  env_ok (dom := dom) True K VE einv ->
  V = join (neural_cond K cargs train) (neural_act K aargs train) (neural_pred K pargs train) ->
  wf =
  wf_pay (wf_cond K (args_outputs (x_dim K) cargs)) (steady (x_dim K) (args_outputs (x_dim K) aargs))
    (steady (x_dim K) (y_dim K)) ->
  forall (os : list op) (s : st (payload (nn f64) (nn f64) (nn f64))),
  (forall l : loc, s_heap s l = None) ->
  Forall (op_ok (dom := dom) True K kf wf einv) os ->
  costs K os <= 2 ^ 53 ->
  hpost True ((xcsf_init V K;;; run_ops V K VE os) s)
    (fun (_ : unit) (s' : st (payload (nn f64) (nn f64) (nn f64))) =>
     set_nm (s_pset s') = sum_nums (s_heap s') (set_list (s_pset s')) /\
     set_nm (s_pset s') <= POP_SIZE K /\
     (forall l : loc,
      In l (set_list (s_pset s')) ->
      exists (r : cl (payload (nn f64) (nn f64) (nn f64))) (nc na np : nn f64),
        s_heap s' l = Some r /\
        c_body r = {| y_cond := Some nc; y_act := Some na; y_pred := Some np |} /\
        1 <= c_num r /\
        0 <= c_action r < n_actions K /\
        len (c_prediction r) = y_dim K /\
        steady (x_dim K) (args_outputs (x_dim K) cargs) nc /\
        connected_only nc /\
        steady (x_dim K) (args_outputs (x_dim K) aargs) na /\ steady (x_dim K) (y_dim K) np)).
Proof. exact @C73_life_lemma. Qed.
Print Assumptions C73_life.

(** Hence networks meet what the theorems about populations (C01 to C09 and others) ask of rules;
    [says_yes]: the first output is above one half. *)
Theorem C73 :
  forall (dom : list f64 -> Prop) (K : cfg) (train : bool) (cargs aargs pargs : list largs),
  (1 <= loop_fuel K)%nat ->
  1 <= n_actions K ->
  args_ok (x_dim K) cargs ->
  Forall (fun a : largs => la_type a = CONNECTED /\ la_evolve_neurons a = false) cargs ->
  args_ok (x_dim K) aargs ->
  Forall steady_arg aargs ->
  n_actions K <= args_outputs (x_dim K) aargs ->
  args_ok (x_dim K) pargs ->
  Forall steady_arg pargs ->
  args_outputs (x_dim K) pargs = y_dim K ->
  vt_ok (dom := dom) True (join (neural_cond K cargs train) (neural_act K aargs train) (neural_pred K pargs train)) K
    (wf_pay (wf_cond K (args_outputs (x_dim K) cargs)) (steady (x_dim K) (args_outputs (x_dim K) aargs))
       (steady (x_dim K) (y_dim K))) (mt_pay (says_yes (lm K))).
Proof. exact @C73_lemma. Qed.
Print Assumptions C73.

(** Exploring or not makes no difference to these networks. *)
Theorem C73_train :
  forall (lm : libm) (t1 t2 : bool) (n : nn f64) (x : list f64) (g : rng),
  Forall steady_layer (nn_layers n) -> neural_propagate lm t1 n x g = neural_propagate lm t2 n x g.
Proof. exact @C73_train_lemma. Qed.
Print Assumptions C73_train.

(** The action of a sound network is the first index of the largest of the first outputs. *)
Theorem C73_action :
  forall (K : cfg) (train : bool) (n : nn f64) (x : list f64) (g : rng),
  net_ok n ->
  faces n ->
  nn_inputs n <= len x ->
  1 <= n_actions K <= nn_outputs n ->
  exists (ls : list (layer f64)) (i : Z) (g' : rng),
    net_act K train n x g = Ok (with_layers n ls, i, g') /\
    through (lm K) train (nn_layers n) x ls /\
    0 <= i < n_actions K /\
    ((forall j : Z, 0 <= j < n_actions K -> BinarySingleNaN.is_nan (at_ f0 (outputs_of ls) j) = false) ->
     (forall j : Z,
      0 <= j < n_actions K -> fle (at_ f0 (outputs_of ls) j) (at_ f0 (outputs_of ls) i) = true) /\
     (forall j : Z, 0 <= j < i -> flt (at_ f0 (outputs_of ls) j) (at_ f0 (outputs_of ls) i) = true)).
Proof. exact @C73_action_lemma. Qed.
Print Assumptions C73_action.

(** Covering: if it ends, the network proposes the action, whatever the mode and the generator. *)
Theorem C73_cover :
  forall (K : cfg) (train : bool) (fuel : nat) (n n' : nn f64) (x : list f64) (action : Z) (g g' : rng),
  steady (x_dim K) (nn_outputs n) n ->
  connected_only n ->
  len x = x_dim K ->
  1 <= n_actions K <= nn_outputs n ->
  act_cover K train fuel n x action g = Ok (n', g') ->
  steady (x_dim K) (nn_outputs n) n' /\
  connected_only n' /\
  (forall (t : bool) (g2 : rng),
   exists (n2 : nn f64) (g3 : rng), net_act K t n' x g2 = Ok (n2, action, g3)).
Proof. exact @C73_cover_lemma. Qed.
Print Assumptions C73_cover.

(** REFUTED if the action network has fewer outputs than there are actions: nothing checks this, and
    the first action computed reads past the outputs. *)
Theorem C73_refuted_outputs :
  forall (K : cfg) (train : bool) (args : list largs) (x : list f64) (g : rng),
  args_ok (x_dim K) args ->
  args_outputs (x_dim K) args < n_actions K ->
  len x = x_dim K ->
  exists (c : nn f64) (g' : rng),
    neural_create (lm K) args g = Ok (c, g') /\ (forall g2 : rng, net_act K train c x g2 = UB OutOfBounds).
Proof. exact @C73_refuted_outputs_lemma. Qed.
Print Assumptions C73_refuted_outputs.

(** The hypotheses are met by a linear network for each part; computing and covering an action. *)
Definition lin_args (no : Z) : list largs := [mkLargs CONNECTED 2 no no 0 LINEAR 0 0 0 0 0 0 f0 f0 f0 f0 f0 f0 true false false false false true].
Example C73_args :
  args_ok (x_dim K2) (lin_args 1) /\ Forall (fun a => la_type a = CONNECTED /\ la_evolve_neurons a = false) (lin_args 1) /\
  args_ok (x_dim K2) (lin_args 2) /\ Forall steady_arg (lin_args 2) /\ n_actions K2 <= args_outputs (x_dim K2) (lin_args 2) /\
  Forall steady_arg (lin_args 1) /\ args_outputs (x_dim K2) (lin_args 1) = y_dim K2 /\ cfg_ok K2 0 /\ (1 <= loop_fuel K2)%nat /\ 1 <= n_actions K2.
Proof.
  assert (A : forall k, k = 1 \/ k = 2 -> args_ok (x_dim K2) (lin_args k)).
  { intros k [-> | ->]; (split; [reflexivity|]; split; [vm_compute; discriminate|]; split; [left; vm_compute; intuition congruence|exact I]). }
  assert (S : forall k, Forall steady_arg (lin_args k)) by (intros k; constructor; [|constructor]; split; [left|]; reflexivity).
  split; [apply A; auto|]. split; [constructor; [split; reflexivity|constructor]|]. split; [apply A; auto|]. split; [apply S|]. split; [vm_compute; discriminate|].
  split; [apply S|]. split; [reflexivity|]. split; [exact K2_ok|]. split; [cbn; lia|vm_compute; discriminate].
Qed.
Definition K73 : cfg := mkCfg 2 2 1 8 20 10000 1 50 f0 f0 f0 f0 f0 f0 f0 f0 f0 false false true false f0 f0 2 false false f0 f0 (fun _ _ => f0) const_lm 100 false.
Example C73_example :
  match neural_create const_lm (lin_args 2) tape3 with
  | Ok (c, g) =>
    match net_act K73 true c [f1; f0] g with Ok (_, i, _) => i = 0 | _ => False end /\
    match act_cover K73 true 3 c [f1; f0] 1 g with Ok (_, _) => True | _ => False end
  | _ => False
  end.
Proof. vm_compute. auto. Qed.
