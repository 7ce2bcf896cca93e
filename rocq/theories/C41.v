(** * C41 Rule covering delivers a matching rule with the requested action. *)
From Coq Require Import ZArith Bool List Lia.
From Verif Require Import Outcome F64 Rng RngFacts SamFacts Pop Arr ArrFacts EnvFacts Dgp DgpFacts PropDgp Act Layer PropMut Net NetFacts NetChain PropNet PropRule.
Import ListNotations.
Open Scope Z_scope.

(** What covering a DGP rule does guarantee, for every graph, input, action and generator: no fault;
    the rule returned matches the input OR computes the requested action. (In this model rdgp_match
    leaves the states the action is computed from; output 0 is the condition.) *)
Theorem C41_dgp :
  forall (K : cfg) (a : dargs),
  dargs_ok a ->
  pow2_exact (lm K) ->
  forall (stateful : bool) (fuel : nat) (x : list f64) (action : Z),
  da_n_inputs a <= len x ->
  forall (c : rgraph) (r : rng),
  rg_ok a c ->
  match rdgp_cover K stateful fuel c x action r with
  | Ok (d, _) =>
      rg_ok a d /\
      rg_outputs d = rg_outputs c /\
      (fgt (at_ f0 (d_state (rg_graph d)) 0) fhalf = true \/ rdgp_compute K d = Ok action)
  | OutOfFuel => True
  | _ => False
  end.
Proof. exact @C41_dgp_lemma. Qed.
Print Assumptions C41_dgp.

(** The action a DGP rule computes: the number in its outputs, limited to the last action. *)
Theorem C41_dgp_action :
  forall (K : cfg) (a : dargs),
  pow2_exact (lm K) ->
  forall c : rgraph,
  rg_ok a c ->
  rdgp_compute K c = Ok (Z.min (bits_value (d_state (rg_graph c)) (rg_outputs c)) (n_actions K - 1)).
Proof. exact @compute_ok. Qed.
Print Assumptions C41_dgp_action.

(** The same for neural rules. *)
Theorem C41_neural :
  forall K : cfg,
  pow2_exact (lm K) ->
  forall (train : bool) (fuel : nat) (x : list f64) (action : Z) (c : nn f64) (g : rng),
  rnet_ok c ->
  nn_inputs c <= len x ->
  match rnet_cover K train fuel c x action g with
  | Ok (d, _) =>
      rnet_ok d /\
      nn_outputs d = nn_outputs c /\
      (fgt (at_ f0 (outputs d) 0) fhalf = true \/ rnet_compute K d = Ok action)
  | OutOfFuel => True
  | _ => False
  end.
Proof. exact @C41_neural_lemma. Qed.
Print Assumptions C41_neural.

(** The action a neural rule computes. *)
Theorem C41_neural_action :
  forall K : cfg,
  pow2_exact (lm K) ->
  forall c : nn f64,
  rnet_ok c -> rnet_compute K c = Ok (Z.min (bits_value (outputs c) (nn_outputs c - 1)) (n_actions K - 1)).
Proof. exact @rnet_compute_ok. Qed.
Print Assumptions C41_neural_action.

(** REFUTED for DGP rules: the loop stops when only one of the two holds (rule_dgp.c:217-226 has &&
    for ||). A graph is returned that computes the action but does not match, and one that computes
    another action. *)
Theorem C41_refuted_dgp :
  exists (K : cfg) (a : dargs) (log2 : f64 -> f64) (c : rgraph) (g0 g0' : rng) 
  (fuel : nat),
    pow2_exact (lm K) /\
    dargs_ok a /\
    rdgp_init K a log2 g0 = Ok (c, g0') /\
    (exists (x : list f64) (action : Z) (g : rng) (d : rgraph) (g' : rng),
       0 <= action < n_actions K /\
       len x = da_n_inputs a /\
       rdgp_cover K false fuel c x action g = Ok (d, g') /\
       rdgp_compute K d = Ok action /\ (exists e : rgraph, rdgp_match false d x = Ok (e, false))) /\
    (exists (x : list f64) (action : Z) (g : rng) (d : rgraph) (g' : rng) (z : Z),
       0 <= action < n_actions K /\
       len x = da_n_inputs a /\
       rdgp_cover K false fuel c x action g = Ok (d, g') /\ rdgp_compute K d = Ok z /\ z <> action).
Proof. exact @C41_refuted_dgp_lemma. Qed.
Print Assumptions C41_refuted_dgp.

(** REFUTED for neural rules in the same two ways (rule_neural.c:226-235). *)
Theorem C41_refuted_neural :
  exists
    (K : cfg) (args : list largs) (log2 : f64 -> f64) (c : nn f64) (g0 g0' : rng) 
  (x : list f64) (action : Z) (fuel : nat),
    pow2_exact (lm K) /\
    args_ok (len x) args /\
    0 <= action < n_actions K /\
    rnet_init K args log2 g0 = Ok (c, g0') /\
    (exists (g : rng) (d : nn f64) (g' : rng),
       rnet_cover K false fuel c x action g = Ok (d, g') /\
       rnet_compute K d = Ok action /\
       (exists (e : nn f64) (g2 : rng), net_match K false d x g' = Ok (e, false, g2))) /\
    (exists (g : rng) (d : nn f64) (g' : rng) (z : Z),
       rnet_cover K false fuel c x action g = Ok (d, g') /\ rnet_compute K d = Ok z /\ z <> action).
Proof. exact @C41_refuted_neural_lemma. Qed.
Print Assumptions C41_refuted_neural.

(** A graph with no more nodes than action outputs (nothing checks this): computing its action reads
    past the states. *)
Theorem C41_refuted_short :
  forall (K : cfg) (a : dargs),
  dargs_ok a ->
  pow2_exact (lm K) ->
  forall c : rgraph,
  graph_sh a (rg_graph c) -> da_n a <= rg_outputs c -> da_n a <= 31 -> rdgp_compute K c = UB OutOfBounds.
Proof. exact @C41_short_lemma. Qed.
Print Assumptions C41_refuted_short.

(** A graph and a network that meet the hypotheses. *)
Example C41_example : dargs_ok rule_dargs /\ pow2_exact (lm rule_cfg) /\
  match rdgp_init rule_cfg rule_dargs one_bit half_tape with
  | Ok (c, _) => rg_outputs c = 1 /\ len (d_state (rg_graph c)) = 2 /\
    match rdgp_cover rule_cfg false 10 c [f1] 1 half_tape with Ok (d, _) => rdgp_compute rule_cfg d = Ok 1 | _ => False end
  | _ => False
  end.
Proof. split; [vm_compute; intuition congruence|]. split; [exact bit_pow_ok|]. vm_compute. auto. Qed.
Example C41_net_example : args_ok 1 rule_args /\
  match rnet_init rule_cfg rule_args one_bit tape3 with
  | Ok (c, _) => nn_outputs c = 2 /\ match rnet_cover rule_cfg false 10 c [f1] 0 tape3c with Ok (d, _) => rnet_compute rule_cfg d = Ok 0 | _ => False end
  | _ => False
  end.
Proof. split; [exact rule_args_ok|]. vm_compute. auto. Qed.
