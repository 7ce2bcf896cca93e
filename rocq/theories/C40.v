(** * C40 Dynamical GP graphs stay in range. *)
From Coq Require Import ZArith Bool List Reals Lia.
From Flocq Require Import Core BinarySingleNaN.
From Verif Require Import Outcome F64 F64Facts F64Bounds Rng RngFacts RandInt Pop PopSpec Arr ArrFacts Sam SamFacts Cond Pred Comp CompFacts Demo Dgp DgpFacts PropDgp PropDgpConn.
Import ListNotations.
Open Scope Z_scope.

(** REFUTED for inputs of any size: with large but finite inputs a product overflows, infinity times
    zero is NaN, and clamping leaves NaN; the state is then not in [0,1] (nor for infinite or NaN
    inputs). *)
Theorem C40_refuted :
  exists
    (a : dargs) (r : rng) (x : list (f64)) (g : graph) (r' : rng) 
  (g' : graph) (v : f64),
    dargs_ok a /\
    dgp_init a r = Ok (g, r') /\
    len x = da_n_inputs a /\
    Forall (fun u : f64 => is_finite u = true) x /\
    graph_update g x true = Ok g' /\ graph_output g' 0 = Ok v /\ is_nan v = true.
Proof. exact @C40_refuted_lemma. Qed.
Print Assumptions C40_refuted.

(** For inputs [tame], that is so small that no product of max_k of them overflows: after any
    sequence of initialisation, copying, mutation, matching and covering, stateful or not, with any
    random draws, every output is a number in [0,1], every connection names an input or a node,
    every function exists, the cycles are in [1, max_t]; and an update with whatever inputs accesses
    nothing outside the arrays. *)
Theorem C40_range :
  forall a : dargs,
  dargs_ok a ->
  forall (lm : libm) (stateful : bool) (g : graph),
  made_graph a lm stateful g ->
  (forall i : Z,
   0 <= i < da_n a -> exists v : f64, graph_output g i = Ok v /\ is_finite v = true /\ (0 <= B2R v <= 1)%R) /\
  len (d_conn g) = da_n a * da_max_k a /\
  (forall c : Z, In c (d_conn g) -> 0 <= c < da_n a + da_n_inputs a) /\
  (forall f : Z, In f (d_func g) -> f = 0 \/ f = 1 \/ f = 2) /\
  1 <= d_t g <= da_max_t a /\
  (forall (x : list f64) (reset : bool),
   da_n_inputs a <= len x -> exists g' : graph, graph_update g x reset = Ok g').
Proof. exact @C40_range_lemma. Qed.
Print Assumptions C40_range.

(** What an update computes, for all inputs: as many steps as there are cycles, from the initial or
    the current states; in every step all nodes read the states before the step. Nothing but the
    states changes. *)
Theorem C40_update :
  forall a : dargs,
  dargs_ok a ->
  forall (g : graph) (x : list f64) (reset : bool),
  graph_sh a g ->
  da_n_inputs a <= len x ->
  graph_update g x reset =
  Ok (with_state g (Nat.iter (Z.to_nat (d_t g)) (next g x) (if reset then d_initial g else d_state g))).
Proof. exact @C40_update_lemma. Qed.
Print Assumptions C40_update.

(** Mutation keeps the graph valid, leaves the states alone, moves the number of cycles by at most
    one and only when they evolve, and changes nothing unless it reports a change. (When cycles
    evolve a change is also reported when the step is zero.) *)
Theorem C40_mutation :
  forall a : dargs,
  dargs_ok a ->
  forall (lm : libm) (g : graph) (r : rng),
  graph_sh a g ->
  exists (g' : graph) (ch : bool) (r' : rng),
    graph_mutate lm g r = Ok (g', ch, r') /\
    graph_sh a g' /\
    d_initial g' = d_initial g /\
    d_state g' = d_state g /\
    d_t g - 1 <= d_t g' <= d_t g + 1 /\
    (da_evolve a = false -> d_t g' = d_t g) /\
    (ch = false -> d_func g' = d_func g /\ d_conn g' = d_conn g /\ d_t g' = d_t g) /\
    (ch = true -> da_evolve a = false -> d_func g' <> d_func g \/ d_conn g' <> d_conn g).
Proof. exact @C40_mutate_lemma. Qed.
Print Assumptions C40_mutation.

(** Every input and every node can be chosen: for each of these numbers there are two draws after
    which a random connection is that number. *)
Theorem C40_connections :
  forall nn ni c : Z,
  0 < nn <= int_max ->
  0 < ni <= int_max ->
  0 <= c < nn + ni ->
  exists m1 m2 : Z,
    forall g : rng,
    r_tape g (r_pos g) = m1 ->
    r_tape g (S (r_pos g)) = m2 -> random_connection nn ni g = Ok (c, advance (advance g)).
Proof. exact @connection_all. Qed.
Print Assumptions C40_connections.

(** A copy is identical. *)
Theorem C40_copy :
  forall a : dargs,
  dargs_ok a ->
  libm -> forall (g : graph) (r : rng), graph_sh a g -> exists r' : rng, dgp_copy a g r = Ok (g, r').
Proof. exact @C40_copy_lemma. Qed.
Print Assumptions C40_copy.

(** Covering ends only with a valid graph that matches; without state it matches the same input
    again. *)
Theorem C40_cover :
  forall a : dargs,
  dargs_ok a ->
  libm ->
  forall (stateful : bool) (fuel : nat) (x : list f64),
  da_n_inputs a <= len x ->
  forall (g : graph) (r : rng),
  graph_base a g ->
  match dgp_cover stateful fuel g x r with
  | Ok (d, _) =>
      graph_sh a d /\
      (tame a x -> graph_ok a d) /\
      fgt (at_ f0 (d_state d) 0) fhalf = true /\ (stateful = false -> dgp_match false d x = Ok (d, true))
  | OutOfFuel => True
  | _ => False
  end.
Proof. exact @C40_cover_lemma. Qed.
Print Assumptions C40_cover.

(** REFUTED for imported connections: the bound check is off by one; into every valid graph
    connections can be imported that make the next update read past the states. *)
Theorem C40_import_refuted :
  forall (a : dargs) (g : graph) (x : list f64) (reset : bool),
  dargs_ok a ->
  graph_sh a g ->
  len x = da_n_inputs a ->
  exists (items : list Z) (g' : graph),
    import_connectivity g items = Ok g' /\ graph_update g' x reset = UB OutOfBounds.
Proof. exact @C40_import_refuted_lemma. Qed.
Print Assumptions C40_import_refuted.

(** Except for that one number the import of connections accepts only valid ones, and rejects only
    invalid ones. *)
Theorem C40_import :
  forall (a : dargs) (g : graph) (items : list Z),
  graph_sh a g ->
  match import_connectivity g items with
  | Ok g' =>
      len items = da_n a * da_max_k a /\
      d_conn g' = items /\ (~ In (da_n a + da_n_inputs a) items -> graph_sh a g')
  | Exit =>
      len items <> da_n a * da_max_k a \/ (exists c : Z, In c items /\ ~ 0 <= c < da_n a + da_n_inputs a)
  | _ => False
  end.
Proof. exact @C40_import_lemma. Qed.
Print Assumptions C40_import.

(** Imported states are in [0,1], or NaN. *)
Theorem C40_import_states :
  forall (n : Z) (items : list f64),
  match import_states n items with
  | Ok s => s = items /\ len items = n /\ (Forall nn items -> Forall in01 items)
  | Exit => len items <> n \/ ~ Forall in01 items
  | _ => False
  end.
Proof. exact @C40_import_states_lemma. Qed.
Print Assumptions C40_import_states.

(** Rules with DGP conditions satisfy the contract assumed of conditions by the theorems about the
    population, on all inputs, with any action and prediction that satisfy theirs. *)
Theorem C40_system :
  forall (dom : list f64 -> Prop) (FO : Prop) (K : cfg) (a : dargs) (stateful : bool) 
    (A Q : Type) (VA : actT A) (VP : predT Q) (wa : A -> Prop) (wp : Q -> Prop),
  FO ->
  dargs_ok a ->
  da_n_inputs a <= x_dim K ->
  act_ok dom FO K VA wa ->
  pred_ok dom FO K VP wp ->
  vt_ok (dom := dom) FO (join (dgp_cond K a stateful) VA VP) K (wf_pay (graph_sh a) wa wp) (mt_pay dgp_matches).
Proof. exact @C40_system_lemma. Qed.
Print Assumptions C40_system.

(** Three nodes with two connections each, two inputs, at most five cycles: the random graph, and two updates. *)
Definition C40_args : dargs := mkDargs true 2 5 3 2.
Example C40_example : dargs_ok C40_args /\ tame C40_args [lit 1 4; of_Z (-3)] /\
  match dgp_init C40_args (demo_rng 3) with
  | Ok (g, r) => made_graph C40_args demo_lm false g /\ d_conn g = [2; 3; 0; 4; 2; 4] /\ d_func g = [0; 1; 2] /\ d_t g = 3 /\
      match dgp_match false g [lit 1 4; of_Z (-3)] with
      | Ok (d, b) => b = false /\ map (fun v => flt fhalf v) (d_state d) = [false; false; true]
      | _ => False
      end /\
      match graph_mutate demo_lm g r with Ok ((d, ch), _) => ch = true /\ d_conn d = [2; 3; 4; 2; 1; 3] | _ => False end
  | _ => False
  end.
Proof.
  split; [unfold dargs_ok, C40_args, int_max; cbn; lia|]. split.
  - exists 2. split; [lia|]. split; [cbn; lia|]. 
    constructor; [apply at_most_4; vm_compute; reflexivity|]. constructor; [apply at_most_4; vm_compute; reflexivity|constructor].
  - apply made_init. vm_compute. repeat split; reflexivity.
Qed.
