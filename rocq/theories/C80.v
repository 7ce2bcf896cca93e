(** * C80 A DGP graph written as JSON and inserted again is the same graph. *)
From Coq Require Import ZArith Bool List String Ascii Reals Lia Lra.
From Flocq Require Import Core BinarySingleNaN.
From Verif Require Import Outcome F64 F64Facts F64Bounds Rng RngFacts Pop Arr ArrFacts Sam SamFacts Cond Comp CompFacts Dgp DgpFacts Names Json PropJson ParJson PropParJson RuleJson PropRuleJson Clock DgpJson PropDgp PropDgpJson Demo.
Import ListNotations.
Open Scope Z_scope.

(** Every graph of whatever size [n], written and read with parameters [a]: the same graph, except
    that what is not finite is read as zero ([cleared]). *)
Theorem C80_round_trip :
  forall (type : string) (a : dargs) (n : Z) (g : graph),
  dargs_ok a ->
  dargs_ok (with_n a n) ->
  graph_sh (with_n a n) g ->
  Forall (fun v : f64 => share (kept f0 v) = true) (d_initial g) ->
  Forall (fun v : f64 => share (kept f0 v) = true) (d_state g) ->
  Forall (fun v : f64 => share (kept f0 v) = true) (d_mu g) ->
  exists j : json,
    dgp_export type g = Ok j /\
    (forall (c : graph) (r : rng), exists r' : rng, dgp_import a c j r = Ok (cleared g, r')) /\
    (Forall (fun v : binary_float 53 1024 => is_finite v = true) (d_initial g) ->
     Forall (fun v : binary_float 53 1024 => is_finite v = true) (d_state g) ->
     Forall (fun v : binary_float 53 1024 => is_finite v = true) (d_mu g) -> cleared g = g).
Proof. exact @C80_round_lemma. Qed.
Print Assumptions C80_round_trip.

(** Graphs that are valid for the parameters, with states and rates in [0,1]: exactly the same
    graph, whatever the rule held before and whatever is drawn. *)
Theorem C80_valid :
  forall (type : string) (a : dargs) (g : graph),
  dargs_ok a ->
  graph_ok a g ->
  Forall in01 (d_mu g) ->
  exists j : json,
    dgp_export type g = Ok j /\
    (forall (c : graph) (r : rng), exists r' : rng, dgp_import a c j r = Ok (g, r')).
Proof. exact @C80_valid_lemma. Qed.
Print Assumptions C80_valid.

(** Rules with a graph: the number of outputs is kept. *)
Theorem C80_rule :
  forall (a : dargs) (c : rgraph) (j : json) (r : rng) (g : graph) (r' : rng),
  dgp_import a (rg_graph c) j r = Ok (g, r') ->
  rdgp_import a c j r = Ok ({| rg_graph := g; rg_outputs := rg_outputs c |}, r').
Proof. exact @C80_rule_lemma. Qed.
Print Assumptions C80_rule.

(** All documents: which are accepted ([accepted]), and what is read ([read_graph]): every member
    that is given, and for the others a random graph ([drawn]). All others are refused, and there is
    no other outcome. *)
Theorem C80_import :
  forall (a : dargs) (t0 : Z) (j : json) (r : rng),
  dargs_ok a ->
  size a j * da_max_k a <= int_max ->
  size a j + da_n_inputs a <= int_max ->
  if accepted a j
  then
   exists (g : graph) (r' : rng),
     drawn a t0 (size a j) g /\ graph_import a t0 j r = Ok (read_graph a j g, r')
  else graph_import a t0 j r = Exit.
Proof. exact @import_eq. Qed.
Print Assumptions C80_import.

(** What is accepted has the right shape, functions that exist and states in [0,1] (numbers not
    outside it); it is a valid graph if the cycles are in the range, no connection is the first
    number that is too large, and rates are given. *)
Theorem C80_accepted :
  forall (a : dargs) (t0 : Z) (j : json) (r : rng) (g : graph) (r' : rng),
  dargs_ok a ->
  size a j * da_max_k a <= int_max ->
  size a j + da_n_inputs a <= int_max ->
  1 <= t0 ->
  graph_import a t0 j r = Ok (g, r') ->
  d_n g = size a j /\
  1 <= size a j /\
  d_evolve g = da_evolve a /\
  d_max_k g = da_max_k a /\
  d_max_t g = da_max_t a /\
  d_n_inputs g = da_n_inputs a /\
  d_klen g = size a j * da_max_k a /\
  len (d_initial g) = size a j /\
  len (d_state g) = size a j /\
  len (d_func g) = size a j /\
  len (d_conn g) = size a j * da_max_k a /\
  Forall (fun v : f64 => share v = true) (d_initial g) /\
  Forall (fun v : f64 => share v = true) (d_state g) /\
  Forall (fun f : Z => 0 <= f <= 2) (d_func g) /\
  Forall (fun c : Z => 0 <= c <= size a j + da_n_inputs a) (d_conn g) /\
  1 <= d_t g /\
  (array j "mutation" <> None -> len (d_mu g) = 3 /\ Forall (fun v : f64 => share v = true) (d_mu g)) /\
  (d_t g <= da_max_t a ->
   ~ In (size a j + da_n_inputs a) (d_conn g) ->
   array j "mutation" <> None -> rate_ok (at_ f0 (d_mu g) 2) -> graph_sh (with_n a (size a j)) g).
Proof. exact @read_valid. Qed.
Print Assumptions C80_accepted.

(** REFUTED for the number of nodes: for all parameters there is a document that is accepted, and
    copying the graph writes past the end of the blocks. *)
Theorem C80_refuted_size :
  forall (a : dargs) (c : graph) (r : rng),
  dargs_ok a ->
  dargs_ok (with_n a (da_n a + 1)) ->
  exists (j : json) (g : graph) (r' : rng),
    dgp_import a c j r = Ok (g, r') /\ (forall r2 : rng, dgp_copy a g r2 = UB OutOfBounds).
Proof. exact @C80_size_lemma. Qed.
Print Assumptions C80_refuted_size.

(** REFUTED for documents without rates: they are accepted, and the next mutation reads memory that
    was never written. *)
Theorem C80_refuted_rates :
  forall (a : dargs) (t0 : Z) (j : json) (r : rng) (g : graph) (r' : rng) (lm : libm) (r2 : rng),
  dargs_ok a ->
  size a j * da_max_k a <= int_max ->
  size a j + da_n_inputs a <= int_max ->
  array j "mutation" = None -> graph_import a t0 j r = Ok (g, r') -> graph_mutate lm g r2 = UB OutOfBounds.
Proof. exact @C80_rates_lemma. Qed.
Print Assumptions C80_refuted_rates.

(** REFUTED for the number of cycles: any positive number is accepted, also above the maximum. *)
Theorem C80_refuted_cycles :
  forall (a : dargs) (t0 : Z) (r : rng) (z : Z),
  dargs_ok a ->
  1 <= z ->
  exists (g : graph) (r' : rng),
    graph_import a t0 (JObj [("t", JNum (of_Z z) z)]) r = Ok (g, r') /\ d_t g = z.
Proof. exact @C80_cycles_lemma. Qed.
Print Assumptions C80_refuted_cycles.

(** A graph of two nodes and its document; it is read again as it was, by a generator in any state. *)
Definition args80 : dargs := mkDargs true 2 3 2 1.
Definition graph80 : graph := mkGraph true [fhalf; f1] [f0; fhalf] [0; 1; 2; 0] [1; 0] 4 2 3 2 1 2 [fhalf; fhalf; fhalf].
Example C80_example : dargs_ok args80 /\ graph_ok args80 graph80 /\ Forall in01 (d_mu graph80) /\
  dargs_ok (with_n args80 (da_n args80 + 1)) /\
  size args80 (document graph80) = 2 /\ accepted args80 (document graph80) = true /\
  accepted args80 (JObj []) = true /\ accepted args80 (JObj [("functions"%string, JArr [JNull; JStr "Fuzzy OR"])]) = true /\
  accepted args80 (JObj [("functions"%string, JArr [JNull; JStr "Fuzzy XOR"])]) = false /\
  accepted args80 (JObj [("connectivity"%string, JArr [JNull; JNum f0 3; JNull; JNull])]) = true /\
  accepted args80 (JObj [("connectivity"%string, JArr [JNull; JNum f0 4; JNull; JNull])]) = false /\
  accepted args80 (JObj [("t"%string, JNum (of_Z 1000) 1000)]) = true.
Proof.
  assert (H0 : in01 f0) by (split; [reflexivity|change (B2R f0) with 0%R; lra]).
  assert (H1 : in01 f1) by (split; [reflexivity|rewrite f1_R; lra]).
  assert (HH : in01 fhalf) by (split; [reflexivity|rewrite fhalf_R; lra]).
  assert (HR : rate_ok fhalf) by (split; vm_compute; reflexivity).
  split; [unfold dargs_ok, int_max; cbn; lia|].
  split.
  { split; [|split; cbn; repeat (apply Forall_cons; [assumption|]); apply Forall_nil].
    split; [unfold graph_base; cbn; do 6 (split; [reflexivity|]); split; [lia|]; split; [reflexivity|exact HR]|]. cbn.
    repeat (split; [reflexivity|]). split; repeat (apply Forall_cons; [lia|]); apply Forall_nil. }
  split; [cbn; repeat (apply Forall_cons; [assumption|]); apply Forall_nil|].
  split; [unfold dargs_ok, int_max; cbn; lia|]. repeat (split; [vm_compute; reflexivity|]). vm_compute; reflexivity.
Qed.
