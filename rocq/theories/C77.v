(** * C77 Whatever document is imported, parameters stay in range and agree with the dimensions. *)
From Coq Require Import ZArith Bool List String Ascii Lia.
From Verif Require Import Outcome F64 F64Facts Rng Arr ArrFacts Names Param Json Clock Dgp DgpFacts PropDgp Gp GpFacts GpOps PropGp Layer Net Recur ParJson PropNames PropParam PropParJson PropParPy PropTight.
Import ListNotations.
Open Scope Z_scope.

(** Any document: [parsed] says that numbers are not NaN, their integer values ints, and strings
    contain no terminator, as cJSON_Parse guarantees. *)
Theorem C77_range :
  forall (p : params) (j : json) (h : rng) (z : params) (h' : rng),
  parsed j -> in_range (p_sys p) -> param_json_import p j h = Ok (z, h') -> in_range (p_sys z).
Proof. exact @import_in_range. Qed.
Print Assumptions C77_range.

(** The Python constructor with any keywords: every parameter is in its range.  REFUTED that
    components agree with the dimensions: trees and graphs always have one input, whatever x_dim. *)
Theorem C77_python :
  forall (lm : libm) (blank : sys) (kw : json) (g : rng) (z : params) (g' : rng),
  parsed kw ->
  py_construct lm blank kw g = Ok (z, g') ->
  in_range (p_sys z) /\ ints (p_sys z) i_GP_N_INPUTS = Some 1 /\ ints (p_sys z) i_DGP_N_INPUTS = Some 1.
Proof. exact @py_inputs. Qed.
Print Assumptions C77_python.

(** REFUTED for GP trees: a condition of any Python object matches or not by the first input alone,
    whatever the others. *)
Theorem C77_refuted_trees :
  forall (lm : libm) (blank : sys) (kw : json) (g : rng) (z : params) (g' : rng) 
    (a : targs) (lm' : libm) (c : gptree) (v : f64) (xs ys : list f64),
  parsed kw ->
  py_construct lm blank kw g = Ok (z, g') ->
  ints (p_sys z) i_GP_N_INPUTS = Some (ta_inputs a) ->
  targs_ok a ->
  1 <= ta_depth a ->
  0 <= ta_max_len a <= int_max -> made_gp a lm' c -> gp_match a c (v :: xs) = gp_match a c (v :: ys).
Proof. exact @py_trees. Qed.
Print Assumptions C77_refuted_trees.

(** REFUTED for DGP graphs in the same way. *)
Theorem C77_refuted_graphs :
  forall (lm : libm) (blank : sys) (kw : json) (g : rng) (z : params) (g' : rng) 
    (a : dargs) (lm' : libm) (stateful : bool) (c : graph) (v : f64) (xs ys : list f64),
  parsed kw ->
  py_construct lm blank kw g = Ok (z, g') ->
  ints (p_sys z) i_DGP_N_INPUTS = Some (da_n_inputs a) ->
  dargs_ok a ->
  made_graph a lm' stateful c -> dgp_match stateful c (v :: xs) = dgp_match stateful c (v :: ys).
Proof. exact @py_graphs. Qed.
Print Assumptions C77_refuted_graphs.

(** What holds: trees see as many inputs as their parameters say. *)
Theorem C77_trees :
  forall (a : targs) (lm : libm) (c : gptree) (x y : list f64),
  targs_ok a ->
  1 <= ta_depth a ->
  0 <= ta_max_len a <= int_max ->
  made_gp a lm c ->
  ta_inputs a <= len x ->
  ta_inputs a <= len y ->
  (forall i : Z, 0 <= i < ta_inputs a -> rd x i = rd y i) -> gp_match a c x = gp_match a c y.
Proof. exact @tree_sees. Qed.
Print Assumptions C77_trees.

(** So do graphs. *)
Theorem C77_graphs :
  forall (a : dargs) (lm : libm) (stateful : bool) (g : graph) (x y : list f64),
  dargs_ok a ->
  made_graph a lm stateful g ->
  (forall i : Z, i < da_n_inputs a -> rd x i = rd y i) -> dgp_match stateful g x = dgp_match stateful g y.
Proof. exact @graph_sees. Qed.
Print Assumptions C77_graphs.

(** REFUTED for networks: layers that are not given stay those for one input, one output and one
    action. *)
Theorem C77_refuted_layers :
  forall (lm : libm) (blank : sys) (kw : json) (g : rng) (z : params) (g' : rng),
  py_construct lm blank kw g = Ok (z, g') ->
  (no_args "condition" kw -> p_cond z = cond_layers 1) /\
  (no_args "action" kw -> p_act z = act_layers 1 1) /\
  (no_args "prediction" kw -> p_pred z = pred_layers 1 1).
Proof. exact @py_layers. Qed.
Print Assumptions C77_refuted_layers.

(** Keywords x_dim=5, y_dim=2, condition={"type": "tree_gp"}, prediction={"type": "neural"}. *)
Definition C77_kwargs : json := JObj [("x_dim"%string, num (of_Z 5)); ("y_dim"%string, num (of_Z 2));
  ("condition"%string, JObj [("type"%string, JStr "tree_gp")]); ("prediction"%string, JObj [("type"%string, JStr "neural")])].
Definition C77_sys : option (option Z * option Z * option Z * option Z) :=
  match py_construct unit_lm blank_sys C77_kwargs unit_rng with
  | Ok (z, _) => Some (ints (p_sys z) i_X_DIM, ints (p_sys z) i_COND_TYPE, ints (p_sys z) i_PRED_TYPE, ints (p_sys z) i_GP_N_INPUTS)
  | _ => None
  end.
Example C77_parsed : parsed C77_kwargs.
Proof. cbn. repeat split; try (vm_compute; congruence); apply plain_dec; reflexivity. Qed.
Example C77_runs : C77_sys = Some (Some 5, Some 5, Some 5, Some 1).
Proof. vm_compute. reflexivity. Qed.
Example C77_no_args : no_args "prediction" C77_kwargs.
Proof. intros e k I _ _. cbn [children C77_kwargs map In] in I. repeat (destruct I as [<-|I]; [vm_compute; reflexivity|]). destruct I. Qed.
(** Parameters for which the theorems about trees and graphs hold. *)
Example C77_args : targs_ok (mkTargs f1 f0 1 3 5 100 [f1; f0; f1]) /\ dargs_ok (mkDargs true 2 2 4 1).
Proof. split; unfold targs_ok, dargs_ok, len, int_max; cbn; lia. Qed.
