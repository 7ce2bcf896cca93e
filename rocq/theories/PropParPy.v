(** * Lemmas for C76 and C77: documents that are refused, the Python constructor. *)
From Coq Require Import ZArith Bool List String Ascii Reals Relations Lia.
From Flocq Require Import Core BinarySingleNaN.
From Verif Require Import Outcome F64 F64Facts Rng Arr ArrFacts Names Param Json Clock Dgp DgpFacts PropDgp Gp GpFacts GpOps PropGp Layer Net Recur ParJson PropNames PropParam PropParJson.
Import ListNotations.
Open Scope Z_scope.

Ltac inner := repeat match goal with |- context [match ?t with Ok _ => _ | Exit => _ | UB _ => _ | OutOfFuel => _ end] =>
  lazymatch t with Ok _ => fail | context [match _ with Ok _ => _ | Exit => _ | UB _ => _ | OutOfFuel => _ end] => fail | _ => destruct t as [?v| | |]; try discriminate end end.

(** ** Export changes no parameter but those of layers *)
Lemma export_sys lm p g j p' g' : param_json_export lm p g = Ok ((j, p'), g') ->
  p_sys p' = p_sys p /\ p_consts p' = p_consts p /\
  (ints (p_sys p) i_COND_TYPE = Some 1 -> ints (p_sys p) i_PRED_TYPE = Some 1 -> ints (p_sys p) i_N_ACTIONS = Some 1 -> p' = p /\ g' = g).
Proof.
  unfold param_json_export. set (x := p_sys p).
  unfold bind at 1, lift at 1. destruct (general_json x); try discriminate. unfold bind at 1, lift at 1. destruct (ea_json x); try discriminate.
  unfold bind at 1, lift at 1. destruct (geti x i_COND_TYPE) as [ct| | |] eqn:CT; try discriminate. unfold bind at 1, lift at 1. destruct (geti x i_N_ACTIONS) as [na| | |] eqn:NA; try discriminate.
  unfold bind at 1.
  assert (A : forall r p1 g1, (if negb (rule_type ct) && (1 <? na) then bind (action_json lm p) (fun '(j, p) => ret ([("action"%string, j)], p)) else ret ([], p)) g = Ok ((r, p1), g1) ->
    p_sys p1 = x /\ p_consts p1 = p_consts p /\ (na = 1 -> p1 = p /\ g1 = g)).
  { intros r p1 g1. destruct (negb (rule_type ct) && (1 <? na)) eqn:B.
    - unfold action_json. fold x. unfold bind, lift, ret. destruct (geti x i_ACT_TYPE); try discriminate. destruct (fs "type" (action_type_as_string a1)); try discriminate.
      destruct (a1 =? 1).
      + destruct (layer_args_json_export lm (p_act p) g) as [((j0, l0), g0)| | |]; try discriminate. intros H. apply Ok_inj in H. injection H as <- <- <-. split; [reflexivity|]. split; [reflexivity|]. intros ->. rewrite andb_false_r in B. discriminate B.
      + intros H. apply Ok_inj in H. injection H as <- <- <-. repeat split.
    - intros H. apply Ok_inj in H. injection H as <- <- <-. repeat split. }
  match goal with |- match ?t with _ => _ end = _ -> _ => destruct t as [((r, p1), g1)| | |] eqn:EA; try discriminate end.
  destruct (A _ _ _ eq_refl) as (A1 & A2 & A3). clear A EA.
  unfold bind at 1.
  assert (C : forall r p2 g2, cond_json lm p1 g1 = Ok ((r, p2), g2) -> p_sys p2 = x /\ p_consts p2 = p_consts p1 /\ (ct = 1 -> p2 = p1 /\ g2 = g1)).
  { intros r0 p2 g2. unfold cond_json. rewrite A1. unfold bind at 1, lift at 1. rewrite CT. unfold bind at 1, lift at 1. destruct (fs "type" (condition_type_as_string ct)); try discriminate.
    repeat (match goal with |- (if ?b then _ else _) _ = _ -> _ => destruct b eqn:?B end);
    unfold bind, lift, ret;
    inner; try match goal with v : json * list larg2 * rng |- _ => destruct v as ((j0 & l0) & g0) end; intros H; apply Ok_inj in H; injection H as <- <- <-; (split; [exact A1|]); (split; [reflexivity|]); intros ->; first [split; reflexivity|discriminate]. }
  destruct (cond_json lm p1 g1) as [((c, p2), g2)| | |]; try discriminate. destruct (C _ _ _ eq_refl) as (C1 & C2 & C3). clear C.
  unfold bind at 1.
  assert (P : forall r p3 g3, pred_json lm p2 g2 = Ok ((r, p3), g3) -> p_sys p3 = x /\ p_consts p3 = p_consts p2 /\ (ints x i_PRED_TYPE = Some 1 -> p3 = p2 /\ g3 = g2)).
  { intros r0 p3 g3. unfold pred_json. rewrite C1. unfold bind at 1, lift at 1. unfold geti at 1. destruct (ints x i_PRED_TYPE) as [pt|]; try discriminate. unfold bind at 1, lift at 1. destruct (fs "type" (prediction_type_as_string pt)); try discriminate.
    repeat (match goal with |- (if ?b then _ else _) _ = _ -> _ => destruct b eqn:?B end);
    unfold bind, lift, ret;
    inner; try match goal with v : json * list larg2 * rng |- _ => destruct v as ((j0 & l0) & g0) end; intros H; apply Ok_inj in H; injection H as <- <- <-; (split; [exact C1|]); (split; [reflexivity|]); intros Q; injection Q as ->; first [split; reflexivity|discriminate]. }
  destruct (pred_json lm p2 g2) as [((c', p3), g3)| | |]; try discriminate. destruct (P _ _ _ eq_refl) as (P1 & P2 & P3). clear P.
  intros H. apply Ok_inj in H. injection H as <- <- <-. split; [exact P1|]. split; [congruence|].
  intros H1 H2 H3. unfold geti in CT, NA. rewrite H1 in CT. rewrite H3 in NA. apply Ok_inj in CT. apply Ok_inj in NA.
  destruct (A3 (eq_sym NA)) as (-> & ->). destruct (C3 (eq_sym CT)) as (-> & ->). exact (P3 H2).
Qed.

(** ** The Python constructor *)
Lemma default_types x y : param_init x 1 1 1 = Ok y -> ints y i_COND_TYPE = Some 1 /\ ints y i_PRED_TYPE = Some 1 /\ ints y i_N_ACTIONS = Some 1.
Proof.
  intros E. assert (H : match param_init x 1 1 1 with Ok y => ints y i_COND_TYPE = Some 1 /\ ints y i_PRED_TYPE = Some 1 /\ ints y i_N_ACTIONS = Some 1 | _ => False end) by (vm_compute; auto).
  rewrite E in H. exact H.
Qed.
Lemma py_inv lm blank kw g z g' : py_construct lm blank kw g = Ok (z, g') -> exists p h, in_range (p_sys p) /\
  ints (p_sys p) i_GP_N_INPUTS = Some 1 /\ ints (p_sys p) i_DGP_N_INPUTS = Some 1 /\
  p_act p = act_layers 1 1 /\ p_cond p = cond_layers 1 /\ p_pred p = pred_layers 1 1 /\ param_json_import p kw h = Ok (z, g').
Proof.
  unfold py_construct, params_init. unfold bind at 1, bind at 1, lift at 1.
  destruct (param_init_ok blank 1 1 1) as (y & Y1 & Y2 & Y3 & Y4 & Y5 & Y6 & Y7); try (unfold int_max; lia).
  destruct (default_types _ _ Y1) as (T1 & T2 & T3). rewrite Y1.
  unfold bind at 1, lift at 1, geti at 1. rewrite Y3. unfold bind at 1, lift at 1, geti at 1. rewrite Y4. unfold bind at 1, lift at 1, geti at 1. rewrite Y5.
  unfold bind at 1. clear Y1. destruct (tree_constants y g) as [(c & h0)| | |]; [|intros H; inversion H..]. unfold ret at 1.
  unfold bind at 1. destruct (param_json_export lm _ h0) as [((j, p'), h1)| | |] eqn:E; [|intros H; inversion H..].
  destruct (export_sys _ _ _ _ _ _ E) as (_ & _ & K). destruct (K T1 T2 T3) as (-> & ->). intros H. eexists _, h0. split; [|split; [|split; [|split; [|split; [|split; [|exact H]]]]]]; cbn [p_sys p_act p_cond p_pred]; auto.
Qed.
(** Whatever the keywords. *)
Theorem py_inputs lm blank kw g z g' : parsed kw -> py_construct lm blank kw g = Ok (z, g') ->
  in_range (p_sys z) /\ ints (p_sys z) i_GP_N_INPUTS = Some 1 /\ ints (p_sys z) i_DGP_N_INPUTS = Some 1.
Proof.
  intros P E. destruct (py_inv _ _ _ _ _ _ E) as (p & h & R & G1 & G2 & _ & _ & _ & I).
  split; [exact (import_in_range _ _ _ _ _ P R I)|]. destruct (import_keeps_inputs _ _ _ _ _ P I) as (-> & ->). auto.
Qed.

(** ** Layers that are not given *)
Definition no_args (name : string) (j : json) : Prop := forall e k, In e (children j) -> fst e = Some k -> same k name (S (String.length name)) = true -> item (snd e) "args" = None.
Lemma import_one_layers p e h z h' : import_one p e h = Ok (z, h') ->
  ((forall k, fst e = Some k -> same k "condition" 10 = true -> item (snd e) "args" = None) -> p_cond z = p_cond p) /\
  ((forall k, fst e = Some k -> same k "action" 7 = true -> item (snd e) "args" = None) -> p_act z = p_act p) /\
  ((forall k, fst e = Some k -> same k "prediction" 11 = true -> item (snd e) "args" = None) -> p_pred z = p_pred p).
Proof.
  unfold import_one. unfold bind at 1, lift at 1. unfold key. destruct (fst e) as [k|]; try discriminate.
  unfold bind at 1, lift at 1. destruct (import_general (p_sys p) k (snd e)) as [[y|]| | |]; try discriminate; [intros H; apply Ok_inj in H; injection H as <- <-; repeat split|].
  unfold bind at 1, lift at 1. destruct (import_multi (p_sys p) k (snd e)) as [[y|]| | |]; try discriminate; [intros H; apply Ok_inj in H; injection H as <- <-; repeat split|].
  unfold bind at 1, lift at 1. destruct (import_subsump (p_sys p) k (snd e)) as [[y|]| | |]; try discriminate; [intros H; apply Ok_inj in H; injection H as <- <-; repeat split|].
  unfold bind at 1, lift at 1. destruct (import_cl_general (p_sys p) k (snd e)) as [[y|]| | |]; try discriminate; [intros H; apply Ok_inj in H; injection H as <- <-; repeat split|].
  destruct (same k "ea" 3).
  { unfold bind, lift. destruct (over ea_import (p_sys p) (children (snd e))) as [y| | |]; try discriminate. intros H; apply Ok_inj in H; injection H as <- <-. repeat split. }
  destruct (same k "action" 7) eqn:KA.
  { unfold lift, action_import. destruct (type_import action_param_set_type_string (p_sys p) (snd e)) as [r| | |]; cbn [obind]; try discriminate.
    destruct (item (snd e) "args") as [a|] eqn:A; [|intros H; apply Ok_inj in H; injection H as <- <-; repeat split].
    destruct (fst r =? 0); [intros H; apply Ok_inj in H; injection H as <- <-; repeat split|]. destruct (fst r =? 1); [|discriminate].
    destruct (layers_import _ a); cbn [obind]; try discriminate. intros H; apply Ok_inj in H; injection H as <- <-. split; [reflexivity|]. split; [|reflexivity]. intros Q. discriminate (Q k eq_refl KA). }
  destruct (same k "condition" 10) eqn:KC.
  { unfold cond_import. unfold bind at 1, lift at 1. destruct (type_import cond_param_set_type_string (p_sys p) (snd e)) as [r| | |]; cbn [obind]; try discriminate.
    destruct (item (snd e) "args") as [a|] eqn:A; [|intros H; apply Ok_inj in H; injection H as <- <-; repeat split].
    repeat (match goal with |- (if ?b then _ else _) _ = _ -> _ => destruct b end); unfold bind, lift; try discriminate;
    inner;
    try match goal with v : _ * rng |- _ => destruct v end;
    intros H; apply Ok_inj in H; injection H as <- <-; (split; [|split; reflexivity]); first [reflexivity|intros Q; discriminate (Q k eq_refl KC)]. }
  destruct (same k "prediction" 11) eqn:KP; [|discriminate].
  unfold lift, pred_import. destruct (type_import pred_param_set_type_string (p_sys p) (snd e)) as [r| | |]; cbn [obind]; try discriminate.
  destruct (item (snd e) "args") as [a|] eqn:A; [|intros H; apply Ok_inj in H; injection H as <- <-; repeat split].
  destruct (fst r =? 0); [intros H; apply Ok_inj in H; injection H as <- <-; repeat split|].
  destruct ((fst r =? 1) || (fst r =? 2)); [destruct (over nlms_args_import _ (children a)); cbn [obind]; try discriminate; intros H; apply Ok_inj in H; injection H as <- <-; repeat split|].
  destruct ((fst r =? 3) || (fst r =? 4)); [destruct (over rls_args_import _ (children a)); cbn [obind]; try discriminate; intros H; apply Ok_inj in H; injection H as <- <-; repeat split|].
  destruct (fst r =? 5); [|discriminate].
  destruct (layers_import _ a); cbn [obind]; try discriminate. intros H; apply Ok_inj in H; injection H as <- <-. split; [reflexivity|]. split; [reflexivity|]. intros Q. discriminate (Q k eq_refl KP).
Qed.
Lemma import_layers p j h z h' : param_json_import p j h = Ok (z, h') ->
  (no_args "condition" j -> p_cond z = p_cond p) /\ (no_args "action" j -> p_act z = p_act p) /\ (no_args "prediction" j -> p_pred z = p_pred p).
Proof.
  unfold param_json_import, no_args. generalize (children j) as l. intros l. revert p h. induction l as [|e l IH]; intros p h H; cbn [import_list] in H.
  - apply Ok_inj in H. injection H as <- <-. auto.
  - unfold bind in H. destruct (import_one p e h) as [(q & h1)| | |] eqn:E; try discriminate H.
    destruct (import_one_layers _ _ _ _ _ E) as (A1 & A2 & A3). destruct (IH _ _ H) as (B1 & B2 & B3).
    split; [|split]; intros N.
    + rewrite B1 by (intros e0 k I; apply N; right; exact I). apply A1. intros k. apply N. left. reflexivity.
    + rewrite B2 by (intros e0 k I; apply N; right; exact I). apply A2. intros k. apply N. left. reflexivity.
    + rewrite B3 by (intros e0 k I; apply N; right; exact I). apply A3. intros k. apply N. left. reflexivity.
Qed.
Theorem py_layers lm blank kw g z g' : py_construct lm blank kw g = Ok (z, g') ->
  (no_args "condition" kw -> p_cond z = cond_layers 1) /\ (no_args "action" kw -> p_act z = act_layers 1 1) /\ (no_args "prediction" kw -> p_pred z = pred_layers 1 1).
Proof.
  intros E. destruct (py_inv _ _ _ _ _ _ E) as (p & h & _ & _ & _ & <- & <- & <- & I). exact (import_layers _ _ _ _ _ I).
Qed.

(** ** Conditions see only as many inputs as their parameters say *)
Lemma value_only a e x y : ranged a e -> (forall i, 0 <= i < ta_inputs a -> at_ f0 x i = at_ f0 y i) -> value a x e = value a y e.
Proof.
  intros R E. induction e as [n|op l IHl r IHr]; cbn [value].
  - cbn [ranged] in R. destruct (n <? 4 + ta_nconst a) eqn:N; [reflexivity|]. apply Z.ltb_ge in N. apply E. lia.
  - destruct R as (_ & Rl & Rr). rewrite IHl, IHr by assumption. reflexivity.
Qed.
Theorem tree_sees a lm c x y : targs_ok a -> 1 <= ta_depth a -> 0 <= ta_max_len a <= int_max -> made_gp a lm c ->
  ta_inputs a <= len x -> ta_inputs a <= len y -> (forall i, 0 <= i < ta_inputs a -> rd x i = rd y i) -> gp_match a c x = gp_match a c y.
Proof.
  intros T D M C X Y E. destruct (C39_lemma a T D M lm c C) as ((e & E1 & E2 & E3) & _).
  assert (H : holds a c e) by (unfold holds; auto). rewrite (C39_match_lemma a T c e x H X), (C39_match_lemma a T c e y H Y). f_equal. f_equal. f_equal. apply value_only; [exact E3|].
  intros i I. specialize (E i I). rewrite (rd_ok f0), (rd_ok f0) in E by lia. apply Ok_inj in E. exact E.
Qed.
Lemma otab_ext {A} n : forall i (f g : Z -> outcome A), (forall k, f k = g k) -> otab n i f = otab n i g.
Proof. induction n as [|n IH]; intros i f g E; [reflexivity|]. cbn [otab]. rewrite E, (IH _ _ _ E). reflexivity. Qed.
Lemma sync_only g x y : (forall i, i < d_n_inputs g -> rd x i = rd y i) -> synchronous_update g x = synchronous_update g y.
Proof.
  intros E. unfold synchronous_update. f_equal. apply otab_ext. intros i. f_equal. apply otab_ext. intros k. destruct (rd (d_conn g) _); cbn [obind]; [|reflexivity..].
  destruct (a <? d_n_inputs g) eqn:L; [|reflexivity]. apply Z.ltb_lt in L. apply E, L.
Qed.
Lemma sync_inputs g x g' : synchronous_update g x = Ok g' -> d_n_inputs g' = d_n_inputs g.
Proof. unfold synchronous_update. destruct (otab _ 0 _); try discriminate. cbn [obind]. intros H. apply Ok_inj in H. subst g'. reflexivity. Qed.
Lemma update_only g x y reset : (forall i, i < d_n_inputs g -> rd x i = rd y i) -> graph_update g x reset = graph_update g y reset.
Proof.
  intros E. unfold graph_update. 
  assert (R : match (if reset then graph_reset g else Ok g) with Ok g0 => d_n_inputs g0 = d_n_inputs g | _ => True end).
  { destruct reset; [|reflexivity]. unfold graph_reset. destruct (ofor _ _ _); cbn [obind]; auto. }
  destruct (if reset then graph_reset g else Ok g) as [g0| | |]; cbn [obind]; try reflexivity.
  unfold ofor. generalize 0 as i. revert g0 R. induction (Z.to_nat (d_t g)) as [|n IH]; intros g0 R i; [reflexivity|]. cbn [oloop].
  rewrite (sync_only g0 x y) by (rewrite R; exact E). destruct (synchronous_update g0 y) as [g1| | |] eqn:S; cbn [obind]; try reflexivity.
  apply IH. rewrite (sync_inputs _ _ _ S). exact R.
Qed.
Theorem graph_sees a lm stateful g x y : dargs_ok a -> made_graph a lm stateful g ->
  (forall i, i < da_n_inputs a -> rd x i = rd y i) -> dgp_match stateful g x = dgp_match stateful g y.
Proof.
  intros D M E. pose proof (C40_lemma a D lm stateful g M) as ((B & _) & _). destruct B as (_ & _ & _ & _ & _ & N & _).
  unfold dgp_match. rewrite (update_only g x y); [reflexivity|]. rewrite N. exact E.
Qed.
Lemma rd_head v (xs ys : list f64) i : i < 1 -> rd (v :: xs) i = rd (v :: ys) i.
Proof. intros L. destruct (Z.lt_trichotomy i 0) as [N|[->|P]]; [|reflexivity|lia]. unfold rd. destruct i; try lia. reflexivity. Qed.
(** In Python every tree and every graph sees the first input only. *)
Theorem py_trees lm blank kw g z g' a lm' c v xs ys : parsed kw -> py_construct lm blank kw g = Ok (z, g') ->
  ints (p_sys z) i_GP_N_INPUTS = Some (ta_inputs a) -> targs_ok a -> 1 <= ta_depth a -> 0 <= ta_max_len a <= int_max -> made_gp a lm' c ->
  gp_match a c (v :: xs) = gp_match a c (v :: ys).
Proof.
  intros P E I T D M C. destruct (py_inputs _ _ _ _ _ _ P E) as (_ & G & _). rewrite G in I. injection I as I. 
  apply (tree_sees a lm' c); auto; rewrite <- ?I; try (unfold len; cbn [List.length]; lia). intros i R. apply rd_head. lia.
Qed.
Theorem py_graphs lm blank kw g z g' a lm' stateful c v xs ys : parsed kw -> py_construct lm blank kw g = Ok (z, g') ->
  ints (p_sys z) i_DGP_N_INPUTS = Some (da_n_inputs a) -> dargs_ok a -> made_graph a lm' stateful c ->
  dgp_match stateful c (v :: xs) = dgp_match stateful c (v :: ys).
Proof.
  intros P E I D C. destruct (py_inputs _ _ _ _ _ _ P E) as (_ & _ & G). rewrite G in I. injection I as I.
  apply (graph_sees a lm'); auto. intros i R. rewrite <- I in R. apply rd_head. exact R.
Qed.

(** ** What is refused or not as expected *)
Lemma no_nul f : ~ In nul f -> cstring f = UB OutOfBounds.
Proof.
  induction f as [|c f IH]; intros N; [reflexivity|]. cbn [cstring]. destruct (Ascii.eqb c nul) eqn:E.
  - apply Ascii.eqb_eq in E. subst c. exfalso. apply N. left. reflexivity.
  - rewrite IH; [reflexivity|]. intros I. apply N. right. exact I.
Qed.
Theorem long_file lm p s rest g : in_range (p_sys p) -> plain s -> (512 < String.length s)%nat ->
  exists y, param_set_population_file (p_sys p) (arr s rest) = Ok (true, y) /\ in_range y /\ param_json_export lm (with_sys p y) g = UB OutOfBounds.
Proof.
  intros R P L. destruct (file_setter_long (p_sys p) s rest P L) as (f & E & N). exists (with_file (p_sys p) f). split; [exact E|].
  assert (R' : in_range (with_file (p_sys p) f)) by exact (in_range_rest _ _ _ R). split; [exact R'|].
  destruct R' as (R1 & _). unfold param_json_export. cbn [with_sys p_sys]. unfold bind at 1, lift at 1.
  assert (G : forall q, exists v, geti (with_file (p_sys p) f) q = Ok v) by (intros q; destruct (R1 q) as (v & V & _); exists v; unfold geti; rewrite V; reflexivity).
  assert (J : general_json (with_file (p_sys p) f) = UB OutOfBounds); [|rewrite J; reflexivity].
  unfold general_json, fi. destruct (G i_LOSS_FUNC) as (v1 & ->). destruct (G i_N_ACTIONS) as (v2 & V2). rewrite V2. cbn [obind cat].
  destruct (G i_X_DIM) as (v3 & ->). destruct (G i_Y_DIM) as (v4 & ->). destruct (G i_OMP_NUM_THREADS) as (v5 & ->). destruct (G i_RANDOM_STATE) as (v6 & ->). rewrite ?V2. cbn [obind].
  unfold fs at 1. cbn [obind with_file file]. rewrite (no_nul f N). reflexivity.
Qed.

Definition blank_sys : sys := mkSys (fun _ => None) (fun _ => None) (fun _ => None) [] None None.
Definition default_sys (xd yd na : Z) : sys := match param_init blank_sys xd yd na with Ok y => y | _ => blank_sys end.
Lemma default_in_range xd yd na : 1 <= xd <= int_max -> 1 <= yd <= int_max -> 1 <= na <= int_max -> in_range (default_sys xd yd na).
Proof. intros A B C. unfold default_sys. destruct (param_init_ok blank_sys xd yd na A B C) as (y & -> & R & _). exact R. Qed.
(** Infinite values that the setter accepts are written as null, which is refused. *)
Definition e0_sys : sys := snd (param_set_e0 (default_sys 1 1 1) (B754_infinity false)).
Lemma e0_types : ints e0_sys i_COND_TYPE = Some 1 /\ ints e0_sys i_PRED_TYPE = Some 1 /\ ints e0_sys i_N_ACTIONS = Some 1.
Proof. split; [|split]; vm_compute; reflexivity. Qed.
Lemma e0_set : param_set_e0 (default_sys 1 1 1) (B754_infinity false) = (true, e0_sys).
Proof. reflexivity. Qed.
Lemma e0_range : in_range e0_sys.
Proof. apply (call_in_range (default_sys 1 1 1)); [apply default_in_range; unfold int_max; lia|]. apply (call_d param_set_e0); [do 6 right; left; reflexivity|reflexivity]. Qed.
Definition refused (lm : libm) (g : rng) (p : params) : bool :=
  match param_json_export lm p g with
  | Ok ((j, _), _) => match param_json_import p j g with Exit => true | _ => false end
  | _ => false
  end.
Lemma e0_refused lm g : refused lm g (mkParams e0_sys [] [] [] []) = true.
Proof. vm_compute. reflexivity. Qed.
Lemma infinite_lemma : exists p y, in_range (p_sys p) /\ param_set_e0 (p_sys p) (B754_infinity false) = (true, y) /\ in_range y /\
  forall lm g, exists j, param_json_export lm (with_sys p y) g = Ok ((j, with_sys p y), g) /\ param_json_import (with_sys p y) j g = Exit.
Proof.
  exists (mkParams (default_sys 1 1 1) [] [] [] []), e0_sys.
  split; [apply default_in_range; unfold int_max; lia|]. split; [exact e0_set|]. split; [exact e0_range|].
  pose proof e0_refused as E. pose proof e0_types as (T1 & T2 & T3). cbn [with_sys p_act p_cond p_pred p_consts]. unfold with_sys. cbn [p_act p_cond p_pred p_consts].
  revert E T1 T2 T3. generalize e0_sys as y. intros y E T1 T2 T3 lm g. specialize (E lm g). unfold refused in E.
  destruct (param_json_export lm (mkParams y [] [] [] []) g) as [((j, p'), g')| | |] eqn:X; try discriminate E.
  destruct (export_sys _ _ _ _ _ _ X) as (_ & _ & K). destruct (K T1 T2 T3) as (-> & ->).
  exists j. split; [reflexivity|]. destruct (param_json_import _ j g); try discriminate E. reflexivity.
Qed.
(** Writing a network builds one: random numbers are drawn and the parameters of the layers change. *)
Definition unit_lm : libm := mkLibm (fun _ => f1) (fun _ => fneg f1) (fun _ => fhalf) (fun _ => fhalf) (fun x => x) (fun _ _ => f1) (fun x => x) (fun x => x).
Definition unit_rng : rng := mkRng (fun _ => 1351079888211149) 0 false f0.
Definition small_args (n : Z) : largs := mkLargs CONNECTED n 1 1 1 0 0 0 0 0 0 0 f0 f0 f0 f0 f0 f0 true false false false false false.
Definition neural_sys : sys := cond_param_set_type (default_sys 1 1 1) 4.
Definition neural_params : params := mkParams neural_sys [] [(small_args 1, 0); (small_args 7, 0)] [] [].
Definition moved (lm : libm) (g : rng) (p : params) : bool :=
  match param_json_export lm p g with
  | Ok ((_, p'), g') => (List.length (p_cond p') =? 2)%nat && (la_n_inputs (fst (nth 1 (p_cond p') (small_args 0, 0))) =? 1) && (r_pos g' =? 14)%nat
  | _ => false
  end.
Lemma neural_moved : moved unit_lm unit_rng neural_params = true.
Proof. vm_compute. reflexivity. Qed.
Lemma neural_lemma : exists lm p g j p' g', in_range (p_sys p) /\ param_json_export lm p g = Ok ((j, p'), g') /\ p_cond p' <> p_cond p /\ r_pos g' <> r_pos g.
Proof.
  exists unit_lm, neural_params, unit_rng. pose proof neural_moved as M. unfold moved in M.
  destruct (param_json_export unit_lm neural_params unit_rng) as [((j, p'), g')| | |]; try discriminate M. exists j, p', g'.
  split; [apply (call_in_range (default_sys 1 1 1)); [apply default_in_range; unfold int_max; lia|]; apply (call_ci cond_param_set_type); [cbn; tauto|unfold int_max; lia]|].
  split; [reflexivity|]. apply andb_prop in M as (M & M3). apply andb_prop in M as (M1 & M2). split.
  - intros E. rewrite E in M2. discriminate M2.
  - apply Nat.eqb_eq in M3. rewrite M3. discriminate.
Qed.

(** ** The round trip spelled out *)
Theorem round_trip_all lm p s p' q g g' h j lc la lp : savable (p_sys p) s -> param_json_export lm p g = Ok ((j, p'), g') ->
  (if cond_net (p_sys p) then layers_back (p_sys p) (p_cond p') lc else lc = p_cond q) ->
  (if act_net (p_sys p) then layers_back (p_sys p) (p_act p') la else la = p_act q) ->
  (if pred_net (p_sys p) then layers_back (p_sys p) (p_pred p') lp else lp = p_pred q) ->
  exists z h', param_json_import q j h = Ok (z, h') /\
  (forall i, ints (p_sys z) i = if written_i (p_sys p) i then ints (p_sys p) i else ints (p_sys q) i) /\
  (forall d, dbls (p_sys z) d = if written_d (p_sys p) d then dbls (p_sys p) d else dbls (p_sys q) d) /\
  (forall b, bools (p_sys z) b = if written_b (p_sys p) b then bools (p_sys p) b else bools (p_sys q) b) /\
  loss_code (p_sys z) = ints (p_sys p) i_LOSS_FUNC /\
  seed (p_sys z) = (if ival (p_sys p) i_RANDOM_STATE <? 0 then None else ints (p_sys p) i_RANDOM_STATE) /\
  file (p_sys z) = chars s ++ [nul] /\
  p_cond z = lc /\ p_act z = la /\ p_pred z = lp /\
  (if ival (p_sys p) i_COND_TYPE =? 5 then tree_constants (p_sys z) h = Ok (p_consts z, h') else p_consts z = p_consts q /\ h' = h).
Proof.
  intros S E A B C. destruct (round_trip lm p s p' q g g' h j lc la lp S E A B C) as (z & h' & I & (C1 & C2 & C3 & C4 & C5 & C6) & R).
  exists z, h'. split; [exact I|]. split; [exact C1|]. split; [exact C2|]. split; [exact C3|]. split; [exact C4|]. split; [exact C5|]. split; [exact C6|]. exact R.
Qed.
Theorem export_reads_only lm p s g : savable (p_sys p) s -> cond_net (p_sys p) = false -> act_net (p_sys p) = false -> pred_net (p_sys p) = false ->
  exists j, param_json_export lm p g = Ok ((j, p), g).
Proof. intros S A B C. exact (export_plain lm p s S g A B C). Qed.
Theorem layers_round_trip lm l g j l' g' x n : layer_args_json_export lm l g = Ok ((j, l'), g') -> Forall layer_savable l' -> ints x i_X_DIM = Some n ->
  layers_import x j = layer_args_validate (map (reread n) l').
Proof.
  intros E F X. destruct (export_layers_inv lm _ _ _ _ _ E) as (m & -> & M). exact (layers_import_ok x n l' 0 m X F M).
Qed.
(** Reading what was read changes nothing more. *)
Lemma reread_twice n a : reread n (reread n a) = reread n a.
Proof.
  destruct a as (l, r). destruct l as [t ni n0 nm gr fn hh ww cc ss st pp eta etam mo de pr sc ew en ef ee ec sg]. unfold reread, pick.
  cbv beta iota zeta delta [fst snd la_type la_n_init la_n_max la_grow la_function la_height la_width la_channels la_size la_stride la_pad la_eta la_eta_min la_momentum la_decay la_probability la_scale la_evolve_weights la_evolve_neurons la_evolve_functions la_evolve_eta la_evolve_connect la_sgd_weights].
  destruct (full t); destruct (images t); destruct (quiet t); destruct (among t [NOISE; DROPOUT]); destruct (among t [NOISE; SOFTMAX]); destruct (t =? LSTM); destruct en; destruct sg; destruct ee; cbn [andb]; rewrite ?Z.max_id, ?(Z.max_r 0 (Z.max 0 _)) by lia; reflexivity.
Qed.
