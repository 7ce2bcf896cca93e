(** * Populations of neural rules (C73). *)
From Coq Require Import ZArith Bool List Lia Reals.
From Flocq Require Import Core BinarySingleNaN.
From Verif Require Import Outcome F64 F64Facts Rng RngFacts Sam SamFacts Pop PopSpec PopInv Arr ArrFacts Blas BlasFacts Clock Comp CompFacts Dgp DgpFacts Act Image Loss LossFacts Layer LayerFacts MutFacts UpdFacts PropMut Net NetFacts NetLayer NetChain PropNet PropFwd NetAct PopFit PopRL PopOps PopSeq PropPop PropFlag.
Import ListNotations.
Open Scope Z_scope.

(** Connected layers with a fixed number of neurons. *)
Definition steady_layer (l : layer f64) : Prop := (l_type l = CONNECTED \/ l_type l = SOFTMAX) /\ (l_type l = CONNECTED -> has l EVOLVE_NEURONS = false).
Definition steady (ni no : Z) (n : nn f64) : Prop :=
  net_ok n /\ faces n /\ nn_inputs n = ni /\ nn_outputs n = no /\ Forall steady_layer (nn_layers n).
Definition steady_arg (a : largs) : Prop := (la_type a = CONNECTED \/ la_type a = SOFTMAX) /\ (la_type a = CONNECTED -> la_evolve_neurons a = false).
Definition connected_only (n : nn f64) : Prop := Forall (fun l => l_type l = CONNECTED) (nn_layers n).

Lemma steady_dims ls ls' : map dims ls' = map dims ls -> Forall steady_layer ls -> Forall steady_layer ls'.
Proof.
  revert ls'. induction ls as [|l r IH]; intros [|l' r'] E F; try discriminate E; [constructor|]. cbn [map] in E. apply cons_eq in E. destruct E as (E & E').
  inversion F as [|? ? S F']; subst. destruct (dims_eq _ _ E) as (T & O & _). constructor; [|apply IH; assumption]. unfold steady_layer, has in *. rewrite T, O. exact S.
Qed.
Lemma only_dims ls ls' : map dims ls' = map dims ls -> Forall (fun l : layer f64 => l_type l = CONNECTED) ls -> Forall (fun l : layer f64 => l_type l = CONNECTED) ls'.
Proof.
  revert ls'. induction ls as [|l r IH]; intros [|l' r'] E F; try discriminate E; [constructor|]. cbn [map] in E. apply cons_eq in E. destruct E as (E & E').
  inversion F as [|? ? S F']; subst. destruct (dims_eq _ _ E) as (T & _). constructor; [congruence|apply IH; assumption].
Qed.
Lemma faces_dims (n : nn f64) ls : map dims ls = map dims (nn_layers n) -> faces n -> faces (T := f64) (with_layers n ls).
Proof.
  intros M (p & O & E). assert (M' : map dims (rev ls) = map dims (rev (nn_layers n))) by (rewrite !map_rev, M; reflexivity).
  unfold out_layer in O. destruct (rev (nn_layers n)) as [|q r] eqn:R; [discriminate|]. injection O as ->.
  destruct (rev ls) as [|p' r'] eqn:R'; [discriminate|]. cbn [map] in M'. apply cons_eq in M'. destruct M' as (CP & _).
  exists p'. unfold out_layer. cbn [with_layers nn_layers nn_outputs]. rewrite R'. split; [reflexivity|].
  destruct (dims_eq _ _ CP) as (_ & _ & _ & D & _). rewrite D. exact E.
Qed.
Lemma steady_with ni no n ls : steady ni no n -> net_ok (with_layers n ls) -> map dims ls = map dims (nn_layers n) -> steady ni no (with_layers n ls).
Proof.
  intros (N & F & I1 & I2 & S) N' D. split; [exact N'|]. split; [apply faces_dims; assumption|]. split; [exact I1|]. split; [exact I2|]. cbn [with_layers nn_layers]. eapply steady_dims; eassumption.
Qed.
Lemma dims_of_content (ls ls' : list (layer f64)) : map content ls' = map content ls -> map dims ls' = map dims ls.
Proof.
  revert ls'. induction ls as [|l r IH]; intros [|l' r'] E; try discriminate E; [reflexivity|]. cbn [map] in *. apply cons_eq in E. destruct E as (E & E'). f_equal; [now apply content_dims|now apply IH].
Qed.
Lemma not_evolving ni no n : steady ni no n -> ~ Exists evolves (nn_layers n).
Proof.
  intros (_ & _ & _ & _ & S) E. apply Exists_exists in E. destruct E as (l & IN & T & H). rewrite Forall_forall in S. destruct (S l IN) as (_ & X). rewrite X in H by exact T. discriminate H.
Qed.

Section Sys.
Context (dom : list f64 -> Prop) (FO : Prop) (K : cfg) (train : bool) (args : list largs) (no : Z).
Notation ni := (x_dim K).
Hypothesis (HA : args_ok ni args) (HS : Forall steady_arg args) (HO : args_outputs ni args = no) (HFO : FO) (HF : (1 <= loop_fuel K)%nat).
Notation J := (fun _ : rng => True).

Lemma steady_create : rt J (neural_create (lm K) args) (fun c => steady ni no c /\ Forall2 (fun a l => l_type l = la_type a) args (nn_layers c)).
Proof.
  intros g _. destruct (C66_create_lemma (lm K) args ni g HA) as (c & g' & E & N & F & I1 & I2 & F2). exists c, g'. split; [exact E|]. split; [exact Logic.I|].
  split; [|clear - F2; induction F2 as [|a l r r' (T & _) F2 IH]; constructor; auto].
  split; [exact N|]. split; [exact F|]. split; [exact I1|]. split; [congruence|].
  clear - F2 HS. revert HS. induction F2 as [|a l r r' (T & O) F2 IH]; intros HS; [constructor|]. inversion HS as [|? ? S HS']; subst. constructor; [|apply IH; exact HS'].
  destruct S as (S1 & S2). split; [rewrite T; exact S1|]. intros X. unfold has. rewrite (O X). unfold layer_args_opt. rewrite S2 by congruence.
  destruct (la_evolve_eta a), (la_sgd_weights a), (la_evolve_weights a), (la_evolve_functions a), (la_evolve_connect a); reflexivity.
Qed.
Lemma steady_copy n : steady ni no n -> exists n', neural_copy n = Ok n' /\ steady ni no n' /\ map content (nn_layers n') = map content (nn_layers n).
Proof.
  intros (N & F & I1 & I2 & S). destruct (net_copy_ok n N) as (n' & E & N' & F' & I' & C). exists n'. split; [exact E|]. split; [|exact C].
  pose proof (dims_of_content _ _ C) as D.
  split; [exact N'|]. split; [exact F'|]. split; [congruence|]. split; [|eapply steady_dims; eassumption].
  destruct F as (p & O & EO). destruct F' as (p' & O' & EO'). assert (M : map dims (rev (nn_layers n')) = map dims (rev (nn_layers n))) by (rewrite !map_rev, D; reflexivity).
  unfold out_layer in *. destruct (rev (nn_layers n)); [discriminate|]. destruct (rev (nn_layers n')); [discriminate|]. injection O as ->. injection O' as ->. cbn [map] in M. apply cons_eq in M.
  destruct M as (M & _). destruct (dims_eq _ _ M) as (_ & _ & _ & X & _). congruence.
Qed.
Lemma steady_rand n : steady ni no n -> rt J (neural_rand (lm K) n) (fun n' => steady ni no n' /\ map dims (nn_layers n') = map dims (nn_layers n)).
Proof.
  intros S. eapply rt_mono; [apply (net_rand_ok J (lm K) _ (src_any _)); apply S|]. intros n' (ls & -> & N & D). split; [now apply steady_with|exact D].
Qed.
Lemma steady_mutate n : steady ni no n -> rpost FO (neural_mutate (lm K) (loop_fuel K) n) (fun r => steady ni no (fst r) /\ map dims (nn_layers (fst r)) = map dims (nn_layers n)).
Proof.
  intros S g. destruct (C66_mutate_fixed_lemma (lm K) (loop_fuel K) n g HF (proj1 S) (not_evolving _ _ _ S)) as (ls & b & g' & E & N & D). rewrite E.
  cbn [fst]. split; [now apply steady_with|exact D].
Qed.
Lemma steady_propagate n x : steady ni no n -> xok K dom x ->
  rt J (neural_propagate (lm K) train n x) (fun n' => exists ls, n' = with_layers n ls /\ steady ni no n' /\ through (lm K) train (nn_layers n) x ls).
Proof.
  clear HF. intros S (LX & _) g _. pose proof S as (N & F & I1 & _). destruct (C69_propagate_lemma (lm K) train n x g N) as (ls & g' & E & N' & T & _); [unfold len; lia|].
  exists (with_layers n ls), g'. split; [exact E|]. split; [exact Logic.I|]. exists ls. split; [reflexivity|]. split; [|exact T].
  apply steady_with; [exact S|exact N'|]. apply dims_of_content. eapply through_content; exact T.
Qed.

(** ** Predictions *)
Lemma pred_sys : no = y_dim K -> pred_ok dom FO K (neural_pred K args train) (steady ni no).
Proof.
  intros NY. split; cbn [neural_pred q_init q_copy q_compute q_update q_crossover q_mutate].
  - apply rt_rpost. eapply rt_mono; [apply steady_create|]. intros c H. apply H.
  - intros p S. destruct (steady_copy p S) as (p' & E & S' & _). eapply rp_lift; [exact E|exact S'].
  - intros p v x S LV (LX & _) g. pose proof S as (N & F & I1 & I2 & _).
    assert (P : 1 <= nn_outputs p).
    { destruct F as (q & O & ->). destruct N as (_ & C & _). pose proof (Forall_rev (chained_sound _ _ C)) as SS. unfold out_layer in O. destruct (rev (nn_layers p)); [discriminate|]. injection O as ->. inversion SS; subst. apply sound_pos. assumption. }
    destruct (C69_predict_lemma K train p x v g N F) as (ls & v' & g' & E & N' & T & LV' & _); [unfold len; lia|lia|exact LV|]. rewrite E. cbn [fst snd].
    split; [|exact LV']. apply steady_with; [exact S|exact N'|]. apply dims_of_content. eapply through_content; exact T.
  - intros p e v x y S _ LV (LX & _) LY g. pose proof S as (N & (q & O & EO) & I1 & I2 & _).
    destruct (learn_ok (lm K) p y x q N O) as (ls & E & N' & D & _); [unfold len; lia|unfold len; lia|]. unfold bind, lift. rewrite E. unfold ret. cbn [fst snd].
    split; [now apply steady_with|exact LV].
  - intros p1 p2 S1 S2. apply rp_ret. auto.
  - intros p S. intros g. pose proof (steady_mutate p S g) as H. destruct (neural_mutate _ _ _ _) as [(r, g')| | |]; try exact H. apply H.
Qed.

(** ** Actions *)
Lemma act_sys : 1 <= n_actions K <= no -> CompFacts.act_ok dom FO K (neural_act K args train) (steady ni no).
Proof.
  intros HN.
  assert (AC : forall c x, steady ni no c -> xok K dom x -> rpost FO (net_act K train c x) (fun r => steady ni no (fst r) /\ 0 <= snd r < n_actions K)).
  { intros c x S X g. unfold net_act, bind. destruct (steady_propagate c x S X g Logic.I) as (c' & g' & E & _ & ls & EC & S' & _). rewrite E.
    pose proof S' as (N' & (q & O & EO) & _ & I2 & _). unfold out_layer in O. destruct (rev (nn_layers c')) as [|p r] eqn:RV; [discriminate|]. injection O as ->. unfold ret at 1.
    assert (LO : len (l_output q) = l_n_outputs q).
    { destruct N' as (_ & C & _). pose proof (Forall_rev (chained_sound _ _ C)) as SS. rewrite RV in SS. inversion SS; subst. apply sound_out. assumption. }
    destruct (argmax_def (l_output q) (n_actions K)) as (i & E2 & B); [lia|]. unfold lift. rewrite E2. unfold ret. auto. }
  split; cbn [neural_act i_init i_copy i_cover i_compute i_update i_general i_crossover i_mutate].
  - apply rt_rpost. eapply rt_mono; [apply steady_create|]. intros c H. apply H.
  - intros p S. destruct (steady_copy p S) as (p' & E & S' & _). eapply rp_lift; [exact E|exact S'].
  - intros c x n S X _. revert c S. generalize (loop_fuel K). induction n0 as [|f IH]; intros c S; cbn [act_cover]; [intros g; exact HFO|].
    eapply CompFacts.rp_bind; [apply rt_rpost, steady_rand, S|]. intros c1 (S1 & _). eapply CompFacts.rp_bind; [apply AC; assumption|]. intros (c2, i) (S2 & _). cbn [fst] in S2.
    destruct (i =? n); [apply rp_ret; exact S2|apply IH, S2].
  - exact AC.
  - intros a x y S _ _. apply rp_ret, S.
  - intros a1 a2 _ _. exists false. reflexivity.
  - intros p1 p2 S1 S2. apply rp_ret. auto.
  - intros p S. intros g. pose proof (steady_mutate p S g) as H. destruct (neural_mutate _ _ _ _) as [(r, g')| | |]; try exact H. apply H.
Qed.
End Sys.

(** ** Conditions: connected layers only *)
Lemma computes_same lm t1 t2 l l' x o o' : l_type l = CONNECTED -> content l' = content l -> computes lm t1 l x o -> computes lm t2 l' x o' -> o' = o.
Proof.
  intros T C (L1 & H1 & _) (L2 & H2 & _). pose proof C as C'. unfold content in C'. destruct (dims_eq _ _ (content_dims _ _ C)) as (T' & _ & NI & NO & _).
  assert (X : l_function l' = l_function l /\ l_weights l' = l_weights l /\ l_biases l' = l_biases l) by (injection C'; auto). destruct X as (X1 & X2 & X3).
  apply (list_ext f0); [congruence|]. intros i HI. rewrite L2, NO in HI. specialize (H1 T i HI). specialize (H2 (eq_trans T' T) i ltac:(lia)).
  unfold weighted in *. rewrite X1, X2, X3, NI in H2. rewrite H1 in H2. injection H2 as H2. symmetry. exact H2.
Qed.
Lemma through_same lm t1 t2 ls : forall ls0 x a b, Forall (fun l : layer f64 => l_type l = CONNECTED) ls -> map content ls0 = map content ls ->
  through lm t1 ls x a -> through lm t2 ls0 x b -> map l_output b = map l_output a.
Proof.
  induction ls as [|l r IH]; intros [|l0 r0] x [|a ra] [|b rb] F E A B; try discriminate E; try contradiction; [reflexivity|].
  cbn [map] in E. apply cons_eq in E. destruct E as (E & E'). inversion F as [|? ? T F']; subst. destruct A as (_ & A1 & A2). destruct B as (_ & B1 & B2).
  pose proof (computes_same lm t1 t2 l l0 x _ _ T E A1 B1) as X. rewrite X in B2. cbn [map]. rewrite X. f_equal. eapply IH; eassumption.
Qed.
Lemma outputs_map a b : map l_output b = map (@l_output f64) a -> outputs_of b = outputs_of a.
Proof.
  intros E. unfold outputs_of. assert (M : map l_output (rev b) = map (@l_output f64) (rev a)) by (rewrite !map_rev, E; reflexivity).
  destruct (rev a), (rev b); try discriminate M; [reflexivity|]. cbn [map] in M. injection M as M _. exact M.
Qed.
(** The network says yes to the input. *)
Definition says_yes (lm : libm) (n : nn f64) (x : list f64) : Prop :=
  exists ls, through lm false (nn_layers n) x ls /\ flt fhalf (at_ f0 (outputs_of ls) 0) = true.

Section Cond.
Context (dom : list f64 -> Prop) (FO : Prop) (K : cfg) (train : bool) (args : list largs) (no : Z).
Notation ni := (x_dim K).
Hypothesis (HA : args_ok ni args) (HS : Forall steady_arg args) (HC : Forall (fun a => la_type a = CONNECTED) args)
  (HO : args_outputs ni args = no) (HFO : FO) (HF : (1 <= loop_fuel K)%nat).
Definition wf_cond (n : nn f64) : Prop := steady ni no n /\ connected_only n.

Lemma match_sys c x : wf_cond c -> xok K dom x -> forall g, exists c' b g', net_match K train c x g = Ok (c', b, g') /\ wf_cond c' /\
  (b = true <-> says_yes (lm K) c' x) /\ (b = true <-> says_yes (lm K) c x).
Proof.
  intros (S & CO) X g. pose proof X as (LX & _). pose proof S as (N & F & I1 & _).
  destruct (C69_match_lemma K train c x g N F) as (ls & g' & E & N' & T); [unfold len; lia|].
  pose proof (through_content _ _ _ _ _ T) as CT. pose proof (dims_of_content _ _ CT) as D.
  exists (with_layers c ls), (flt fhalf (at_ f0 (outputs_of ls) 0)), g'. split; [exact E|]. split; [split; [now apply steady_with|eapply only_dims; eassumption]|].
  assert (Y : forall n, map content (nn_layers n) = map content (nn_layers c) -> net_ok n -> nn_inputs n = ni -> (flt fhalf (at_ f0 (outputs_of ls) 0) = true <-> says_yes (lm K) n x)).
  { intros n CN NN IN. split.
    - intros B. destruct (C69_propagate_lemma (lm K) false n x g NN) as (ls2 & g2 & _ & _ & T2 & _); [unfold len; lia|]. exists ls2. split; [exact T2|].
      rewrite (outputs_map _ _ (through_same _ _ _ _ _ _ _ _ CO CN T T2)). exact B.
    - intros (ls2 & T2 & B). rewrite (outputs_map _ _ (through_same _ _ _ _ _ _ _ _ CO CN T T2)) in B. exact B. }
  split; apply Y; auto.
Qed.
Lemma cond_sys : cond_ok dom FO K (neural_cond K args train) wf_cond (says_yes (lm K)).
Proof.
  split; cbn [neural_cond k_init k_copy k_cover k_match k_update k_general k_crossover k_mutate].
  - apply rt_rpost. eapply rt_mono; [apply (steady_create K args no HA HS HO)|]. intros c (S & F2). split; [exact S|]. unfold connected_only. clear - HC F2.
    revert HC. induction F2 as [|a l r r' T F2 IH]; intros HC; [constructor|]. inversion HC; subst. constructor; [congruence|auto].
  - intros c (S & CO). destruct (steady_copy K no c S) as (c' & E & S' & C). eapply rp_lift; [exact E|]. split; [exact S'|]. eapply only_dims; [apply dims_of_content; exact C|exact CO].
  - intros c x W X. revert c W. generalize (loop_fuel K). induction n as [|f IH]; intros c W; cbn [net_cover]; [intros g; exact HFO|].
    eapply CompFacts.rp_bind; [apply rt_rpost; apply (steady_rand K no c), W|]. intros c1 (S1 & D1).
    assert (W1 : wf_cond c1) by (split; [exact S1|eapply only_dims; [exact D1|apply W]]).
    intros g. unfold bind. destruct (match_sys c1 x W1 X g) as (c2 & b & g2 & E & W2 & Y & _). rewrite E. destruct b; [|apply (IH c2 W2 g2)].
    unfold ret. split; [exact W2|]. apply Y. reflexivity.
  - intros c x W X g. destruct (match_sys c x W X g) as (c' & b & g' & E & W' & Y & _). rewrite E. cbn [fst snd]. auto.
  - intros a x y S _ _. apply rp_ret, S.
  - intros a1 a2 _ _. exists false. reflexivity.
  - intros p1 p2 S1 S2. apply rp_ret. auto.
  - intros c (S & CO) g. pose proof (steady_mutate FO K no HF c S g) as H. destruct (neural_mutate _ _ _ _) as [(r, g')| | |]; try exact H.
    destruct H as (H & D). split; [exact H|]. eapply only_dims; [exact D|exact CO].
Qed.
End Cond.

(** ** All three *)
Lemma C73_lemma (dom : list f64 -> Prop) (K : cfg) (train : bool) (cargs aargs pargs : list largs) :
  (1 <= loop_fuel K)%nat -> 1 <= n_actions K ->
  args_ok (x_dim K) cargs -> Forall (fun a => la_type a = CONNECTED /\ la_evolve_neurons a = false) cargs ->
  args_ok (x_dim K) aargs -> Forall steady_arg aargs -> n_actions K <= args_outputs (x_dim K) aargs ->
  args_ok (x_dim K) pargs -> Forall steady_arg pargs -> args_outputs (x_dim K) pargs = y_dim K ->
  vt_ok (dom := dom) True (join (neural_cond K cargs train) (neural_act K aargs train) (neural_pred K pargs train)) K
    (wf_pay (wf_cond K (args_outputs (x_dim K) cargs)) (steady (x_dim K) (args_outputs (x_dim K) aargs)) (steady (x_dim K) (y_dim K))) (mt_pay (says_yes (lm K))).
Proof.
  intros HF HN C1 C2 A1 A2 A3 P1 P2 P3. apply join_ok.
  - apply cond_sys; auto; eapply Forall_impl; try exact C2; intros a (T & E); [split; auto|exact T].
  - apply act_sys; auto.
  - apply pred_sys; auto.
Qed.

(** ** Exploring or not makes no difference *)
Lemma C73_train_lemma (lm : libm) (t1 t2 : bool) (n : nn f64) (x : list f64) (g : rng) : Forall steady_layer (nn_layers n) ->
  neural_propagate lm t1 n x g = neural_propagate lm t2 n x g.
Proof.
  intros F. unfold neural_propagate, bind.
  assert (X : forall ls y h, Forall steady_layer ls -> forward_from lm t1 ls y h = forward_from lm t2 ls y h).
  { clear. induction ls as [|l r IH]; intros y h F; [reflexivity|]. inversion F as [|? ? (T & _) F']; subst. cbn [forward_from]. unfold bind.
    assert (E : layer_forward lm t1 l y h = layer_forward lm t2 l y h) by (unfold layer_forward; destruct T as [-> | ->]; reflexivity). rewrite E.
    destruct (layer_forward lm t2 l y h) as [(l', h')| | |]; try reflexivity. rewrite (IH _ _ F'). reflexivity. }
  rewrite (X _ _ _ F). reflexivity.
Qed.

(** ** What a neural action is *)
Lemma C73_action_lemma (K : cfg) (train : bool) (n : nn f64) (x : list f64) (g : rng) :
  net_ok n -> faces n -> nn_inputs n <= len x -> 1 <= n_actions K <= nn_outputs n ->
  exists ls i g', net_act K train n x g = Ok (with_layers n ls, i, g') /\ through (lm K) train (nn_layers n) x ls /\ 0 <= i < n_actions K /\
    ((forall j, 0 <= j < n_actions K -> is_nan (at_ f0 (outputs_of ls) j) = false) ->
     (forall j, 0 <= j < n_actions K -> fle (at_ f0 (outputs_of ls) j) (at_ f0 (outputs_of ls) i) = true) /\
     (forall j, 0 <= j < i -> flt (at_ f0 (outputs_of ls) j) (at_ f0 (outputs_of ls) i) = true)).
Proof.
  intros N F LX HN. destruct (C69_propagate_lemma (lm K) train n x g N LX) as (ls & g' & E & N' & T & _).
  pose proof (faces_content n ls (through_content _ _ _ _ _ T) F) as (q & O & EO). unfold out_layer in O. cbn [with_layers nn_layers nn_outputs] in O, EO.
  destruct (rev ls) as [|p r] eqn:RV; [discriminate|]. injection O as ->.
  assert (LO : len (l_output q) = l_n_outputs q).
  { destruct N' as (_ & C & _). pose proof (Forall_rev (chained_sound _ _ C)) as SS. cbn [with_layers nn_layers] in SS. rewrite RV in SS. inversion SS; subst. apply sound_out. assumption. }
  assert (OO : outputs_of ls = l_output q) by (unfold outputs_of; rewrite RV; reflexivity).
  destruct (argmax_def (l_output q) (n_actions K)) as (i & E2 & B); [lia|].
  exists ls, i, g'. split; [|split; [exact T|split; [exact B|]]].
  - unfold net_act, bind. rewrite E. cbn [with_layers nn_layers]. rewrite RV. unfold ret at 1. unfold lift. rewrite E2. reflexivity.
  - rewrite OO. intros NN. destruct (argmax_ok (l_output q) (n_actions K)) as (m & E3 & _ & MX & FI); [lia|intros j Hj; apply NN, Hj|].
    rewrite E2 in E3. injection E3 as <-. split; intros j Hj; [apply fle_X; [apply NN; lia|apply NN; lia|apply MX, Hj]|apply flt_X; [apply NN; lia|apply NN; lia|apply FI, Hj]].
Qed.
(** Covering ends with a network that proposes the action; asked again it still does. *)
Lemma C73_cover_lemma (K : cfg) (train : bool) (fuel : nat) (n n' : nn f64) (x : list f64) (action : Z) (g g' : rng) :
  steady (x_dim K) (nn_outputs n) n -> connected_only n -> len x = x_dim K -> 1 <= n_actions K <= nn_outputs n ->
  act_cover K train fuel n x action g = Ok (n', g') ->
  steady (x_dim K) (nn_outputs n) n' /\ connected_only n' /\ forall t g2, exists n2 g3, net_act K t n' x g2 = Ok (n2, action, g3).
Proof.
  intros S CO LX HN. assert (L : forall f c h, steady (x_dim K) (nn_outputs n) c -> connected_only c -> act_cover K train f c x action h = Ok (n', g') ->
    steady (x_dim K) (nn_outputs n) n' /\ connected_only n' /\ forall t g2, exists n2 g3, net_act K t n' x g2 = Ok (n2, action, g3)).
  2: apply L; assumption.
  clear S CO g. induction f as [|f IH]; intros c h S CO; cbn [act_cover]; [discriminate|]. unfold bind at 1.
  destruct (steady_rand K (nn_outputs n) c S h Logic.I) as (c1 & h1 & E1 & _ & S1 & D1). rewrite E1. unfold bind.
  assert (CO1 : connected_only c1) by (eapply only_dims; eassumption).
  pose proof S1 as (N1 & F1 & I1 & O1 & _).
  destruct (C73_action_lemma K train c1 x h1 N1 F1) as (ls & i & h2 & E2 & T2 & _); [lia|lia|]. rewrite E2.
  pose proof (through_content _ _ _ _ _ T2) as CT. pose proof (dims_of_content _ _ CT) as D2.
  destruct (steady_propagate (fun _ => True) K train (nn_outputs n) c1 x S1) with (g := h1) as (c3 & h3 & E3 & _ & ls3 & EQ3 & S3 & T3); [split; [unfold len in LX; lia|exact Logic.I]|exact Logic.I|].
  assert (EQ : with_layers c1 ls = c3).
  { unfold net_act, bind in E2. rewrite E3 in E2. destruct (rev (nn_layers c3)); [discriminate E2|]. unfold ret at 1, lift in E2. destruct (argmax _ _); try discriminate E2. unfold ret in E2. injection E2 as E2. rewrite E2. reflexivity. }
  assert (S2 : steady (x_dim K) (nn_outputs n) (with_layers c1 ls)) by (rewrite EQ; exact S3).
  assert (CO2 : connected_only (with_layers c1 ls)) by (unfold connected_only; cbn [with_layers nn_layers]; eapply only_dims; eassumption).
  destruct (Z.eqb_spec i action) as [->|_]; [|apply IH; assumption].
  intros X. unfold ret in X. injection X as <- <-. split; [exact S2|]. split; [exact CO2|].
  intros t g2. pose proof S2 as (N2 & F2 & I2 & O2 & _).
  destruct (C73_action_lemma K t (with_layers c1 ls) x g2 N2 F2) as (ls4 & i4 & g4 & E4 & T4 & _); [lia|lia|].
  exists (with_layers (with_layers c1 ls) ls4), g4. rewrite E4. f_equal. f_equal. f_equal.
  pose proof (outputs_map _ _ (through_same _ _ _ _ _ _ _ _ CO1 CT T2 T4)) as OM.
  clear - E2 E4 OM T2 T4. revert E2 E4. unfold net_act, bind. 
  destruct (neural_propagate (lm K) train c1 x h1) as [(a, ga)| | |]; try discriminate. destruct (neural_propagate (lm K) t (with_layers c1 ls) x g2) as [(b, gb)| | |]; try discriminate.
  intros E2 E4. unfold outputs_of in OM.
  destruct (rev (nn_layers a)) as [|pa ra] eqn:RA; [discriminate E2|]. destruct (rev (nn_layers b)) as [|pb rb] eqn:RB; [discriminate E4|].
  unfold ret at 1, lift in E2. unfold ret at 1, lift in E4. destruct (argmax (l_output pa) (n_actions K)) eqn:AA; try discriminate E2. destruct (argmax (l_output pb) (n_actions K)) eqn:AB; try discriminate E4.
  unfold ret in E2, E4. injection E2 as -> -> _. injection E4 as -> -> _. cbn [with_layers nn_layers] in RA, RB. rewrite RA, RB in OM. rewrite OM in AB. congruence.
Qed.
(** A network with fewer outputs than there are actions: reads past the outputs. *)
Lemma C73_refuted_outputs_lemma (K : cfg) (train : bool) (args : list largs) (x : list f64) (g : rng) :
  args_ok (x_dim K) args -> args_outputs (x_dim K) args < n_actions K -> len x = x_dim K ->
  exists c g', neural_create (lm K) args g = Ok (c, g') /\ forall g2, net_act K train c x g2 = UB OutOfBounds.
Proof.
  intros A LT LX. destruct (C66_create_lemma (lm K) args (x_dim K) g A) as (c & g' & E & N & F & I1 & I2 & _). exists c, g'. split; [exact E|]. intros g2.
  destruct (C69_propagate_lemma (lm K) train c x g2 N) as (ls & g3 & E3 & N' & T & _); [lia|].
  pose proof (faces_content c ls (through_content _ _ _ _ _ T) F) as (q & O & EO). unfold out_layer in O. cbn [with_layers nn_layers nn_outputs] in O, EO.
  destruct (rev ls) as [|p r] eqn:RV; [discriminate|]. injection O as ->.
  assert (SQ : sound q). { destruct N' as (_ & C & _). pose proof (Forall_rev (chained_sound _ _ C)) as SS. cbn [with_layers nn_layers] in SS. rewrite RV in SS. inversion SS; subst. assumption. }
  pose proof (sound_out q SQ) as LO. pose proof (sound_pos q SQ) as PO.
  unfold net_act, bind. rewrite E3. cbn [with_layers nn_layers]. rewrite RV. unfold ret at 1. unfold lift.
  assert (X : argmax (l_output q) (n_actions K) = UB OutOfBounds); [|rewrite X; reflexivity].
  unfold argmax. destruct (Z.ltb_spec (n_actions K) 1); [lia|]. rewrite (rd_ok f0) by lia. cbn [obind].
  set (m := n_actions K) in *. assert (Y : forall k i s, 1 <= i <= len (l_output q) -> len (l_output q) < i + Z.of_nat k ->
    oloop k i (fun i (s : Z * f64) => (v <- rd (l_output q) i ;; Ok (if fgt v (snd s) then (i, v) else s))%out) s = UB OutOfBounds).
  { induction k as [|k IH]; intros i s H1 H2; [lia|]. cbn [oloop]. destruct (Z_lt_ge_dec i (len (l_output q))) as [Hi|Hi].
    - rewrite (rd_ok f0) by lia. cbn [obind]. apply IH; lia.
    - rewrite rd_out by lia. reflexivity. }
  rewrite Y by lia. reflexivity.
Qed.

(** ** The whole system *)
Lemma C73_life_lemma (dom : list f64 -> Prop) (K : cfg) (kf : Z) (train : bool) (cargs aargs pargs : list largs) (E : Type) (VE : env E) (einv : E -> Prop)
    (V : vtab (payload (nn f64) (nn f64) (nn f64))) (wf : payload (nn f64) (nn f64) (nn f64) -> Prop) :
  cfg_ok K kf -> (1 <= loop_fuel K)%nat -> 1 <= n_actions K ->
  args_ok (x_dim K) cargs -> Forall (fun a => la_type a = CONNECTED /\ la_evolve_neurons a = false) cargs ->
  args_ok (x_dim K) aargs -> Forall steady_arg aargs -> n_actions K <= args_outputs (x_dim K) aargs ->
  args_ok (x_dim K) pargs -> Forall steady_arg pargs -> args_outputs (x_dim K) pargs = y_dim K ->
  env_ok (dom := dom) True K VE einv ->
  V = join (neural_cond K cargs train) (neural_act K aargs train) (neural_pred K pargs train) ->
  wf = wf_pay (wf_cond K (args_outputs (x_dim K) cargs)) (steady (x_dim K) (args_outputs (x_dim K) aargs)) (steady (x_dim K) (y_dim K)) ->
  forall os s, (forall l, s_heap s l = None) -> Forall (op_ok (dom := dom) True K kf wf einv) os -> costs K os <= 2 ^ 53 ->
  hpost True ((xcsf_init V K ;;; run_ops V K VE os)%m s) (fun _ s' =>
    set_nm (s_pset s') = sum_nums (s_heap s') (set_list (s_pset s')) /\ set_nm (s_pset s') <= POP_SIZE K /\
    forall l, In l (set_list (s_pset s')) -> exists r nc na np, s_heap s' l = Some r /\ c_body r = mkPay (Some nc) (Some na) (Some np) /\
      1 <= c_num r /\ 0 <= c_action r < n_actions K /\ len (c_prediction r) = y_dim K /\
      steady (x_dim K) (args_outputs (x_dim K) cargs) nc /\ connected_only nc /\ steady (x_dim K) (args_outputs (x_dim K) aargs) na /\ steady (x_dim K) (y_dim K) np).
Proof.
  intros CO HF HN C1 C2 A1 A2 A3 P1 P2 P3 EO -> -> os s HE F LE.
  eapply (life_use True _ K kf _ _ VE einv CO (C73_lemma dom K train cargs aargs pargs HF HN C1 C2 A1 A2 A3 P1 P2 P3) (fun _ => Logic.I) EO os s _ HE F LE).
  intros s' G. pose proof (i_p (g_inv G)) as P. split; [apply (so_num P)|]. split; [apply (g_lim G)|]. intros l Hl.
  pose proof (so_pos P l Hl) as N1. unfold num_of in N1. destruct (s_heap s' l) as [r|] eqn:EL; [|lia].
  pose proof (i_ok (g_inv G) _ _ EL) as R. destruct (ro_body R) as ((nc & B1 & W1 & W1') & (na & B2 & W2) & (np & B3 & W3)).
  exists r, nc, na, np. split; [reflexivity|]. split; [destruct (c_body r); cbn in *; congruence|]. split; [exact N1|]. split; [apply (ro_action R)|]. split; [apply (ro_pred R)|]. auto.
Qed.
