(** * Neural outputs lie in their activation's range (property C45). *)
From Coq Require Import ZArith Bool List Reals Lia Lra.
From Flocq Require Import Core BinarySingleNaN.
From Verif Require Import Outcome F64 F64Facts F64Bounds Rng RngFacts Sam SamFacts Pop PopSpec Arr ArrFacts Blas BlasFacts LossFacts Clock Act Image Layer LayerFacts MutFacts PropMut Net NetFacts NetLayer NetChain PropNet RangeFacts.
Import ListNotations.
Open Scope Z_scope.

Lemma C45_activation_lemma (lm : libm) (a : Z) (x : f64) : range_ok lm -> 0 <= a < NUM_ACTIVATIONS -> is_finite x = true -> (a = SELU -> state_range x) ->
  exists y, neural_activate (f64_arith lm) a x = Ok y /\ in_range a y.
Proof.
  intros RO H F SE. exists (act_of (f64_arith lm) a x). split; [now apply act_of_ok|]. apply act_range; try assumption.
  intros E. specialize (SE E). now apply (between_Z (-100) 100) in SE.
Qed.
Lemma C45_state_lemma (lm : libm) (a : Z) (x : f64) : range_ok lm -> 0 <= a < NUM_ACTIVATIONS -> state_range x ->
  exists y, neural_activate (f64_arith lm) a x = Ok y /\ in_range a y /\ between (of_Z (-128)) (of_Z 128) y.
Proof.
  intros RO H SX. apply (between_Z (-100) 100) in SX; [|lia..]. exists (act_of (f64_arith lm) a x). split; [now apply act_of_ok|].
  split; [apply act_range; try assumption; [apply SX|intros _; exact SX]|]. apply (between_Z (-128) 128); [lia..|]. now apply act_bound.
Qed.
(** [x] is a double of magnitude at most 2^k; a list of them. *)
Definition small (k : Z) (x : f64) : Prop := is_finite x = true /\ (Rabs (B2R x) <= bpow radix2 k)%R.
Lemma small_in k x : small k x <-> fin_in (- bpow radix2 k) (bpow radix2 k) x.
Proof.
  split; intros (F & L); (split; [exact F|]).
  - apply Rabs_le_inv in L. lra.
  - apply Rabs_le. lra.
Qed.
Lemma small_within k l : Forall (small k) l <-> within k l.
Proof. split; intros H; (eapply Forall_impl; [|exact H]); intros x; apply small_in. Qed.

Lemma C45_connected_lemma (lm : libm) (l : layer f64) (x : list f64) (kw ki : Z) : range_ok lm -> conn_shape l -> 0 <= l_function l < NUM_ACTIVATIONS ->
  l_n_inputs l <= 2 ^ 31 -> l_n_inputs l <= len x -> 0 <= kw -> 0 <= ki -> kw + ki <= 980 ->
  Forall (small kw) (l_weights l) -> Forall (small kw) (l_biases l) -> (forall j, 0 <= j < l_n_inputs l -> small ki (at_ f0 x j)) ->
  exists st out, connected_forward (f64_arith lm) l x = Ok (set_state st (set_output out l)) /\ len st = l_n_outputs l /\ len out = l_n_outputs l /\
    Forall state_range st /\ Forall (fun y => in_range (l_function l) y /\ small 7 y) out.
Proof.
  intros RO C F N LX K1 K2 K3 W B HX. destruct (connected_range lm RO l x kw ki C F N LX K1 K2 K3 (proj1 (small_within _ _) W) (proj1 (small_within _ _) B)) as (st & out & E & L1 & L2 & HS & HO).
  - intros j Hj. apply small_in, HX, Hj.
  - exists st, out. repeat (split; [assumption|]). eapply Forall_impl; [|exact HO]. intros y (Y1 & Y2). split; [exact Y1|]. apply small_in. exact Y2.
Qed.
Lemma C45_softmax_lemma (lm : libm) (l : layer f64) (x : list f64) (ki ks : Z) : range_ok lm -> plain_shape l -> l_n_inputs l <= len x ->
  0 <= ki -> 0 <= ks -> ki + ks <= 980 -> (forall j, 0 <= j < l_n_inputs l -> small ki (at_ f0 x j)) ->
  is_finite (l_scale l) = true -> (bpow radix2 (- ks) <= B2R (l_scale l))%R ->
  exists out, softmax_forward (f64_arith lm) l x = Ok (set_output out l) /\ len out = l_n_outputs l /\ Forall unit_range out.
Proof. intros RO P LX K1 K2 K3 HX F S0. apply (softmax_range lm RO l x ki ks); try assumption. intros j Hj. apply small_in, HX, Hj. Qed.

(** A layer none of whose weights or scales is extreme. *)
Definition calm (kw ks : Z) (l : layer f64) : Prop :=
  (l_type l = CONNECTED -> Forall (small kw) (l_weights l) /\ Forall (small kw) (l_biases l)) /\
  (l_type l = SOFTMAX -> is_finite (l_scale l) = true /\ (bpow radix2 (- ks) <= B2R (l_scale l))%R).
(** The states and outputs of a layer are in range. *)
Definition ranged (ki : Z) (l : layer f64) : Prop := Forall (small ki) (l_output l) /\
  (l_type l = CONNECTED -> Forall state_range (l_state l) /\ Forall (in_range (l_function l)) (l_output l)) /\
  (l_type l = SOFTMAX -> Forall unit_range (l_output l)).
Lemma C45_network_lemma (lm : libm) (n : nn f64) (x : list f64) (kw ks ki : Z) (g : rng) : range_ok lm -> net_ok n -> nn_inputs n <= len x ->
  0 <= kw -> 0 <= ks -> 7 <= ki -> kw + ki <= 980 -> ki + ks <= 980 -> Forall (calm kw ks) (nn_layers n) ->
  (forall j, 0 <= j < nn_inputs n -> small ki (at_ f0 x j)) ->
  exists ls g', neural_propagate lm false n x g = Ok (with_layers n ls, g') /\ Forall (ranged ki) ls.
Proof.
  intros RO (N & C & R) LX K1 K2 K3 K4 K5 M HX.
  destruct (forward_tame _ lm _ (src_any lm) RO kw ks ki (nn_layers n) K1 K2 K3 K4 K5 (nn_inputs n) x C) with (g := g) as (ls & g' & E & _ & H); try assumption; try exact I.
  - eapply Forall_impl; [|exact M]. intros l (M1 & M2). split; [|exact M2]. intros T. destruct (M1 T). split; now apply small_within.
  - intros j Hj. apply small_in, HX, Hj.
  - exists ls, g'. split; [unfold neural_propagate, bind; rewrite E; reflexivity|]. eapply Forall_impl; [|exact H].
    intros l (T1 & T2). split; [now apply small_within|exact T2].
Qed.

(** ** Where it fails *)
(** Meets the contract and overflows where the true functions do. *)
Definition edge_lm : libm :=
  mkLibm (fun x => if is_nan x then x else if fle x (of_Z 100) then f1 else finf) (fun x => f0) (fun x => f0) (fun x => f0) (fun x => f0) (fun x y => f1)
    (fun x => if fle x (of_Z 100) then f0 else finf) (fun x => f0).
Lemma edge_ok : range_ok edge_lm.
Proof.
  assert (T0 : forall x, fle x f0 = true -> fle x (of_Z 100) = true) by (intros x H; apply (fle_trans _ _ _ H); vm_compute; reflexivity).
  assert (NX : forall x y, fle x y = true -> is_nan x = false) by (intros x y H; apply (proj1 (fle_nn _ _ H))).
  constructor; cbn [edge_lm m_exp m_log m_sin m_cos m_tanh m_pow m_expm1 m_log1p].
  - intros x N. unfold F64Facts.nn in N. rewrite N. destruct (fle x (of_Z 100)); reflexivity.
  - intros x L. rewrite (NX _ _ L), (T0 _ L). reflexivity.
  - intros x L. assert (G : fle x f0 = true).
    { destruct (feq_nn _ _ L) as (N1 & N2). apply feq_X in L; [|assumption..]. apply fle_X; [assumption..|]. rewrite L. apply Rle_refl. }
    rewrite (NX _ _ G), (T0 _ G). reflexivity.
  - intros x L. rewrite (NX _ _ L), L. vm_compute. reflexivity.
  - intros x N. split; vm_compute; reflexivity.
  - intros x N. split; vm_compute; reflexivity.
  - intros x N. split; vm_compute; reflexivity.
  - intros x L. rewrite (T0 _ L). split; vm_compute; reflexivity.
  - intros x (_ & L). rewrite L. reflexivity.
  - intros x L. reflexivity.
  - intros x L. vm_compute. reflexivity.
Qed.

(** Two inputs of 1e308 into a linear neuron with weights 10 and -10, the limits of the code. *)
Definition over_layer : layer f64 := set_function LINEAR (small_layer [true; true] [of_Z 10; of_Z (-10)] 1 0 0 low_mu).
Lemma function_shape v (l : layer f64) : conn_shape l -> conn_shape (set_function v l).
Proof. intros []. constructor; assumption. Qed.
Lemma function_growable v (l : layer f64) : growable l -> growable (set_function v l).
Proof. intros []. constructor; assumption. Qed.
Lemma function_tidy v (l : layer f64) : tidy l -> tidy (set_function v l).
Proof. intros H. exact H. Qed.
Definition over_input : list f64 := [of_Z (10 ^ 308); of_Z (10 ^ 308)].
Lemma C45_refuted_layer_lemma : exists (lm : libm) (l : layer f64) (x : list f64) (l' : layer f64),
  range_ok lm /\ conn_shape l /\ Forall (between (of_Z WEIGHT_MIN) (of_Z WEIGHT_MAX)) (l_weights l) /\ Forall (fun b => is_finite b = true) (l_biases l) /\
  len x = l_n_inputs l /\ Forall (fun v => is_finite v = true) x /\
  connected_forward (f64_arith lm) l x = Ok l' /\ is_nan (at_ f0 (l_output l') 0) = true.
Proof.
  assert (X0 : match connected_forward (f64_arith edge_lm) over_layer over_input with Ok l' => is_nan (at_ f0 (l_output l') 0) = true | _ => False end) by (vm_compute; reflexivity).
  assert (X1 : Forall (between (of_Z WEIGHT_MIN) (of_Z WEIGHT_MAX)) [of_Z 10; of_Z (-10)]) by (apply Forall_forall; intros y [<-|[<-|[]]]; split; vm_compute; reflexivity).
  assert (X2 : Forall (fun v => is_finite v = true) over_input) by (apply Forall_forall; intros y [<-|[<-|[]]]; vm_compute; reflexivity).
  assert (X3 : len over_input = 2) by reflexivity.
  exists edge_lm, over_layer, over_input. destruct (connected_forward (f64_arith edge_lm) over_layer over_input) as [l'| | |]; try contradiction X0.
  exists l'. split; [exact edge_ok|].
  split; [apply function_shape, small_shape; [lia|reflexivity|reflexivity]|].
  split; [exact X1|]. split; [constructor; [reflexivity|constructor]|]. split; [exact X3|]. split; [exact X2|]. split; [reflexivity|exact X0].
Qed.
Lemma C45_refuted_selu_lemma : exists (lm : libm) (x y : f64), range_ok lm /\ is_finite x = true /\
  neural_activate (f64_arith lm) SELU x = Ok y /\ is_nan y = true.
Proof. exists edge_lm, (of_Z 1000). eexists. split; [exact edge_ok|]. split; [reflexivity|]. split; [reflexivity|]. vm_compute. reflexivity. Qed.
Definition soft_layer (s : f64) : layer f64 :=
  set_type SOFTMAX (set_scale s (set_n_inputs 2 (set_n_outputs 2 (set_output [f0; f0] (set_delta [f0; f0] layer_defaults))))).
Lemma soft_shape s : plain_shape (soft_layer s).
Proof. constructor; try reflexivity; [split; vm_compute; discriminate|left; reflexivity]. Qed.
Lemma C45_refuted_scale_lemma : exists (lm : libm) (l : layer f64) (x : list f64) (l' : layer f64),
  range_ok lm /\ plain_shape l /\ l_scale l = f0 /\ x = [f1; f1] /\ softmax_forward (f64_arith lm) l x = Ok l' /\ Forall (fun y => is_nan y = true) (l_output l').
Proof.
  assert (X0 : match softmax_forward (f64_arith edge_lm) (soft_layer f0) [f1; f1] with Ok l' => forallb is_nan (l_output l') = true | _ => False end) by (vm_compute; reflexivity).
  exists edge_lm, (soft_layer f0), [f1; f1]. revert X0. destruct (softmax_forward _ _ _) as [l'| | |]; intros X0; try contradiction X0. exists l'.
  split; [exact edge_ok|]. split; [apply soft_shape|]. split; [reflexivity|]. split; [reflexivity|]. split; [reflexivity|]. apply Forall_forall. intros y Y. apply (proj1 (forallb_forall _ _) X0 y Y).
Qed.
Lemma C45_refuted_negative_lemma : exists (lm : libm) (l : layer f64) (x : list f64) (l' : layer f64),
  range_ok lm /\ plain_shape l /\ l_scale l = of_Z (-1) /\ x = [of_Z 1000; f0] /\ softmax_forward (f64_arith lm) l x = Ok l' /\ is_nan (at_ f0 (l_output l') 1) = true.
Proof.
  assert (X0 : match softmax_forward (f64_arith edge_lm) (soft_layer (of_Z (-1))) [of_Z 1000; f0] with Ok l' => is_nan (at_ f0 (l_output l') 1) = true | _ => False end) by (vm_compute; reflexivity).
  exists edge_lm, (soft_layer (of_Z (-1))), [of_Z 1000; f0]. revert X0. destruct (softmax_forward _ _ _) as [l'| | |]; intros X0; try contradiction X0. exists l'.
  split; [exact edge_ok|]. split; [apply soft_shape|]. auto.
Qed.
(** A connected layer and a softmax layer. *)
Definition two_layers : nn f64 := mkNn [set_function LOGISTIC (diag_layer 5); soft_layer f1] 2 2.
Lemma two_layers_ok : net_ok two_layers.
Proof.
  destruct (diag_ok 5 ltac:(lia)) as (C & T & G & W). split; [discriminate|]. split.
  - split; [left; split; [reflexivity|]; split; [apply function_shape, C|split; [apply function_tidy, T|split; [apply function_growable, G|vm_compute; split; [discriminate|reflexivity]]]]|].
    split; [reflexivity|]. split; [right; split; [left; reflexivity|apply soft_shape]|]. split; [reflexivity|exact I].
  - vm_compute. intuition congruence.
Qed.
