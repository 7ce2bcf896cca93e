(** * Facts about the connected layers that recurrent and LSTM layers are made of. *)
From Coq Require Import ZArith Bool List Lia.
From Coq Require Import Reals Lra.
From Flocq Require Import Core BinarySingleNaN.
From Verif Require Import Outcome F64 Rng RngFacts Sam SamFacts Pop PopSpec Arr ArrFacts Blas BlasFacts Clock Comp Dgp DgpFacts Act Image Layer LayerFacts MutFacts UpdFacts PropMut Net NetFacts NetLayer PropFlag Recur.
Import ListNotations.
Open Scope Z_scope.

(** A connected layer fit for use, with the given numbers of inputs, neurons and neurons at
    most, the given options and activation function. *)
Record part (ni no mx op fn : Z) (l : layer f64) : Prop := {
  pt_sound : sound l; pt_type : l_type l = CONNECTED; pt_in : l_n_inputs l = ni; pt_out : l_n_outputs l = no;
  pt_max : l_max_outputs l = mx; pt_op : l_options l = op; pt_fn : l_function l = fn
}.

Lemma sound_conn l : sound l -> l_type l = CONNECTED -> conn_shape l /\ tidy l /\ growable l /\ 0 <= l_function l < NUM_ACTIVATIONS.
Proof. intros [(_ & H)|(T & _)] E; [exact H|]. rewrite E in T. destruct T as [T|[T|T]]; discriminate T. Qed.
Lemma part_conn ni no mx op fn l : part ni no mx op fn l -> conn_shape l /\ tidy l /\ growable l /\ 0 <= fn < NUM_ACTIVATIONS.
Proof. intros P. destruct P. destruct (sound_conn l pt_sound0 pt_type0) as (C & T & G & F). rewrite pt_fn0 in F. auto. Qed.
Lemma part_dims ni no mx op fn l : part ni no mx op fn l -> 1 <= ni /\ 1 <= no <= mx /\ mx <= N_OUTPUTS_MAX /\ mx * ni <= N_WEIGHTS_MAX /\
  len (l_output l) = no /\ len (l_delta l) = no /\ len (l_state l) = no /\ l_n_weights l = ni * no /\ len (l_weights l) = l_n_weights l.
Proof. intros P. destruct (part_conn _ _ _ _ _ _ P) as (C & _ & G & _). destruct P, C, G. repeat split; lia. Qed.

Lemma part_made (l : layer f64) : l_type l = CONNECTED -> conn_shape l -> tidy l -> growable l -> 0 <= l_function l < NUM_ACTIVATIONS ->
  part (l_n_inputs l) (l_n_outputs l) (l_max_outputs l) (l_options l) (l_function l) l.
Proof. intros T C TI G F. split; try reflexivity; [left; auto|exact T]. Qed.

Lemma Ok_inj {A} (a b : A) : Ok a = Ok b -> a = b.
Proof. intros H. now injection H. Qed.

(** ** Changes that keep a part *)
Lemma part_eta e ni no mx op fn l : part ni no mx op fn l -> part ni no mx op fn (set_eta e l).
Proof.
  intros P. destruct (part_conn _ _ _ _ _ _ P) as (C & TI & G & F). destruct P. split; try assumption.
  left. split; [assumption|]. split; [destruct C; constructor; assumption|]. split; [exact TI|]. split; [destruct G; constructor; assumption|].
  change (0 <= l_function l < NUM_ACTIVATIONS). rewrite pt_fn0. exact F.
Qed.
Lemma part_function f ni no mx op fn l : part ni no mx op fn l -> 0 <= f < NUM_ACTIVATIONS -> part ni no mx op f (set_function f l).
Proof.
  intros P R. destruct (part_conn _ _ _ _ _ _ P) as (C & TI & G & F). destruct P. split; try assumption; [|reflexivity].
  left. split; [assumption|]. split; [destruct C; constructor; assumption|]. split; [exact TI|]. split; [destruct G; constructor; assumption|exact R].
Qed.
Lemma part_delta d ni no mx op fn l : part ni no mx op fn l -> len d = no -> part ni no mx op fn (set_delta d l).
Proof. intros P L. destruct P. split; try assumption. apply sound_delta; [assumption|lia]. Qed.

Lemma part_copy ni no mx op fn l : part ni no mx op fn l -> exists l', layer_copy l = Ok l' /\ part ni no mx op fn l' /\ content l' = content l.
Proof.
  intros P. destruct P. destruct (copy_ok l pt_sound0) as (l' & E & S & C). exists l'. split; [exact E|]. split; [|exact C].
  unfold content, dims in C. injection C as C1 C2 C3 C4 C5 C6 _ _ _ _. split; congruence.
Qed.
Lemma malloc_rest (m l : layer f64) : connected_malloc m = Ok l -> (l_eta l, l_n_active l, l_n_weights l, l_n_biases l) = (l_eta m, l_n_active m, l_n_weights m, l_n_biases m) /\
  l_output l = zeros f0 (l_n_outputs m).
Proof.
  unfold connected_malloc. destruct (layer_guard_outputs m); try discriminate. cbn [obind]. destruct (layer_guard_weights m); try discriminate. cbn [obind].
  generalize (zeros f0 (l_n_outputs m)) (zeros fnan (l_n_outputs m)) (zeros f0 (l_n_weights m)) (zeros false (l_n_weights m)) (zeros fnan (l_n_weights m)) (zeros fnan 6).
  intros z1 z2 z3 z4 z5 z6 E. apply Ok_inj in E. subst l. split; reflexivity.
Qed.
Lemma copy_tail_rest (l m l' : layer f64) : 
  (l_eta m, l_n_active m, l_n_weights m, l_n_biases m, l_n_outputs m) = (l_eta l, l_n_active l, l_n_weights l, l_n_biases l, l_n_outputs l) ->
   (l0 <- connected_malloc m ;;
     b <- copy_n (l_n_biases l) (l_biases l) (l_biases l0) ;;
     w <- copy_n (l_n_weights l) (l_weights l) (l_weights l0) ;;
     wa <- copy_n (l_n_weights l) (l_active l) (l_active l0) ;;
     mu <- copy_n 6 (l_mu l) (l_mu l0) ;;
     Ok (set_biases b (set_weights w (set_active wa (set_mu mu l0)))))%out = Ok l' ->
 (l_eta l', l_n_active l', l_n_weights l', l_n_biases l') = (l_eta l, l_n_active l, l_n_weights l, l_n_biases l) /\
  l_output l' = zeros f0 (l_n_outputs l).
Proof.
  intros M E. destruct (connected_malloc m) as [l0| | |] eqn:EM; try discriminate; destruct (malloc_rest m l0 EM) as (H1 & H2).
  injection M as M1 M2 M3 M4 M5. rewrite M1, M2, M3, M4 in H1. rewrite M5 in H2. cbn [obind] in E.
  destruct (copy_n (l_n_biases l) _ _) as [b| | |]; try discriminate. cbn [obind] in E. destruct (copy_n (l_n_weights l) (l_weights l) _) as [w| | |]; try discriminate. cbn [obind] in E.
  destruct (copy_n (l_n_weights l) (l_active l) _) as [a| | |]; try discriminate. cbn [obind] in E. destruct (copy_n 6 _ _) as [mm| | |]; try discriminate. cbn [obind] in E.
  apply Ok_inj in E. subst l'. split; [exact H1|exact H2].
Qed.
Lemma copy_rest l l' : l_type l = CONNECTED -> layer_copy l = Ok l' -> (l_eta l', l_n_active l', l_n_weights l', l_n_biases l') = (l_eta l, l_n_active l, l_n_weights l, l_n_biases l) /\
  l_output l' = zeros f0 (l_n_outputs l).
Proof.
  intros T. unfold layer_copy. rewrite T, Z.eqb_refl. unfold connected_copy. rewrite T, Z.eqb_refl. cbn [negb]. apply copy_tail_rest. reflexivity.
Qed.

(** Both that it returns and what a successful run guarantees. *)
Lemma rt_ens J {A} (m : RM A) P Q : rt J m P -> ens m Q -> rt J m (fun a => P a /\ Q a).
Proof. intros H E g G. destruct (H g G) as (a & g' & EQ & G' & Pa). exists a, g'. split; [exact EQ|]. split; [exact G'|]. split; [exact Pa|exact (E g a g' EQ)]. Qed.

Section Any.
Context (J : rng -> Prop) (lm : libm) (Zok : f64 -> Prop) (SR : src lm J Zok).
Notation rt := (rt J).

Lemma part_init (a : largs) ni fn : 1 <= la_n_init a <= la_n_max a -> la_n_max a <= N_OUTPUTS_MAX -> la_n_max a * ni <= N_WEIGHTS_MAX -> 1 <= ni ->
  Z.abs (la_grow a) <= 1000000000 -> 0 <= fn < NUM_ACTIVATIONS ->
  rt (layer_init lm (part_args a ni fn)) (part ni (la_n_init a) (la_n_max a) (layer_args_opt a) fn).
Proof.
  intros H1 H2 H3 H4 H5 H6. eapply rt_mono; [apply rt_ens; [apply (init_ok J lm Zok SR ni); [left; auto 10|cbn; lia]|]|].
  - unfold layer_init. change (la_type (part_args a ni fn) =? CONNECTED) with true. cbn iota. unfold connected_init. cbv zeta.
    eapply ens_bind; [apply ens_any|]. intros nw _. eapply ens_bind with (P := fun l => l_function l = fn).
    { unfold layer_init_eta. match goal with |- context [if ?c then _ else _] => destruct c end; [eapply ens_bind; [apply ens_any|]; intros e _|]; apply ens_ret; reflexivity. }
    intros l L. eapply ens_bind with (P := fun l => l_function l = fn).
    { apply ens_lift. intros l' E. unfold connected_malloc in E. destruct (layer_guard_outputs l); try discriminate. cbn [obind] in E.
      destruct (layer_guard_weights l); try discriminate. cbn [obind] in E. injection E as <-. exact L. }
    intros l1 L1. eapply ens_bind; [apply ens_any|]. intros w _. eapply ens_bind; [apply ens_any|]. intros mu _. apply ens_ret.
    instantiate (1 := fun l => l_function l = fn). exact L1.
  - intros l ((S & T & NI & NO & MX & OP) & F). split; try assumption.
    + exact (MX T).
    + exact (OP T).
Qed.
Lemma part_rand ni no mx op fn l : part ni no mx op fn l -> rt (layer_rand lm l) (part ni no mx op fn).
Proof.
  intros P. pose proof (pt_sound _ _ _ _ _ _ P) as S. eapply rt_mono; [apply rt_ens; [apply (rand_ok J lm Zok SR l S)|]|].
  - unfold layer_rand. rewrite (pt_type _ _ _ _ _ _ P). cbn [orb Z.eqb CONNECTED]. change ((CONNECTED =? CONNECTED) || (CONNECTED =? CONVOLUTIONAL)) with true. cbn iota.
    unfold layer_weight_rand. eapply ens_bind; [apply ens_any|]. intros wa _. eapply ens_bind; [apply ens_any|]. intros b _. apply ens_ret.
    instantiate (1 := fun l' => l_function l' = l_function l). reflexivity.
  - intros l' ((S' & D) & F). cbv beta in F. unfold dims in D. injection D as D1 D2 D3 D4 D5. destruct P. split; congruence.
Qed.
Lemma part_resize fuel ni no mx op fn l p : (1 <= fuel)%nat -> part ni no mx op fn l -> 1 <= l_n_outputs p -> mx * l_n_outputs p <= N_WEIGHTS_MAX ->
  rt (layer_resize lm fuel l p) (part (l_n_outputs p) no mx op fn).
Proof.
  intros FU P P1 PW. pose proof (part_conn _ _ _ _ _ _ P) as (C & TI & G & F). pose proof (weight_room l C G) as (W1 & W2). destruct P.
  unfold layer_resize. cbv zeta. rewrite pt_type0, Z.eqb_refl. destruct G. unfold N_OUTPUTS_MAX, N_WEIGHTS_MAX in *.
  eapply rt_mono; [apply (resize_ok J lm Zok SR); try assumption; unfold N_WEIGHTS_MAX, int_max; nia|].
  intros l' (l1 & R & T1 & H). pose proof (ri_rest _ _ _ R) as E.
  assert (X : l_function l1 = l_function l /\ l_type l1 = l_type l /\ l_options l1 = l_options l /\ l_max_outputs l1 = l_max_outputs l /\ l_grow l1 = l_grow l /\ l_mu l1 = l_mu l).
  { rewrite E. repeat split; reflexivity. }
  destruct X as (X1 & X2 & X3 & X4 & X5 & X6). pose proof (ri_in _ _ _ R) as RI. pose proof (ri_out _ _ _ R) as RO.
  assert (G1 : growable l1).
  { rewrite <- pt_max0 in PW. constructor; rewrite ?RI, ?RO, ?X4, ?X5, ?X6; unfold N_OUTPUTS_MAX, N_WEIGHTS_MAX; lia. }
  assert (B : part (l_n_outputs p) no mx op fn l1).
  { split; try congruence. left. split; [congruence|]. split; [exact (ri_shape _ _ _ R)|]. split; [exact T1|]. split; [exact G1|]. rewrite X1, pt_fn0. exact F. }
  destruct (has l EVOLVE_CONNECT).
  - destruct H as (a & w & n & -> & (K1 & K2 & K3 & K4) & _). destruct B. split; try assumption. left. split; [exact pt_type1|].
    pose proof (ri_shape _ _ _ R) as RS. split; [destruct RS; constructor; assumption|]. split; [split; [exact K3|exact K4]|]. split; [destruct G1; constructor; assumption|].
    change (0 <= l_function l1 < NUM_ACTIVATIONS). rewrite X1, pt_fn0. exact F.
  - subst l'. exact B.
Qed.
Lemma part_add N ni no mx op fn l : part ni no mx op fn l -> 1 <= no + N <= mx -> rt (layer_add_neurons lm l N) (part ni (no + N) mx op fn).
Proof.
  intros P R. pose proof (part_conn _ _ _ _ _ _ P) as (C & TI & G & F). pose proof (weight_room l C G) as (W1 & W2). destruct P.
  pose proof G as G'. destruct G'. unfold N_OUTPUTS_MAX, N_WEIGHTS_MAX in *.
  eapply rt_mono; [apply (add_neurons_ok J lm Zok SR l N C); unfold N_OUTPUTS_MAX, N_WEIGHTS_MAX; nia|].
  intros l' GR. pose proof (gr_rest _ _ _ GR) as E. pose proof (gr_n _ _ _ GR) as GN.
  assert (X : l_function l' = l_function l /\ l_type l' = l_type l /\ l_options l' = l_options l /\ l_max_outputs l' = l_max_outputs l /\ l_grow l' = l_grow l /\ l_mu l' = l_mu l /\ l_n_inputs l' = l_n_inputs l).
  { rewrite E. repeat split; reflexivity. }
  destruct X as (X1 & X2 & X3 & X4 & X5 & X6 & X7). split; try congruence. left. split; [congruence|]. split; [exact (gr_shape _ _ _ GR)|]. split; [|split].
  - split; [|exact (gr_active _ _ _ GR)]. intros k K A. destruct (Z_lt_dec k (l_n_weights l)) as [Q|Q].
    + destruct (gr_weights _ _ _ GR k K Q) as (E1 & E2 & _). rewrite E1. apply TI; [lia|congruence].
    + destruct (gr_new _ _ _ GR k ltac:(lia)) as (_ & [Y|(_ & Y)]); [congruence|exact Y].
  - constructor; rewrite ?X7, ?GN, ?X4, ?X5, ?X6; unfold N_OUTPUTS_MAX, N_WEIGHTS_MAX; lia.
  - rewrite X1, pt_fn0. exact F.
Qed.
Lemma part_connectivity en dis ni no mx op fn l : part ni no mx op fn l -> rt (layer_mutate_connectivity lm l en dis) (fun r => part ni no mx op fn (fst r)).
Proof.
  intros P. pose proof (part_conn _ _ _ _ _ _ P) as (C & TI & G & F). eapply rt_mono; [apply (mutate_connectivity_ok J lm Zok SR l en dis (conn_wfit l C) TI)|].
  intros r (a & w & n & -> & (K1 & K2 & K3 & K4) & _). destruct P. split; try assumption. left. split; [exact pt_type0|].
  split; [destruct C; constructor; assumption|]. split; [split; [exact K3|exact K4]|]. split; [destruct G; constructor; assumption|].
  change (0 <= l_function l < NUM_ACTIVATIONS). rewrite pt_fn0. exact F.
Qed.
Lemma part_weights mu ni no mx op fn l : part ni no mx op fn l -> rt (layer_mutate_weights lm l mu) (fun r => part ni no mx op fn (fst r) /\ l_n_active (fst r) = l_n_active l).
Proof.
  intros P. pose proof (part_conn _ _ _ _ _ _ P) as (C & TI & G & F). eapply rt_mono; [apply (mutate_weights_ok J lm Zok SR l mu (conn_wfit l C))|].
  intros r (w & b & -> & L1 & L2 & H1 & _). split; [|reflexivity]. pose proof (cs_b _ C) as CB. destruct P. split; try assumption. left. split; [exact pt_type0|].
  split; [destruct C; constructor; try assumption; change (len b = l_n_outputs l); lia|].
  split; [split; [|apply TI]; intros k K A; change (at_ fnan w k = f0); rewrite H1 by assumption; apply TI; assumption|]. split; [destruct G; constructor; assumption|].
  change (0 <= l_function l < NUM_ACTIVATIONS). rewrite pt_fn0. exact F.
Qed.
End Any.

(** ** Passing numbers through a part *)

(** What neuron i of the layer computes before activation, within the limits of neurons. *)
Definition pre {T} (A : arith T) (l : layer T) (x : list T) (i : Z) : T := aclamp A (net_in A l x i) (a_Z A NEURON_MIN) (a_Z A NEURON_MAX).
Lemma part_forward lm ni no mx op fn l x (f : f64 -> f64) : part ni no mx op fn l -> ni <= len x -> (forall v, neural_activate (f64_arith lm) fn v = Ok (f v)) ->
  exists l', connected_forward (f64_arith lm) l x = Ok l' /\ part ni no mx op fn l' /\ l_n_active l' = l_n_active l /\ content l' = content l /\
   (forall i, 0 <= i < no -> at_ f0 (l_output l') i = f (pre (f64_arith lm) l x i)).
Proof.
  intros P L F. destruct (part_conn _ _ _ _ _ _ P) as (C & TI & G & _). pose proof P as P'. destruct P'.
  destruct (connected_forward_ok (f64_arith lm) l x f C) as (st & out & E & L1 & L2 & H); [lia|rewrite pt_fn0; exact F|].
  eexists. split; [exact E|]. split; [|split; [reflexivity|split; [reflexivity|]]].
  - split; try assumption. eapply passed_sound; [exact pt_sound0|]. exists st, out. auto.
  - intros i I. destruct (H i ltac:(lia)) as (E1 & E2). cbn [l_output set_state set_output]. change f0 with (n0 (a_num (f64_arith lm))). rewrite E2. unfold pre. rewrite E1. reflexivity.
Qed.
Lemma part_backward lm ni no mx op fn l x od : part ni no mx op fn l -> ni <= len x -> (forall d, od = Some d -> ni <= len d) ->
  exists l' od', connected_backward (f64_arith lm) l x od = Ok (l', od') /\ part ni no mx op fn l' /\ l_n_active l' = l_n_active l /\ content l' = content l /\
    match od with Some d => exists d', od' = Some d' /\ len d' = len d | None => od' = None end.
Proof.
  intros P L LD. destruct (part_conn _ _ _ _ _ _ P) as (C & TI & G & F). pose proof P as P'. destruct P'.
  destruct (act_defined (f64_arith lm) _ F) as (_ & g & Hg).
  destruct (connected_backward_ok (f64_arith lm) l x od g C) as (l' & od' & E & dd & bu & wu & -> & L1 & L2 & L3 & _ & _ & OD); [lia|rewrite pt_fn0; exact Hg|intros d D; rewrite pt_in0; auto|].
  eexists _, od'. split; [exact E|]. split; [|split; [reflexivity|split; [reflexivity|]]].
  - split; try assumption. apply sound_updates; assumption.
  - destruct od as [d|]; [|exact OD]. destruct OD as (d' & E1 & E2 & _). exists d'. auto.
Qed.
Lemma part_update lm ni no mx op fn l : part ni no mx op fn l -> exists l', weights_update (f64_arith lm) l = Ok l' /\ part ni no mx op fn l' /\ l_n_active l' = l_n_active l /\ l_output l' = l_output l.
Proof.
  intros P. destruct (part_conn _ _ _ _ _ _ P) as (C & TI & G & F). pose proof P as P'. destruct P'.
  destruct (C42_update_lemma lm l C TI) as (l' & E & C' & TI' & A1 & A2 & E').
  exists l'. split; [exact E|]. generalize E' C' TI'. generalize (l_weights l') (l_weight_updates l') (l_biases l') (l_bias_updates l'). clear E' C' TI' A1 A2 E.
  intros w wu b bu E' C' TI'. subst l'. split; [|split; reflexivity]. split; try assumption. left. split; [assumption|]. split; [exact C'|]. split; [exact TI'|].
  split; [destruct G; constructor; assumption|]. change (0 <= l_function l < NUM_ACTIVATIONS). rewrite pt_fn0. exact F.
Qed.
Lemma linear_id {T} (A : arith T) x : neural_activate A LINEAR x = Ok x.
Proof. reflexivity. Qed.
Lemma clear_ok {T} (z : T) n a : 0 <= n <= len a -> exists a', clear z n a = Ok a' /\ len a' = len a /\ (forall i, 0 <= i < n -> at_ z a' i = z).
Proof.
  intros (N & L). unfold clear.
  destruct (ofor_ind (fun k d => len d = len a /\ (forall i, 0 <= i < k -> at_ z d i = z)) (fun i a => wr a i z) n a) as (d & -> & L' & Z0).
  - exact N.
  - split; [reflexivity|]. intros; lia.
  - intros i d HI (L1 & Z1). destruct (wr_ok d i z ltac:(lia)) as (d' & E & W1 & W2 & W3 & _). exists d'. split; [exact E|]. split; [lia|].
    intros k K. destruct (Z.eq_dec k i) as [->|NE]; [apply W2|rewrite W3 by lia; apply Z1; lia].
  - exists d. auto.
Qed.

(** ** Products with one and with zero *)
Lemma one_finite : exists m e H, f1 = B754_finite false m e H.
Proof.
  assert (A : is_finite_strict f1 = true) by reflexivity. assert (B : Bsign f1 = false) by reflexivity.
  destruct f1 as [| | |s m e H]; try discriminate A. cbn in B. subst s. exists m, e, H. reflexivity.
Qed.
Lemma one_real : B2R f1 = 1%R.
Proof. unfold f1, of_Z. vm_compute. lra. Qed.
Lemma fmul_1_r x : fmul x f1 = x.
Proof.
  destruct (is_finite x) eqn:F; [|destruct one_finite as (m & e & H & ->); destruct x as [| [|] | |]; try discriminate; reflexivity].
  pose proof one_real as O.
  pose proof (Bmult_correct 53 1024 eq_refl eq_refl mode_NE x f1) as H. rewrite O, Rmult_1_r in H.
  rewrite round_generic in H by (try apply valid_rnd_round_mode; apply generic_format_B2R).
  rewrite Rlt_bool_true in H by apply abs_B2R_lt_emax. destruct H as (H1 & H2 & H3).
  assert (FM : is_finite (fmul x f1) = true) by (refine (eq_trans H2 _); rewrite F; reflexivity).
  apply B2R_Bsign_inj; [exact FM|exact F|exact H1|].
  refine (eq_trans (H3 _) _); [change (is_nan (fmul x f1) = false); destruct (fmul x f1); (reflexivity || discriminate FM)|]. change (Bsign f1) with false. apply xorb_false_r.
Qed.
Lemma fmul_1_l x : fmul f1 x = x.
Proof.
  destruct (is_finite x) eqn:F; [|destruct one_finite as (m & e & H & ->); destruct x as [| [|] | |]; try discriminate; reflexivity].
  pose proof one_real as O.
  pose proof (Bmult_correct 53 1024 eq_refl eq_refl mode_NE f1 x) as H. rewrite O, Rmult_1_l in H.
  rewrite round_generic in H by (try apply valid_rnd_round_mode; apply generic_format_B2R).
  rewrite Rlt_bool_true in H by apply abs_B2R_lt_emax. destruct H as (H1 & H2 & H3).
  assert (FM : is_finite (fmul f1 x) = true) by (refine (eq_trans H2 _); rewrite F; reflexivity).
  apply B2R_Bsign_inj; [exact FM|exact F|exact H1|].
  refine (eq_trans (H3 _) _); [change (is_nan (fmul f1 x) = false); destruct (fmul f1 x); (reflexivity || discriminate FM)|]. change (Bsign f1) with false. apply xorb_false_l.
Qed.
(** Zero or not a number. *)
Definition void (x : f64) : Prop := feq x f0 = true \/ is_nan x = true.
Lemma void_cases x : void x -> (exists s, x = B754_zero s) \/ x = B754_nan.
Proof.
  intros [H|H]; [|right; destruct x; try discriminate; reflexivity]. left. destruct x as [s|s| |s m e B]; try discriminate; [exists s; reflexivity|destruct s; discriminate|]. destruct s; discriminate.
Qed.
Lemma void_zero s : void (B754_zero s).
Proof. left. destruct s; reflexivity. Qed.
Lemma void_nan : void B754_nan.
Proof. right. reflexivity. Qed.
Lemma void_mul_r x y : void y -> void (fmul x y).
Proof. intros V. apply void_cases in V. destruct V as [(s & ->)| ->]; destruct x as [s'|s'| |s' m e B]; unfold fmul; cbn; (apply void_zero || apply void_nan). Qed.
Lemma void_mul_l x y : void x -> void (fmul x y).
Proof. intros V. apply void_cases in V. destruct V as [(s & ->)| ->]; destruct y as [s'|s'| |s' m e B]; unfold fmul; cbn; (apply void_zero || apply void_nan). Qed.
Lemma add_void x y : void y -> feq (fadd x y) x = true \/ is_nan (fadd x y) = true.
Proof.
  intros V. apply void_cases in V. destruct V as [(s & ->)| ->]; [|right; destruct x as [s'|s'| |s' m e B]; reflexivity].
  destruct x as [s'|s'| |s' m e B].
  - left. destruct s, s'; reflexivity.
  - left. destruct s'; reflexivity.
  - right. reflexivity.
  - left. change (feq (B754_finite s' m e B) (B754_finite s' m e B) = true). apply F64Facts.feq_X; reflexivity.
Qed.
