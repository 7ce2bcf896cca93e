(** * Facts about networks of connected, softmax, dropout and noise layers. *)
From Coq Require Import ZArith Bool List Lia.
From Verif Require Import Outcome F64 Rng RngFacts Sam SamFacts Pop PopSpec Arr ArrFacts Blas BlasFacts Clock Comp Dgp DgpFacts Act Image Layer LayerFacts MutFacts UpdFacts PropMut Net.
Import ListNotations.
Open Scope Z_scope.

(** ** Layers *)

(** A layer that passes its input on, one output for each input. *)
Record plain_shape {T} (l : layer T) : Prop := {
  ps_n : 1 <= l_n_inputs l <= N_OUTPUTS_MAX;
  ps_eq : l_n_outputs l = l_n_inputs l;
  ps_output : len (l_output l) = l_n_outputs l;
  ps_delta : len (l_delta l) = l_n_outputs l;
  ps_state : l_type l = SOFTMAX \/ len (l_state l) = l_n_outputs l
}.
Definition plain_type (t : Z) : Prop := t = SOFTMAX \/ t = DROPOUT \/ t = NOISE.
(** The arrays of the layer have the sizes its fields say, the number of active weights is right,
    the layer is within its limits and its activation function is one of the eleven. *)
Definition sound (l : layer f64) : Prop :=
  (l_type l = CONNECTED /\ conn_shape l /\ tidy l /\ growable l /\ 0 <= l_function l < NUM_ACTIVATIONS) \/
  (plain_type (l_type l) /\ plain_shape l).

Lemma plain_not t : plain_type t -> (t =? CONNECTED) = false /\ (t =? CONVOLUTIONAL) = false /\ (t =? MAXPOOL) = false /\ (t =? AVGPOOL) = false /\ (t =? UPSAMPLE) = false.
Proof. intros [->|[->| ->]]; repeat split; reflexivity. Qed.
Lemma sound_pos l : sound l -> 1 <= l_n_inputs l /\ 1 <= l_n_outputs l.
Proof. intros [(_ & _ & _ & G & _)|(_ & P)]; [destruct G; lia|destruct P; lia]. Qed.
Lemma sound_out l : sound l -> len (l_output l) = l_n_outputs l /\ len (l_delta l) = l_n_outputs l.
Proof. intros [(_ & C & _)|(_ & P)]; [destruct C|destruct P]; auto. Qed.

Lemma act_defined {T} (A : arith T) a : 0 <= a < NUM_ACTIVATIONS ->
  (exists f, forall x, neural_activate A a x = Ok (f x)) /\ (exists g, forall x, neural_gradient A a x = Ok (g x)).
Proof.
  intros H. unfold neural_activate, neural_gradient. unfold NUM_ACTIVATIONS in H.
  assert (D : a = 0 \/ a = 1 \/ a = 2 \/ a = 3 \/ a = 4 \/ a = 5 \/ a = 6 \/ a = 7 \/ a = 8 \/ a = 9 \/ a = 10) by lia.
  repeat (destruct D as [->|D]; [split; eexists; intros x; reflexivity|]). subst a. split; eexists; intros x; reflexivity.
Qed.

(** *** Forward *)
Section Any.
Context (J : rng -> Prop) (lm : libm) (Zok : f64 -> Prop) (SR : src lm J Zok).
Notation rt := (rt J).

(** Only the state and the output change. *)
Definition passed (l l' : layer f64) : Prop := exists st out, l' = set_state st (set_output out l) /\
  len out = l_n_outputs l /\ (l_type l = SOFTMAX /\ st = l_state l \/ len st = l_n_outputs l).
Lemma passed_sound l l' : sound l -> passed l l' -> sound l'.
Proof.
  intros S (st & out & -> & LO & LS). destruct S as [(T & C & TI & G & F)|(T & P)].
  - left. split; [exact T|]. split; [|split; [exact TI|split; [destruct G; constructor; assumption|exact F]]].
    destruct LS as [(X & _)|LS]; [rewrite T in X; discriminate|]. destruct C; constructor; assumption.
  - right. split; [exact T|]. destruct P. constructor; try assumption. destruct LS as [(X & _)|LS]; [left|right]; assumption.
Qed.
Lemma out_loop n (f : Z -> list f64 -> outcome (list f64)) out : 0 <= n ->
  (forall i o, 0 <= i < n -> len o = len out -> exists o', f i o = Ok o' /\ len o' = len out) -> exists o', ofor n f out = Ok o' /\ len o' = len out.
Proof. intros N H. apply (ofor_ind (fun _ o => len o = len out) f n out); [lia|reflexivity|]. intros i o I L. apply H; assumption. Qed.
Lemma wr_len {T} (l : list T) i v : 0 <= i < len l -> exists l', wr l i v = Ok l' /\ len l' = len l.
Proof. intros H. destruct (wr_ok l i v H) as (l' & E & L & _). exists l'. auto. Qed.

Lemma forward_ok train l x : sound l -> l_n_inputs l <= len x -> rt (layer_forward lm train l x) (passed l).
Proof.
  intros S LX. unfold layer_forward. pose proof S as S'. destruct S as [(T & C & TI & G & F)|(T & P)].
  - rewrite T, Z.eqb_refl. destruct (act_defined (f64_arith lm) _ F) as ((f & Hf) & _).
    destruct (connected_forward_ok (f64_arith lm) l x f C LX Hf) as (st & out & E & L1 & L2 & _).
    eapply rt_lift; [exact E|]. exists st, out. auto.
  - destruct P as [N EQ LO LD LS]. destruct (plain_not _ T) as (-> & _ & M & _).
    assert (DN : (l_type l = DROPOUT \/ l_type l = NOISE) -> len (l_state l) = l_n_outputs l) by (intros [X|X]; rewrite X in LS; destruct LS as [Y|Y]; (discriminate Y || exact Y)).
    assert (CP : exists o, copy_n (l_n_inputs l) x (l_output l) = Ok o /\ len o = l_n_outputs l).
    { destruct (copy_n_ok f0 (l_n_inputs l) x (l_output l) ltac:(lia) ltac:(lia)) as (o & E & L & _). exists o. split; [exact E|lia]. }
    assert (FIX : forall st out, len st = l_n_outputs l -> len out = l_n_outputs l -> passed l (set_state st (set_output out l))).
    { intros st out L1 L2. exists st, out. auto. }
    assert (OUT : forall out, (l_type l = DROPOUT \/ l_type l = NOISE) -> len out = l_n_outputs l -> passed l (set_output out l)).
    { intros out HT L. exists (l_state l), out. split; [destruct l; reflexivity|]. auto. }
    assert (INV : forall (f : Z -> list f64 * list f64 -> RM (list f64 * list f64)), (l_type l = DROPOUT \/ l_type l = NOISE) ->
      (forall i so, 0 <= i < l_n_inputs l -> len (fst so) = l_n_outputs l -> len (snd so) = l_n_outputs l ->
         rt (f i so) (fun so' => len (fst so') = l_n_outputs l /\ len (snd so') = l_n_outputs l)) ->
      rt (bind (rfor (l_n_inputs l) f (l_state l, l_output l)) (fun so => ret (set_state (fst so) (set_output (snd so) l)))) (passed l)).
    { intros f HT H. eapply rt_bind.
      - apply (rt_for_mono J (fun _ so => len (fst so) = l_n_outputs l /\ len (snd so) = l_n_outputs l) (fun so => len (fst so) = l_n_outputs l /\ len (snd so) = l_n_outputs l)); [lia| | |tauto].
        + cbn [fst snd]. auto.
        + intros i so I (L1 & L2). apply H; assumption.
      - intros so (L1 & L2). apply rt_ret. auto. }
    destruct T as [T|[T|T]]; rewrite T.
    + change (SOFTMAX =? DROPOUT) with false. change (SOFTMAX =? NOISE) with false. change (SOFTMAX =? SOFTMAX) with true. cbn [andb].
      set (A := f64_arith lm).
      assert (E : exists out, softmax_forward A l x = Ok (set_output out l) /\ len out = l_n_outputs l).
      { unfold softmax_forward. rewrite (rd_ok f0) by lia. cbn [obind].
        destruct (ofor_ind (fun _ (_ : f64) => True) (fun i m => obind (rd x (i + 1)) (fun x0 => Ok (if a_lt A m x0 then x0 else m))) (l_n_inputs l - 1) (at_ f0 x 0)) as (lg & -> & _); [lia|exact I| |].
        { intros i m I _. rewrite (rd_ok f0) by lia. cbn [obind]. eauto. }
        cbn [obind].
        match goal with |- exists _, obind (ofor _ ?f _) _ = _ /\ _ =>
          destruct (ofor_ind (fun _ (so : f64 * list f64) => len (snd so) = l_n_outputs l) f (l_n_inputs l) (a_Z A 0, l_output l)) as (so & -> & LSO); [lia|exact LO| |] end.
        { intros i so I L. rewrite (rd_ok f0) by lia. cbn [obind]. cbv zeta. 
          match goal with |- context [wr (snd so) i ?v] => destruct (wr_len (snd so) i v ltac:(lia)) as (o' & -> & L') end. cbn [obind]. eexists. split; [reflexivity|]. cbn [snd]. lia. }
        cbn [obind].
        match goal with |- exists _, obind (ofor _ ?f _) _ = _ /\ _ => destruct (out_loop (l_n_inputs l) f (snd so)) as (o & -> & LOO); [lia| |] end.
        { intros i o I L. unfold modify_at. rewrite (rd_ok f0) by lia. cbn [obind]. apply (fun H => match wr_len o i _ H with ex_intro _ o' (conj E L') => ex_intro _ o' (conj E (eq_trans L' L)) end). lia. }
        cbn [obind]. exists o. split; [reflexivity|lia]. }
      destruct E as (out & E & L). eapply rt_lift; [exact E|]. exists (l_state l), out. split; [destruct l; reflexivity|]. auto.
    + change (DROPOUT =? DROPOUT) with true. cbn [andb]. unfold dropout_forward. destruct (negb train).
      { destruct CP as (o & E & L). eapply rt_bind_lift; [exact E|]. apply rt_ret. auto. }
      apply INV; [auto|]. intros i so HI L1 L2. eapply rt_bind; [apply (rt_uniform J lm Zok SR)|]. intros u _.
      destruct (wr_len (fst so) i u ltac:(lia)) as (s' & E1 & M1). eapply rt_bind_lift; [exact E1|].
      destruct (flt u (l_probability l)).
      * destruct (wr_len (snd so) i f0 ltac:(lia)) as (o' & E2 & M2). eapply rt_bind_lift; [exact E2|]. apply rt_ret. cbn [fst snd]. split; lia.
      * eapply rt_bind_lift; [apply (rd_ok f0); lia|]. destruct (wr_len (snd so) i (fmul (at_ f0 x i) (l_scale l)) ltac:(lia)) as (o' & E2 & M2).
        eapply rt_bind_lift; [exact E2|]. apply rt_ret. cbn [fst snd]. split; lia.
    + change (NOISE =? DROPOUT) with false. change (NOISE =? NOISE) with true. cbn [andb]. unfold noise_forward. destruct (negb train).
      { destruct CP as (o & E & L). eapply rt_bind_lift; [exact E|]. apply rt_ret. auto. }
      apply INV; [auto|]. intros i so HI L1 L2. eapply rt_bind; [apply (rt_uniform J lm Zok SR)|]. intros u _.
      destruct (wr_len (fst so) i u ltac:(lia)) as (s' & E1 & M1). eapply rt_bind_lift; [exact E1|]. eapply rt_bind_lift; [apply (rd_ok f0); lia|].
      eapply rt_bind with (P := fun _ => True).
      { destruct (flt u (l_probability l)); [|apply rt_ret; exact I]. eapply rt_bind; [apply (rt_normal J lm Zok SR)|]. intros z _. apply rt_ret. exact I. }
      intros v _. destruct (wr_len (snd so) i v ltac:(lia)) as (o' & E2 & M2). eapply rt_bind_lift; [exact E2|]. apply rt_ret. cbn [fst snd]. split; lia.
Qed.

(** *** Construction *)
Lemma actives_true n : 0 <= n -> actives (zeros true n) = n.
Proof.
  intros N. unfold actives, zeros. rewrite <- (Z2Nat.id n) at 2 by exact N. f_equal. clear N.
  induction (Z.to_nat n) as [|k IH]; [reflexivity|]. cbn [repeat count_occ]. destruct (Bool.bool_dec true true); [|congruence]. now rewrite IH.
Qed.
Lemma guard_ok n hi : 1 <= n <= hi -> guard n hi = Ok tt.
Proof. intros H. unfold guard. destruct (Z.ltb_spec n 1); [lia|]. destruct (Z.ltb_spec hi n); [lia|]. reflexivity. Qed.
Lemma draw_range_ok n sd w : len w = n -> rt (draw_range lm 0 n sd w) (fun w' => len w' = n).
Proof.
  intros L. pose proof (len_nonneg w) as P. unfold draw_range. rewrite Z.sub_0_r.
  apply (rt_for_mono J (fun _ w => len w = n) (fun w => len w = n)); [lia|exact L| |tauto].
  intros i w' I0 L'. eapply rt_bind; [apply (rt_normal J lm Zok SR)|]. intros x _. destruct (wr_len w' (0 + i) x ltac:(lia)) as (w2 & E & L2).
  eapply rt_lift; [exact E|]. lia.
Qed.
(** What neural_layer_connected_init does after filling in the scalar fields. *)
Definition conn_tail (n nw : Z) (l : layer f64) : RM (layer f64) :=
  (l <- layer_init_eta l ;;
   l <- lift (connected_malloc l) ;;
   w <- draw_range lm 0 nw WEIGHT_SD_INIT (l_weights l) ;;
   mu <- sam_init layer_mu_type ;;
   ret (set_weights w (set_active (zeros true nw) (set_biases (zeros f0 n) (set_mu mu l)))))%rng.
Lemma conn_tail_ok l n nw : l_type l = CONNECTED -> l_n_outputs l = n -> l_n_biases l = n -> l_n_weights l = nw -> l_n_active l = nw ->
  l_n_inputs l * n = nw -> 1 <= l_n_inputs l -> 1 <= n <= l_max_outputs l -> l_max_outputs l <= N_OUTPUTS_MAX ->
  l_max_outputs l * l_n_inputs l <= N_WEIGHTS_MAX -> Z.abs (l_grow l) <= 1000000000 -> 0 <= l_function l < NUM_ACTIVATIONS ->
  rt (conn_tail n nw l) (fun l' => sound l' /\ l_type l' = CONNECTED /\ l_n_inputs l' = l_n_inputs l /\ l_n_outputs l' = n /\ l_max_outputs l' = l_max_outputs l /\ l_options l' = l_options l).
Proof.
  intros HT HN HB HW HA HP H1 H2 H3 H4 H5 H6. assert (P : 1 <= nw <= N_WEIGHTS_MAX) by nia. unfold conn_tail.
  eapply rt_bind with (P := fun l1 => exists e, l1 = set_eta e l).
  { unfold layer_init_eta. destruct (has l EVOLVE_ETA).
    - eapply rt_bind; [apply (rt_uniform J lm Zok SR)|]. intros e _. apply rt_ret. eauto.
    - apply rt_ret. eauto. }
  intros l1 (e & ->).
  eapply rt_bind_lift.
  { unfold connected_malloc, layer_guard_outputs, layer_guard_weights. change (l_n_outputs (set_eta e l)) with (l_n_outputs l). change (l_n_weights (set_eta e l)) with (l_n_weights l).
    rewrite HN, HW, !guard_ok by lia. cbn [obind]. reflexivity. }
  cbv beta.
  eapply rt_bind; [apply draw_range_ok; apply len_zeros; lia|]. intros w LW. cbv beta in LW.
  eapply rt_bind; [apply (sam_init_len J lm Zok SR); unfold layer_mu_type; repeat (apply Forall_cons || apply Forall_nil); unfold scheme_ok; auto|].
  intros mu LM. cbv beta in LM. apply rt_ret.
  assert (LMU : len mu = 6) by (unfold len; rewrite LM; reflexivity).
  split; [left; split; [exact HT|split; [|split; [|split]]]|split; [exact HT|split; [reflexivity|split; [exact HN|auto]]]].
  - constructor.
    + change (0 <= l_n_inputs l). lia.
    + change (0 <= l_n_outputs l). lia.
    + change (l_n_weights l = l_n_inputs l * l_n_outputs l). lia.
    + change (l_n_biases l = l_n_outputs l). lia.
    + change (len (zeros f0 n) = l_n_outputs l). rewrite len_zeros; lia.
    + change (len (zeros f0 n) = l_n_outputs l). rewrite len_zeros; lia.
    + change (len (zeros f0 n) = l_n_outputs l). rewrite len_zeros; lia.
    + change (len (zeros f0 n) = l_n_outputs l). rewrite len_zeros; lia.
    + change (len (zeros f0 n) = l_n_outputs l). rewrite len_zeros; lia.
    + change (len w = l_n_weights l). lia.
    + change (len (zeros f0 nw) = l_n_weights l). rewrite len_zeros; lia.
    + change (len (zeros true nw) = l_n_weights l). rewrite len_zeros; lia.
  - split.
    + intros k K X. change (l_n_weights l) with (l_n_weights l) in K. change (0 <= k < l_n_weights l) in K. change (at_ false (zeros true nw) k = false) in X. rewrite at_zeros in X by lia. discriminate X.
    + change (l_n_active l = actives (zeros true nw)). rewrite actives_true by lia. exact HA.
  - constructor.
    + exact H1.
    + change (1 <= l_n_outputs l <= l_max_outputs l). lia.
    + exact H3.
    + exact H4.
    + exact H5.
    + exact LMU.
  - exact H6.
Qed.

(** The parameters of a layer with [n] inputs that may get up to [cap] inputs are acceptable. *)
Definition arg_ok (cap : Z) (a : largs) : Prop :=
  (la_type a = CONNECTED /\ 1 <= la_n_init a <= la_n_max a /\ la_n_max a <= N_OUTPUTS_MAX /\ la_n_max a * cap <= N_WEIGHTS_MAX /\
   Z.abs (la_grow a) <= 1000000000 /\ 0 <= la_function a < NUM_ACTIVATIONS) \/
  (plain_type (la_type a) /\ cap <= N_OUTPUTS_MAX).
Definition arg_outputs (n : Z) (a : largs) : Z := if la_type a =? CONNECTED then la_n_init a else n.
Definition arg_max (cap : Z) (a : largs) : Z := if la_type a =? CONNECTED then la_n_max a else cap.
Lemma plain_malloc_ok l : plain_type (l_type l) -> 1 <= l_n_inputs l <= N_OUTPUTS_MAX -> l_n_outputs l = l_n_inputs l ->
  exists l', plain_malloc l = Ok l' /\ plain_shape l' /\ l_type l' = l_type l /\ l_n_inputs l' = l_n_inputs l /\ l_n_outputs l' = l_n_outputs l /\
    l' = set_output (l_output l') (set_delta (l_delta l') (set_state (l_state l') l)).
Proof.
  intros HT HN HE. unfold plain_malloc, layer_guard_outputs. rewrite guard_ok by lia. cbn [obind].
  assert (M : (l_type l =? MAXPOOL) = false) by (destruct (plain_not _ HT) as (_ & _ & -> & _); reflexivity). rewrite M.
  eexists. split; [reflexivity|]. set (n := l_n_outputs l) in *.
  set (st := if (l_type l =? DROPOUT) || (l_type l =? NOISE) then zeros f0 n else l_state l).
  split; [|split; [reflexivity|split; [reflexivity|split; [reflexivity|destruct l; reflexivity]]]].
  constructor.
  - exact HN.
  - exact HE.
  - change (len (zeros f0 n) = n). apply len_zeros. lia.
  - change (len (zeros f0 n) = n). apply len_zeros. lia.
  - change (l_type l = SOFTMAX \/ len st = n). unfold st. destruct HT as [HT|[HT|HT]]; rewrite HT; [left; reflexivity|right|right]; cbn [Z.eqb orb DROPOUT NOISE]; apply len_zeros; lia.
Qed.
Lemma init_ok cap a : arg_ok cap a -> 1 <= la_n_inputs a <= cap ->
  rt (layer_init lm a) (fun l => sound l /\ l_type l = la_type a /\ l_n_inputs l = la_n_inputs a /\ l_n_outputs l = arg_outputs (la_n_inputs a) a /\
    (l_type l = CONNECTED -> l_max_outputs l = la_n_max a) /\ (l_type l = CONNECTED -> l_options l = layer_args_opt a)).
Proof.
  intros [(HT & H1 & H2 & H3 & H4 & H5)|(HT & HC)] N; unfold layer_init.
  - rewrite HT, Z.eqb_refl. unfold connected_init. unfold N_WEIGHTS_MAX in H3. eapply rt_bind_lift; [apply cint_in; nia|]. cbv zeta.
    match goal with |- rt (bind (layer_init_eta ?L) _) _ => change (rt (conn_tail (la_n_init a) (la_n_inputs a * la_n_init a) L) (fun l => sound l /\ l_type l = CONNECTED /\ l_n_inputs l = la_n_inputs a /\ l_n_outputs l = arg_outputs (la_n_inputs a) a /\
      (l_type l = CONNECTED -> l_max_outputs l = la_n_max a) /\ (l_type l = CONNECTED -> l_options l = layer_args_opt a))) end.
    eapply rt_mono; [apply conn_tail_ok; try reflexivity|].
    + exact (proj1 N).
    + exact H1.
    + exact H2.
    + change (la_n_max a * la_n_inputs a <= N_WEIGHTS_MAX). unfold N_WEIGHTS_MAX. nia.
    + exact H4.
    + exact H5.
    + intros l (Q1 & Q2 & Q3 & Q4 & Q5 & Q6). split; [exact Q1|]. split; [exact Q2|]. split; [exact Q3|]. unfold arg_outputs. rewrite HT. auto.
  - destruct (plain_not _ HT) as (X1 & X2 & X3 & X4 & X5). rewrite X1. unfold arg_outputs. rewrite X1.
    assert (FIN : forall l, l_type l = la_type a -> l_n_inputs l = la_n_inputs a -> l_n_outputs l = la_n_inputs a ->
      rt (lift (plain_malloc l)) (fun l => sound l /\ l_type l = la_type a /\ l_n_inputs l = la_n_inputs a /\ l_n_outputs l = la_n_inputs a /\
         (l_type l = CONNECTED -> l_max_outputs l = la_n_max a) /\ (l_type l = CONNECTED -> l_options l = layer_args_opt a))).
    { intros l E1 E2 E3. destruct (plain_malloc_ok l) as (l' & E & S & Q1 & Q2 & Q3 & _); [rewrite E1; exact HT|lia|lia|].
      eapply rt_lift; [exact E|]. rewrite Q1, E1. assert (NC : la_type a <> CONNECTED) by (intros X; rewrite X in X1; discriminate X1).
      split; [right; split; [rewrite Q1, E1; exact HT|exact S]|]. split; [reflexivity|]. split; [lia|]. split; [lia|]. split; contradiction. }
    assert (D : (la_type a =? DROPOUT) = true \/ (la_type a =? DROPOUT) = false /\ (la_type a =? NOISE) = true \/ (la_type a =? DROPOUT) = false /\ (la_type a =? NOISE) = false /\ (la_type a =? SOFTMAX) = true).
    { destruct HT as [HT|[HT|HT]]; rewrite HT; auto. }
    destruct D as [D|[(D1 & D)|(D1 & D2 & D)]]; [rewrite D|rewrite D1, D|rewrite D1, D2, D]; apply Z.eqb_eq in D.
    + apply FIN; [symmetry; exact D|reflexivity|reflexivity].
    + apply FIN; [symmetry; exact D|reflexivity|reflexivity].
    + apply FIN; [symmetry; exact D|reflexivity|reflexivity].
Qed.
End Any.
