(** * Copying, randomising, changing and training the layers of a network. *)
From Coq Require Import ZArith Bool List Lia.
From Verif Require Import Outcome F64 Rng RngFacts Sam SamFacts Pop PopSpec Arr ArrFacts Blas BlasFacts Clock Comp Dgp DgpFacts Act Image Layer LayerFacts MutFacts UpdFacts PropMut Net NetFacts.
Import ListNotations.
Open Scope Z_scope.

(** The type, options and numbers of neurons. *)
Definition dims {T} (l : layer T) := (l_type l, l_options l, l_n_inputs l, l_n_outputs l, l_max_outputs l).
(** What the output of a layer depends on, besides its input and the generator. *)
Definition content {T} (l : layer T) := (dims l, l_function l, l_weights l, l_biases l, l_active l, if l_type l =? CONNECTED then None else Some (l_scale l, l_probability l)).

Lemma conn_malloc_eq l : 1 <= l_n_outputs l <= N_OUTPUTS_MAX -> 1 <= l_n_weights l <= N_WEIGHTS_MAX ->
  connected_malloc l = Ok (set_state (zeros f0 (l_n_outputs l)) (set_output (zeros f0 (l_n_outputs l))
      (set_biases (zeros fnan (l_n_outputs l)) (set_bias_updates (zeros f0 (l_n_outputs l))
      (set_delta (zeros f0 (l_n_outputs l)) (set_weight_updates (zeros f0 (l_n_weights l))
      (set_active (zeros false (l_n_weights l)) (set_weights (zeros fnan (l_n_weights l))
      (set_mu (zeros fnan 6) l))))))))).
Proof. intros H1 H2. unfold connected_malloc, layer_guard_outputs, layer_guard_weights. rewrite !guard_ok by assumption. reflexivity. Qed.

Lemma weight_room l : conn_shape l -> growable l -> 1 <= l_n_weights l <= N_WEIGHTS_MAX /\ 1 <= l_n_outputs l <= N_OUTPUTS_MAX.
Proof. intros C G. destruct C, G. split; [|lia]. rewrite cs_w. nia. Qed.

(** The scalar fields a copied connected layer shares with the source. *)
Definition scalars (l : layer f64) := ((l_type l, l_options l, l_function l, l_n_inputs l, l_n_outputs l, l_max_outputs l), (l_grow l, l_n_weights l, l_n_biases l, l_n_active l)).
Lemma conn_malloc_fields m : 1 <= l_n_outputs m <= N_OUTPUTS_MAX -> 1 <= l_n_weights m <= N_WEIGHTS_MAX ->
  exists l, connected_malloc m = Ok l /\ scalars l = scalars m /\ len (l_state l) = l_n_outputs m /\ len (l_output l) = l_n_outputs m /\ len (l_biases l) = l_n_outputs m /\
    len (l_bias_updates l) = l_n_outputs m /\ len (l_delta l) = l_n_outputs m /\ len (l_weight_updates l) = l_n_weights m /\ len (l_active l) = l_n_weights m /\
    len (l_weights l) = l_n_weights m /\ len (l_mu l) = 6.
Proof.
  intros H1 H2. rewrite conn_malloc_eq by assumption. eexists. split; [reflexivity|]. split; [reflexivity|].
  generalize (l_n_outputs m) (l_n_weights m) H1 H2. intros no nw N1 N2.
  repeat match goal with |- _ /\ _ => split end; cbn; (apply len_zeros; lia) || reflexivity.
Qed.
Lemma conn_copy_tail src m : l_type src = CONNECTED -> conn_shape src -> tidy src -> growable src -> 0 <= l_function src < NUM_ACTIVATIONS -> scalars m = scalars src ->
  exists l', (l <- connected_malloc m ;;
     b <- copy_n (l_n_biases src) (l_biases src) (l_biases l) ;;
     w <- copy_n (l_n_weights src) (l_weights src) (l_weights l) ;;
     wa <- copy_n (l_n_weights src) (l_active src) (l_active l) ;;
     mu <- copy_n 6 (l_mu src) (l_mu l) ;;
     Ok (set_biases b (set_weights w (set_active wa (set_mu mu l)))))%out = Ok l' /\ sound l' /\ content l' = content src.
Proof.
  intros T C TI G F SC. destruct (weight_room src C G) as (W1 & W2). unfold scalars in SC. injection SC as E1 E2 E3 E4 E5 E6 E7 E8 E9 E10.
  destruct (conn_malloc_fields m) as (l & -> & SL & L1 & L2 & L3 & L4 & L5 & L6 & L7 & L8 & L9); [rewrite E5; exact W2|rewrite E8; exact W1|].
  unfold scalars in SL. injection SL as D1 D2 D3 D4 D5 D6 D7 D8 D9 D10. destruct C, G, TI as (TI1 & TI2). cbn [obind].
  rewrite (copy_all (l_n_biases src) (l_biases src)) by lia. cbn [obind].
  rewrite (copy_all (l_n_weights src) (l_weights src)) by lia. cbn [obind].
  rewrite (copy_all (l_n_weights src) (l_active src)) by lia. cbn [obind].
  rewrite (copy_all 6 (l_mu src)) by lia. cbn [obind].
  eexists. split; [reflexivity|]. split.
  - left. split; [cbn; congruence|]. split; [|split; [|split]].
    + constructor; cbn; lia.
    + split; cbn; [intros k K; apply TI1; lia|congruence].
    + constructor; cbn; lia.
    + cbn. rewrite D3, E3. exact F.
  - unfold content, dims. cbn. rewrite D1, D2, D3, D4, D5, D6, E1, E2, E3, E4, E5, E6, T. reflexivity.
Qed.
Lemma copy_ok l : sound l -> exists l', layer_copy l = Ok l' /\ sound l' /\ content l' = content l.
Proof.
  intros S. unfold layer_copy. destruct S as [(T & C & TI & G & F)|(T & P)].
  - rewrite T, Z.eqb_refl. unfold connected_copy. rewrite T, Z.eqb_refl. cbn [negb]. apply conn_copy_tail; try assumption. reflexivity.
  - destruct (plain_not _ T) as (-> & -> & _). unfold plain_copy. destruct P as [N EQ LO LD LS].
    assert (FIN : forall a, l_type a = l_type l -> l_n_inputs a = l_n_inputs l -> l_n_outputs a = l_n_outputs l -> content a = content l ->
      exists l', plain_malloc a = Ok l' /\ sound l' /\ content l' = content l).
    { intros a E1 E2 E3 E4. destruct (plain_malloc_ok a) as (l' & E & Q & Q1 & Q2 & Q3 & Q4); [rewrite E1; exact T|lia|lia|].
      exists l'. split; [exact E|]. split; [right; split; [rewrite Q1, E1; exact T|exact Q]|]. rewrite <- E4. rewrite Q4. reflexivity. }
    destruct (l_type l =? DROPOUT); apply FIN; try reflexivity.
    + symmetry. exact EQ.
    + unfold content, dims. change (l_n_outputs (set_n_outputs (l_n_inputs l) l)) with (l_n_inputs l). rewrite EQ. reflexivity.
Qed.

Section Any.
Context (J : rng -> Prop) (lm : libm) (Zok : f64 -> Prop) (SR : src lm J Zok).
Notation rt := (rt J).

(** Everything but weights, biases and connections. *)
Lemma rand_ok l : sound l -> rt (layer_rand lm l) (fun l' => sound l' /\ dims l' = dims l).
Proof.
  intros S. unfold layer_rand. destruct S as [(T & C & TI & G & F)|(T & P)].
  - rewrite T, Z.eqb_refl. cbn [orb]. unfold layer_weight_rand. destruct (weight_room l C G) as (W1 & W2).
    eapply rt_bind with (P := fun wa => len (fst wa) = l_n_weights l /\ len (snd wa) = l_n_weights l /\ (forall k, 0 <= k < l_n_weights l -> at_ false (snd wa) k = true)).
    { apply (rt_for_mono J (fun i wa => len (fst wa) = l_n_weights l /\ len (snd wa) = l_n_weights l /\ (forall k, 0 <= k < i -> at_ false (snd wa) k = true))); [lia| | |tauto].
      - split; [apply C|]. split; [apply C|]. intros; lia.
      - intros i wa HI (L1 & L2 & L3). eapply rt_bind; [apply (rt_normal J lm Zok SR)|]. intros x _.
        destruct (wr_len (fst wa) i x ltac:(lia)) as (w' & E1 & M1). eapply rt_bind_lift; [exact E1|].
        destruct (wr_ok (snd wa) i true ltac:(lia)) as (a' & E2 & M2 & A1 & A2 & _). cbv beta in *. eapply rt_bind_lift; [exact E2|]. apply rt_ret. cbn [fst snd].
        split; [lia|]. split; [lia|]. intros k K. destruct (Z.eq_dec k i) as [->|N]; [apply A1|rewrite A2 by lia; apply L3; lia]. }
    intros wa (L1 & L2 & L3).
    eapply rt_bind with (P := fun b => len b = l_n_biases l).
    { pose proof (cs_b _ C) as B. apply (rt_for_mono J (fun _ b => len b = l_n_biases l)); [lia| | |tauto].
      - rewrite B. apply C.
      - intros i b HI L. eapply rt_bind; [apply (rt_normal J lm Zok SR)|]. intros x _. destruct (wr_len b i x ltac:(lia)) as (b' & E1 & M1).
        eapply rt_lift; [exact E1|]. lia. }
    intros b LB. apply rt_ret. split; [|reflexivity]. left. split; [exact T|]. split; [|split; [|split; [|exact F]]].
    + destruct C; constructor; try assumption. change (len b = l_n_outputs l). congruence.
    + split.
      * intros k K X. change (at_ false (snd wa) k = false) in X. change (0 <= k < l_n_weights l) in K. rewrite L3 in X by lia. discriminate X.
      * change (l_n_weights l = actives (snd wa)). replace (snd wa) with (zeros true (l_n_weights l)); [rewrite actives_true; lia|].
        apply (list_ext false); [rewrite len_zeros; lia|]. intros k K. rewrite len_zeros in K by lia. rewrite at_zeros by lia. symmetry. apply L3. lia.
    + destruct G; constructor; assumption.
  - destruct (plain_not _ T) as (-> & -> & _). cbn [orb]. apply rt_ret. split; [right; auto|reflexivity].
Qed.

(** The layer after its number of inputs changed to [pn]. *)
Definition resized (pn : Z) (l l' : layer f64) : Prop :=
  sound l' /\ l_type l' = l_type l /\ l_options l' = l_options l /\ l_n_inputs l' = pn /\
  if l_type l =? CONNECTED then l_n_outputs l' = l_n_outputs l /\ l_max_outputs l' = l_max_outputs l else l_n_outputs l' = pn.
Lemma resize_layer_ok fuel l p : (1 <= fuel)%nat -> sound l -> 1 <= l_n_outputs p -> (l_type l <> CONNECTED -> l_n_outputs p <= N_OUTPUTS_MAX) ->
  (l_type l = CONNECTED -> l_max_outputs l * l_n_outputs p <= N_WEIGHTS_MAX) ->
  rt (layer_resize lm fuel l p) (resized (l_n_outputs p) l).
Proof.
  intros FU S P1 PN PW. unfold layer_resize. cbv zeta. unfold resized. destruct S as [(T & C & TI & G & F)|(T & P)].
  - rewrite T, Z.eqb_refl. specialize (PW T). destruct (weight_room l C G) as (W1 & W2). pose proof (gw_out _ G) as GO.
    assert (I1 : l_n_outputs l <= int_max) by (unfold N_OUTPUTS_MAX in W2; unfold int_max; lia).
    assert (I2 : l_n_outputs p <= int_max) by (unfold N_WEIGHTS_MAX in PW; unfold int_max; nia).
    assert (I3 : l_n_outputs p * l_n_outputs l <= N_WEIGHTS_MAX) by nia.
    assert (BASE : forall l1, re_in l l1 (l_n_outputs p) -> l_function l1 = l_function l /\ l_type l1 = CONNECTED /\ l_options l1 = l_options l /\ growable l1 /\ l_max_outputs l1 = l_max_outputs l).
    { intros l1 R. pose proof (ri_rest _ _ _ R) as E. assert (X : l_function l1 = l_function l /\ l_type l1 = l_type l /\ l_options l1 = l_options l /\ l_max_outputs l1 = l_max_outputs l /\ l_grow l1 = l_grow l /\ l_mu l1 = l_mu l).
      { rewrite E. auto 10. }
      destruct X as (X1 & X2 & X3 & X4 & X5 & X6). split; [exact X1|]. split; [congruence|]. split; [exact X3|]. split; [|exact X4].
      destruct G. constructor.
      - rewrite (ri_in _ _ _ R). lia.
      - rewrite (ri_out _ _ _ R), X4. lia.
      - lia.
      - rewrite X4, (ri_in _ _ _ R). lia.
      - rewrite X5. assumption.
      - rewrite X6. assumption. }
    eapply rt_mono; [apply (resize_ok J lm Zok SR); try assumption; lia|].
    intros l' (l1 & R & T1 & H). destruct (BASE l1 R) as (B1 & B2 & B3 & B4 & B5).
    destruct (has l EVOLVE_CONNECT).
    + destruct H as (a & w & n & -> & LK & _ & _). destruct LK as (K1 & K2 & K3 & K4). pose proof (ri_shape _ _ _ R) as RS. pose proof (ri_in _ _ _ R) as RI. pose proof (ri_out _ _ _ R) as RO.
      split; [|split; [exact B2|split; [exact B3|split; [exact RI|split; [exact RO|exact B5]]]]].
      left. split; [exact B2|]. split; [|split; [|split; [|change (0 <= l_function l1 < NUM_ACTIVATIONS); rewrite B1; exact F]]].
      * destruct RS; constructor; assumption.
      * split; [exact K3|exact K4].
      * destruct B4; constructor; assumption.
    + subst l'. split; [|split; [exact B2|split; [exact B3|split; [exact (ri_in _ _ _ R)|split; [exact (ri_out _ _ _ R)|exact B5]]]]].
      left. split; [exact B2|]. split; [exact (ri_shape _ _ _ R)|]. split; [exact T1|]. split; [exact B4|]. rewrite B1. exact F.
  - destruct (plain_not _ T) as (-> & -> & X3 & X4 & X5). rewrite X3, X4, X5. unfold flat_resize. cbv zeta.
    match goal with |- rt (lift (plain_malloc ?L)) _ => set (a := L) end.
    assert (A : l_type a = l_type l /\ l_n_inputs a = l_n_outputs p /\ l_n_outputs a = l_n_outputs p /\ l_options a = l_options l).
    { unfold a. match goal with |- context [if ?c then _ else _] => destruct c end; auto. }
    clearbody a. destruct A as (A1 & A2 & A3 & A4).
    destruct (plain_malloc_ok a) as (l' & E & Q & Q1 & Q2 & Q3 & Q4); [rewrite A1; exact T|rewrite A2; split; [exact P1|apply PN; intros Z0; rewrite Z0 in T; destruct T as [T|[T|T]]; discriminate T]|lia|].
    eapply rt_lift; [exact E|]. split; [right; split; [rewrite Q1, A1; exact T|exact Q]|]. split; [congruence|]. split; [|split; lia]. rewrite Q4. exact A4.
Qed.

(** *** Mutation *)
Definition mutated (l l' : layer f64) : Prop :=
  sound l' /\ l_type l' = l_type l /\ l_options l' = l_options l /\ l_n_inputs l' = l_n_inputs l /\ l_max_outputs l' = l_max_outputs l /\
  (has l EVOLVE_NEURONS = false \/ l_type l <> CONNECTED -> l_n_outputs l' = l_n_outputs l).
Lemma mutate_ok bad fuel l : (l_type l = CONNECTED -> has l EVOLVE_NEURONS = true -> casts_ok Zok bad /\ bad OutOfFuel) -> (1 <= fuel)%nat -> sound l ->
  rxj J bad (layer_mutate lm fuel l) (fun r => mutated l (fst r)).
Proof.
  intros B FU S. unfold layer_mutate. pose proof S as S'. destruct S as [(T & C & TI & G & F)|(T & P)].
  - rewrite T, Z.eqb_refl. eapply rxj_mono; [apply (connected_mutate_ok J lm Zok SR bad fuel l (B T) FU C TI G)|].
    intros r (M1 & M2 & M3 & M4 & M5 & _ & M6 & M7 & _). cbv beta. generalize (fst r) M1 M2 M3 M4 M5 M6 M7. clear - T F G.
    intros l' M1 M2 M3 M4 M5 M6 M7.
    assert (E : l_type l' = l_type l /\ l_options l' = l_options l /\ l_n_inputs l' = l_n_inputs l /\ l_max_outputs l' = l_max_outputs l /\ l_grow l' = l_grow l).
    { pose proof (f_equal (fun q => fst (fst (fst q))) M3) as E. unfold fixed in E. cbn [fst] in E. injection E as -> -> -> -> ->. auto. }
    destruct E as (E1 & E2 & E3 & E4 & E5).
    split; [|split; [exact E1|split; [exact E2|split; [exact E3|split; [exact E4|intros [X|X]; [exact (M7 X)|contradiction]]]]]].
    left. split; [congruence|]. split; [exact M1|]. split; [exact M2|]. split.
    + destruct G. constructor; lia.
    + destruct M5 as [->|(_ & M5)]; [exact F|exact M5].
  - destruct (plain_not _ T) as (-> & -> & _). apply rxj_ret. cbn [fst]. unfold mutated. auto 10.
Qed.
End Any.

(** *** Learning *)
Lemma zero_delta_ok {T} (A : arith T) l : 0 <= l_n_outputs l <= len (l_delta l) -> exists d, zero_delta A l = Ok (set_delta d l) /\ len d = len (l_delta l) /\
  (forall i, 0 <= i < l_n_outputs l -> at_ (a_Z A 0) d i = a_Z A 0).
Proof.
  intros (N & L). unfold zero_delta.
  destruct (ofor_ind (fun k d => len d = len (l_delta l) /\ (forall i, 0 <= i < k -> at_ (a_Z A 0) d i = a_Z A 0)) (fun i d => wr d i (a_Z A 0)) (l_n_outputs l) (l_delta l)) as (d & -> & L' & Z0).
  - exact N.
  - split; [reflexivity|]. intros; lia.
  - intros i d HI (L1 & Z1). destruct (wr_ok d i (a_Z A 0) ltac:(lia)) as (d' & E & W1 & W2 & W3 & _). exists d'. split; [exact E|]. split; [lia|].
    intros k K. destruct (Z.eq_dec k i) as [->|NE]; [apply W2|rewrite W3 by lia; apply Z1; lia].
  - cbn [obind]. exists d. auto.
Qed.
Lemma output_delta_ok {T} (A : arith T) l truth : 0 <= l_n_outputs l -> len (l_delta l) = l_n_outputs l -> len (l_output l) = l_n_outputs l -> l_n_outputs l <= len truth ->
  exists d, output_delta A l truth = Ok (set_delta d l) /\ len d = l_n_outputs l /\
  (forall i, 0 <= i < l_n_outputs l -> at_ (a_Z A 0) d i = nsub (a_num A) (at_ (a_Z A 0) truth i) (at_ (a_Z A 0) (l_output l) i)).
Proof.
  intros N LD LO LT. unfold output_delta.
  match goal with |- exists _, obind (ofor _ ?f _) _ = _ /\ _ => destruct (ofor_ind (fun k d => len d = l_n_outputs l /\ (forall i, 0 <= i < k -> at_ (a_Z A 0) d i = nsub (a_num A) (at_ (a_Z A 0) truth i) (at_ (a_Z A 0) (l_output l) i))) f (l_n_outputs l) (l_delta l)) as (d & -> & L' & Z0) end.
  - exact N.
  - split; [exact LD|]. intros; lia.
  - intros i d HI (L1 & Z1). rewrite (rd_ok (a_Z A 0) truth) by lia. cbn [obind]. rewrite (rd_ok (a_Z A 0) (l_output l)) by lia. cbn [obind].
    match goal with |- exists _, wr d i ?v = _ /\ _ => destruct (wr_ok d i v ltac:(lia)) as (d' & E & W1 & W2 & W3 & _) end. exists d'. split; [exact E|]. split; [lia|].
    intros k K. destruct (Z.eq_dec k i) as [->|NE]; [apply W2|rewrite W3 by lia; apply Z1; lia].
  - cbn [obind]. exists d. auto.
Qed.

(** Changes to errors and updates keep a layer sound. *)
Lemma sound_delta l d : sound l -> len d = l_n_outputs l -> sound (set_delta d l).
Proof.
  intros [(T & C & TI & G & F)|(T & P)] L; [left|right]; (split; [exact T|]).
  - split; [destruct C; constructor; assumption|]. split; [exact TI|]. split; [destruct G; constructor; assumption|exact F].
  - destruct P; constructor; assumption.
Qed.
Lemma sound_updates l d bu wu : sound l -> l_type l = CONNECTED -> len d = l_n_outputs l -> len bu = l_n_outputs l -> len wu = l_n_weights l ->
  sound (set_delta d (set_bias_updates bu (set_weight_updates wu l))).
Proof.
  intros [(T & C & TI & G & F)|(T & P)] HT L1 L2 L3; [left|rewrite HT in T; destruct T as [T|[T|T]]; discriminate T]. split; [exact T|].
  split; [destruct C; constructor; assumption|]. split; [exact TI|]. split; [destruct G; constructor; assumption|exact F].
Qed.

Lemma backward_ok lm l x od : sound l -> l_n_inputs l <= len x -> (forall d, od = Some d -> l_n_inputs l <= len d) ->
  exists l' od', layer_backward (f64_arith lm) l x od = Ok (l', od') /\ sound l' /\ content l' = content l /\ l_output l' = l_output l /\
    match od with Some d => exists d', od' = Some d' /\ len d' = len d | None => od' = None end.
Proof.
  intros S LX LD. unfold layer_backward. cbv zeta. pose proof S as S'. destruct S as [(T & C & TI & G & F)|(T & P)].
  - rewrite T, Z.eqb_refl. destruct (act_defined (f64_arith lm) _ F) as (_ & g & Hg).
    destruct (connected_backward_ok (f64_arith lm) l x od g C LX Hg LD) as (l' & od' & E & dd & bu & wu & -> & L1 & L2 & L3 & _ & _ & OD).
    eexists _, od'. split; [exact E|]. split; [apply sound_updates; assumption|]. split; [reflexivity|]. split; [reflexivity|].
    destruct od as [d|]; [|exact OD]. destruct OD as (d' & E1 & E2 & _). exists d'. auto.
  - destruct (plain_not _ T) as (-> & _ & _). destruct P as [N EQ LO LDD LS].
    assert (SAME : forall m : outcome (option (list f64)), (exists od', m = Ok od' /\ match od with Some d => exists d', od' = Some d' /\ len d' = len d | None => od' = None end) ->
      exists l' od', (d <- m ;; Ok (l, d))%out = Ok (l', od') /\ sound l' /\ content l' = content l /\ l_output l' = l_output l /\
      match od with Some d => exists d', od' = Some d' /\ len d' = len d | None => od' = None end).
    { intros m (od' & -> & H). cbn [obind]. exists l, od'. auto. }
    assert (DN : l_type l = DROPOUT -> len (l_state l) = l_n_outputs l) by (intros X; rewrite X in LS; destruct LS as [Y|Y]; (discriminate Y || exact Y)).
    assert (PB : exists od', pass_backward (f64_arith lm) l od = Ok od' /\ match od with Some d => exists d', od' = Some d' /\ len d' = len d | None => od' = None end).
    { unfold pass_backward. destruct od as [d|]; [|eauto]. specialize (LD d eq_refl).
      match goal with |- exists _, obind (ofor _ ?f _) _ = _ /\ _ => destruct (out_loop (l_n_inputs l) f d) as (d' & -> & L') end.
      - lia.
      - intros i o HI L. rewrite (rd_ok f0) by lia. cbn [obind]. unfold modify_at. rewrite (rd_ok f0) by lia. cbn [obind]. rewrite <- L. apply wr_len. lia.
      - cbn [obind]. eexists. split; [reflexivity|]. exists d'. auto. }
    destruct T as [T|[T|T]]; rewrite T.
    + change (SOFTMAX =? DROPOUT) with false. change (SOFTMAX =? NOISE) with false. change (SOFTMAX =? SOFTMAX) with true. cbn iota. apply SAME. exact PB.
    + change (DROPOUT =? DROPOUT) with true. cbn iota. apply SAME. unfold dropout_backward. destruct od as [d|]; [|eauto]. specialize (LD d eq_refl). specialize (DN T).
      match goal with |- exists _, obind (ofor _ ?f _) _ = _ /\ _ => destruct (out_loop (l_n_inputs l) f d) as (d' & -> & L') end.
      * lia.
      * intros i o HI L. rewrite (rd_ok f0) by lia. cbn [obind]. destruct (a_lt _ _ _); [rewrite <- L; apply wr_len; lia|].
        rewrite (rd_ok f0) by lia. cbn [obind]. unfold modify_at. rewrite (rd_ok f0) by lia. cbn [obind]. rewrite <- L. apply wr_len. lia.
      * cbn [obind]. eexists. split; [reflexivity|]. exists d'. auto.
    + change (NOISE =? DROPOUT) with false. change (NOISE =? NOISE) with true. cbn iota. apply SAME. exact PB.
Qed.
Lemma update_ok lm l : sound l -> exists l', layer_update (f64_arith lm) l = Ok l' /\ sound l' /\ dims l' = dims l /\ l_output l' = l_output l.
Proof.
  intros S. unfold layer_update. pose proof S as S'. destruct S as [(T & C & TI & G & F)|(T & P)].
  - rewrite T, Z.eqb_refl. cbn [orb]. destruct (C42_update_lemma lm l C TI) as (l' & E & C' & TI' & A1 & A2 & E').
    exists l'. split; [exact E|]. generalize E' C' TI'. generalize (l_weights l') (l_weight_updates l') (l_biases l') (l_bias_updates l'). clear E' C' TI' A1 A2 E.
    intros w wu b bu E' C' TI'. subst l'. split; [|split; reflexivity]. left. split; [exact T|]. split; [exact C'|]. split; [exact TI'|]. split; [destruct G; constructor; assumption|exact F].
  - destruct (plain_not _ T) as (-> & -> & _). cbn [orb]. exists l. auto.
Qed.
