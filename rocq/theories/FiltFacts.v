(** * Adding filters to a convolutional layer. *)
From Coq Require Import ZArith Bool List Lia.
From Verif Require Import Outcome F64 Rng Sam Pop PopSpec Arr ArrFacts Blas BlasFacts Clock Dgp Act Image Layer LayerFacts PropPool ConvFacts PropConv MutFacts.
Import ListNotations.
Open Scope Z_scope.

Lemma realloc_conv_ok l nb no nw oh ow s c : l_n_biases l = nb -> l_n_outputs l = no -> l_n_weights l = nw ->
  l_out_h l = oh -> l_out_w l = ow -> l_size l = s -> l_channels l = c ->
  1 <= nb <= N_OUTPUTS_MAX -> 1 <= no <= N_OUTPUTS_MAX -> 1 <= nw <= N_WEIGHTS_MAX ->
  1 <= oh * ow * s * s * c <= 40000000000000 ->
  conv_realloc l = Ok (set_delta (realloc fnan no (l_delta l)) (set_state (realloc fnan no (l_state l))
      (set_output (realloc fnan no (l_output l)) (set_weights (realloc fnan nw (l_weights l))
      (set_weight_updates (realloc fnan nw (l_weight_updates l))
      (set_active (realloc false nw (l_active l)) (set_biases (realloc fnan nb (l_biases l))
      (set_bias_updates (realloc fnan nb (l_bias_updates l)) (set_temp (realloc fnan (oh * ow * s * s * c) (l_temp l)) l))))))))).
Proof.
  intros <- <- <- <- <- <- <- B1 B2 B3 B4. unfold conv_realloc, conv_guard, layer_guard_biases, layer_guard_outputs, layer_guard_weights, guard, workspace_len.
  unfold N_OUTPUTS_MAX, N_WEIGHTS_MAX in *.
  destruct (Z.ltb_spec (l_n_biases l) 1); [lia|]. destruct (Z.ltb_spec 2000000 (l_n_biases l)); [lia|].
  destruct (Z.ltb_spec (l_n_outputs l) 1); [lia|]. destruct (Z.ltb_spec 2000000 (l_n_outputs l)); [lia|].
  destruct (Z.ltb_spec (l_n_weights l) 1); [lia|]. destruct (Z.ltb_spec 20000000 (l_n_weights l)); [lia|]. cbn [orb obind].
  set (p := l_out_h l * l_out_w l * l_size l * l_size l * l_channels l) in *. cbv zeta. rewrite Z.mod_small by lia.
  destruct (Z.ltb_spec (p * 8) 1); [lia|]. cbn [obind]. rewrite Z.div_mul by lia. reflexivity.
Qed.

Section Draws.
Context (J : rng -> Prop) (lm : libm) (Zok : f64 -> Prop) (SR : src lm J Zok).
Notation rt := (rt J).

Lemma new_weights_ok from to l : 0 <= from -> len (l_weights l) = to -> len (l_active l) = to -> len (l_weight_updates l) = to ->
  rt (new_weights lm from to l) (fun l' => exists w a u, l' = set_weights w (set_active a (set_weight_updates u l)) /\ len w = to /\ len a = to /\ len u = to /\
    (forall k, 0 <= k < to -> k < from -> at_ fnan w k = at_ fnan (l_weights l) k /\ at_ false a k = at_ false (l_active l) k /\ at_ fnan u k = at_ fnan (l_weight_updates l) k) /\
    (forall k, from <= k < to -> at_ false a k = true /\ at_ fnan u k = f0)).
Proof.
  intros F L1 L2 L3. unfold new_weights.
  eapply rt_bind with (P := fun r => len (fst (fst r)) = to /\ len (snd (fst r)) = to /\ len (snd r) = to /\
    (forall k, 0 <= k < to -> k < from -> at_ fnan (fst (fst r)) k = at_ fnan (l_weights l) k /\ at_ false (snd (fst r)) k = at_ false (l_active l) k /\ at_ fnan (snd r) k = at_ fnan (l_weight_updates l) k) /\
    (forall k, from <= k < to -> at_ false (snd (fst r)) k = true /\ at_ fnan (snd r) k = f0)).
  - eapply (rt_for_max J) with (I := fun i r => len (fst (fst r)) = to /\ len (snd (fst r)) = to /\ len (snd r) = to /\
      (forall k, 0 <= k < to -> k < from -> at_ fnan (fst (fst r)) k = at_ fnan (l_weights l) k /\ at_ false (snd (fst r)) k = at_ false (l_active l) k /\ at_ fnan (snd r) k = at_ fnan (l_weight_updates l) k) /\
      (forall k, from <= k < from + i -> at_ false (snd (fst r)) k = true /\ at_ fnan (snd r) k = f0)).
    + cbn [fst snd]. do 3 (split; [assumption|]). split; [auto|intros; lia].
    + intros i ((w, a), u) I (H1 & H2 & H3 & H4 & H5). cbn [fst snd] in *. eapply rt_bind; [apply (rt_normal J lm Zok SR)|]. intros x _.
      destruct (wr_ok w (from + i) x ltac:(lia)) as (w' & E1 & W1 & W2 & W3 & _).
      destruct (wr_ok a (from + i) true ltac:(lia)) as (a' & E2 & A1 & A2 & A3 & _).
      destruct (wr_ok u (from + i) f0 ltac:(lia)) as (u' & E3 & U1 & U2 & U3 & _).
      eapply rt_lift with (a := (w', a', u')); [rewrite E1; cbn [obind]; rewrite E2; cbn [obind]; rewrite E3; reflexivity|]. cbn [fst snd].
      split; [lia|]. split; [lia|]. split; [lia|]. split.
      * intros k K1 K2. rewrite W3, A3, U3 by lia. now apply H4.
      * intros k K. destruct (Z.eq_dec k (from + i)) as [->|NE]; [rewrite A2, U2; auto|]. rewrite A3, U3 by lia. apply H5. lia.
    + intros r (H1 & H2 & H3 & H4 & H5). do 4 (split; [assumption|]). intros k K. apply H5. lia.
  - intros ((w, a), u) (H1 & H2 & H3 & H4 & H5). cbn [fst snd] in *. apply rt_ret. exists w, a, u. split; [reflexivity|]. auto.
Qed.

Lemma zero_from_ok a old new : len a = old -> 0 <= new -> exists a', zero_from old new (realloc fnan new a) = Ok a' /\ resized fnan f0 old new a a'.
Proof. apply zero_new_ok. Qed.

(** What adding [N] filters does. *)
Record filters (l l' : layer f64) (N : Z) : Prop := {
  fl_n : l_n_filters l' = l_n_filters l + N;
  fl_c : l_out_c l' = l_n_filters l + N;
  fl_shape : conv_shape l';
  fl_len : len (l_active l') = l_n_weights l';
  fl_active : l_n_active l' = actives (l_active l');
  fl_weights : forall k, 0 <= k < l_n_weights l' -> k < l_n_weights l ->
    at_ fnan (l_weights l') k = at_ fnan (l_weights l) k /\ at_ false (l_active l') k = at_ false (l_active l) k /\
    at_ fnan (l_weight_updates l') k = at_ fnan (l_weight_updates l) k;
  fl_new : forall k, l_n_weights l <= k < l_n_weights l' -> at_ false (l_active l') k = true /\ at_ fnan (l_weight_updates l') k = f0;
  fl_biases : resized fnan f0 (l_n_filters l) (l_n_filters l') (l_biases l) (l_biases l');
  fl_bu : resized fnan f0 (l_n_filters l) (l_n_filters l') (l_bias_updates l) (l_bias_updates l');
  fl_output : resized fnan f0 (l_n_outputs l) (l_n_outputs l') (l_output l) (l_output l');
  fl_state : resized fnan f0 (l_n_outputs l) (l_n_outputs l') (l_state l) (l_state l');
  fl_delta : resized fnan f0 (l_n_outputs l) (l_n_outputs l') (l_delta l) (l_delta l');
  fl_rest : l' = set_n_active (l_n_active l') (set_output (l_output l') (set_state (l_state l') (set_delta (l_delta l') (set_biases (l_biases l')
     (set_bias_updates (l_bias_updates l') (set_weights (l_weights l') (set_active (l_active l') (set_weight_updates (l_weight_updates l') (set_temp (l_temp l')
     (set_n_filters (l_n_filters l') (set_n_biases (l_n_filters l') (set_out_c (l_n_filters l') (set_n_weights (l_n_weights l') (set_n_outputs (l_n_outputs l') l))))))))))))))
}.

Lemma cprod4 a b c e : 0 <= a -> 1 <= b -> 1 <= c -> 1 <= e -> a * b * c * e < 2 ^ 31 -> cprod a [b; c; e] = Ok (a * b * c * e).
Proof.
  intros A B C E H. cbn [cprod]. assert (a * b <= a * b * c) by nia. assert (a * b * c <= a * b * c * e) by nia. assert (0 <= a * b) by nia.
  rewrite cint_in by lia. cbn [obind]. rewrite cint_in by lia. cbn [obind]. rewrite cint_in by lia. reflexivity.
Qed.
Lemma add_filters_ok l N : conv_shape l -> len (l_active l) = l_n_weights l -> 1 <= l_n_filters l + N ->
  l_out_h l * l_out_w l * (l_n_filters l + N) <= N_OUTPUTS_MAX -> (l_n_filters l + N) * (l_channels l * l_size l * l_size l) <= N_WEIGHTS_MAX ->
  rt (convolutional_add_filters lm l N) (fun l' => filters l l' N).
Proof.
  intros C LA NF NO NW. destruct C. unfold convolutional_add_filters. cbv zeta.
  set (nf := l_n_filters l + N) in *. set (k := l_channels l * l_size l * l_size l) in *.
  assert (K1 : 1 <= l_channels l * l_size l) by nia. assert (K2 : 1 <= k) by (unfold k; nia).
  assert (HW : 1 <= l_out_h l * l_out_w l) by nia.
  set (no := l_out_h l * l_out_w l * nf) in *. set (nw := nf * k) in *. unfold N_OUTPUTS_MAX, N_WEIGHTS_MAX in *.
  assert (NFB : nf <= 2000000) by (unfold no in NO; nia).
  assert (NO1 : 1 <= no) by (unfold no; nia). assert (NW1 : 1 <= nw) by (unfold nw; nia).
  assert (EW : l_channels l * nf * l_size l * l_size l = nw) by (unfold nw, k; lia).
  eapply rt_bind_lift; [apply cint_in; fold nf; lia|]. fold nf.
  eapply rt_bind_lift; [apply cprod4; lia|]. rewrite EW.
  eapply rt_bind_lift; [apply cprod3; fold no; lia|]. fold no.
  set (l1 := set_n_filters nf _).
  assert (HWS : l_out_h l * l_out_w l <= 2000000) by (unfold no in NO; nia). assert (KS : k <= 20000000) by (unfold nw in NW; nia).
  assert (WS : 1 <= l_out_h l * l_out_w l * l_size l * l_size l * l_channels l <= 40000000000000).
  { replace (l_out_h l * l_out_w l * l_size l * l_size l * l_channels l) with (l_out_h l * l_out_w l * k) by (unfold k; ring). nia. }
  eapply rt_bind_lift.
  { apply (realloc_conv_ok l1 nf no nw (l_out_h l) (l_out_w l) (l_size l) (l_channels l)); try reflexivity; unfold N_OUTPUTS_MAX, N_WEIGHTS_MAX; try lia. }
  set (l2 := set_delta _ _).
  assert (OW : 0 <= l_n_weights l) by nia.
  eapply rt_bind.
  { apply new_weights_ok; [exact OW|..]; apply len_realloc; lia. }
  intros l3 (w & a & u & E3 & L1 & L2 & L3 & H1 & H2).
  change (l_weights l2) with (realloc fnan nw (l_weights l)) in H1. change (l_active l2) with (realloc false nw (l_active l)) in H1. change (l_weight_updates l2) with (realloc fnan nw (l_weight_updates l)) in H1.
  destruct (zero_from_ok (l_biases l) (l_n_biases l) nf ltac:(lia) ltac:(lia)) as (b' & EB & RB).
  destruct (zero_from_ok (l_bias_updates l) (l_n_biases l) nf ltac:(lia) ltac:(lia)) as (bu' & EBU & RBU).
  destruct (zero_from_ok (l_output l) (l_n_outputs l) no ltac:(lia) ltac:(lia)) as (o' & EO & RO).
  destruct (zero_from_ok (l_state l) (l_n_outputs l) no ltac:(lia) ltac:(lia)) as (s' & ES & RS).
  destruct (zero_from_ok (l_delta l) (l_n_outputs l) no ltac:(lia) ltac:(lia)) as (d' & ED & RD).
  eapply rt_bind_lift; [rewrite E3; exact EB|]. eapply rt_bind_lift; [rewrite E3; exact EBU|].
  eapply rt_bind_lift.
  { unfold zero_outputs. rewrite E3. change (l_output _) with (realloc fnan no (l_output l)) at 1. rewrite EO. cbn [obind].
    change (l_state _) with (realloc fnan no (l_state l)) at 1. rewrite ES. cbn [obind].
    change (l_delta _) with (realloc fnan no (l_delta l)) at 1. rewrite ED. cbn [obind]. reflexivity. }
  set (l4 := set_output o' _).
  assert (NA : layer_calc_n_active l4 = Ok (set_n_active (actives a) l4)).
  { unfold layer_calc_n_active. change (l_n_weights l4) with nw. change (l_active l4) with a. rewrite count_active_ok by (symmetry; exact L2). reflexivity. }
  eapply rt_lift; [exact NA|]. clear NA.
  constructor; try reflexivity; try assumption.
  - constructor; try assumption; try reflexivity; try (apply RB || apply RBU || apply RO || apply RS || apply RD).
    change (l_out_w l * (l_out_h l * k) <= len (realloc fnan (l_out_h l * l_out_w l * l_size l * l_size l * l_channels l) (l_temp l))).
    rewrite len_realloc by lia. unfold k. lia.
  - intros j J1 J2. change (l_weights (set_n_active (actives a) l4)) with w. change (l_active (set_n_active (actives a) l4)) with a. change (l_weight_updates (set_n_active (actives a) l4)) with u.
    change (l_n_weights (set_n_active (actives a) l4)) with nw in J1.
    destruct (H1 j J1 J2) as (X1 & X2 & X3). rewrite X1, X2, X3, !at_realloc by lia. auto.
  - rewrite <- cv_nb. exact RB.
  - rewrite <- cv_nb. exact RBU.
Qed.
End Draws.
