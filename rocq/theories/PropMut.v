(** * Mutation of connected layers (C42, C43). *)
From Coq Require Import ZArith Bool List Lia Reals Lra.
From Flocq Require Import Core BinarySingleNaN.
From Verif Require Import Outcome F64 F64Facts F64Bounds Rng RngFacts Sam SamFacts Pop PopSpec Arr ArrFacts Blas Clock Dgp DgpFacts Act Image Layer LayerFacts MutFacts BlasFacts Exact ActFacts PropConn PoolFacts PropPool ConvFacts PropConv FiltFacts UpdFacts.
Import ListNotations.
Open Scope Z_scope.

(** ** Results up to outcomes that [bad] allows *)
Section Bad.
Context (J : rng -> Prop) (lm : libm) (Zok : f64 -> Prop) (SR : src lm J Zok) (bad : outcome unit -> Prop).
Definition rxj {A} (m : RM A) (Q : A -> Prop) : Prop :=
  forall g, J g -> match m g with Ok (v, g') => J g' /\ Q v | Exit => bad Exit | UB k => bad (UB k) | OutOfFuel => bad OutOfFuel end.
Lemma rxj_rt {A} (m : RM A) Q : rt J m Q -> rxj m Q.
Proof. intros H g G. destruct (H g G) as (v & g' & -> & G' & V). auto. Qed.
Lemma rxj_bind {A B} (m : RM A) (k : A -> RM B) P Q : rxj m P -> (forall v, P v -> rxj (k v) Q) -> rxj (bind m k) Q.
Proof.
  intros H HK g G. specialize (H g G). unfold bind. destruct (m g) as [[v g']| | |]; try exact H.
  destruct H as (G' & V). exact (HK v V g' G').
Qed.
Lemma rxj_ret {A} (v : A) (Q : A -> Prop) : Q v -> rxj (ret v) Q.
Proof. intros H. apply rxj_rt, rt_ret, H. Qed.
Lemma rxj_mono {A} (m : RM A) (P Q : A -> Prop) : rxj m P -> (forall v, P v -> Q v) -> rxj m Q.
Proof. intros H HQ g G. specialize (H g G). destruct (m g) as [[v g']| | |]; try exact H. destruct H. auto. Qed.

(** ** The number of neurons to add *)
Lemma clamp_unit x : nn x -> is_finite (clamp x (of_Z (-1)) f1) = true /\ (-1 <= B2R (clamp x (of_Z (-1)) f1) <= 1)%R.
Proof.
  intros N. destruct (of_Z_fin (-1) ltac:(lia)) as (FM & EM). pose proof f1_fin as F1. pose proof f1_R as E1.
  unfold clamp. destruct (flt x (of_Z (-1))) eqn:B1; [split; [exact FM|rewrite EM; simpl; lra]|].
  change (fgt x f1) with (flt f1 x). destruct (flt f1 x) eqn:B2; [split; [exact F1|rewrite E1; lra]|].
  apply (flt_X_false x (of_Z (-1)) N (nn_of_Z _)) in B1. apply (flt_X_false f1 x nn_f1 N) in B2.
  rewrite X_f1 in B2. rewrite X_of_Z in B1 by lia.
  assert (F : is_finite x = true). { apply nn_X_finite; [exact N|]. pose proof (bpow_ge_1 1024 ltac:(lia)). split; [|];
    assert (H9 : (2 < bnd)%R) by (change 2%R with (bpow radix2 1); apply bpow_lt; lia); simpl in B1; lra. }
  rewrite (X_finite x F) in B1, B2. simpl in B1. auto.
Qed.
Lemma step_bound x grow : nn x -> Z.abs grow <= int_max ->
  exists n, to_int (fround (fmul (clamp x (of_Z (-1)) f1) (of_Z grow))) = Some n /\ Z.abs n <= Z.abs grow.
Proof.
  intros N G. unfold int_max in G. destruct (clamp_unit x N) as (FC & BC). set (c := clamp x (of_Z (-1)) f1) in *. clearbody c.
  destruct (of_Z_fin grow ltac:(lia)) as (FG & EG).
  assert (FM : fmt64 (IZR (Z.abs grow))) by (apply format_IZR; lia).
  assert (LT : (IZR (Z.abs grow) < bnd)%R). { eapply Rlt_trans with (bpow radix2 53); [|apply bpow_lt; lia]. change (bpow radix2 53) with (IZR (2 ^ 53)). apply IZR_lt. lia. }
  assert (PB : (- IZR (Z.abs grow) <= B2R c * B2R (of_Z grow) <= IZR (Z.abs grow))%R).
  { rewrite EG. rewrite <- Rabs_Zabs. apply Rabs_le_inv. rewrite Rabs_mult. rewrite <- (Rmult_1_l (Rabs (IZR grow))) at 2. apply Rmult_le_compat_r; [apply Rabs_pos|]. apply Rabs_le. lra. }
  destruct (fmul_in _ _ (fmt_opp _ FM) FM ltac:(lra) LT c (of_Z grow) FC FG PB) as (F2 & B2).
  destruct (fround_R _ F2) as (FR & ER). set (p := fmul c (of_Z grow)) in *.
  assert (BN : - Z.abs grow <= Znearest (Z.leb 0) (B2R p) <= Z.abs grow).
  { split.
    - rewrite <- (Zrnd_IZR (Znearest (Z.leb 0)) (- Z.abs grow)). apply Zrnd_le; [apply valid_rnd_N|]. rewrite opp_IZR. apply B2.
    - rewrite <- (Zrnd_IZR (Znearest (Z.leb 0)) (Z.abs grow)). apply Zrnd_le; [apply valid_rnd_N|]. apply B2. }
  exists (Znearest (Z.leb 0) (B2R p)). split; [|lia]. rewrite (to_int_R _ _ FR ER).
  assert (II : in_int (Znearest (Z.leb 0) (B2R p)) = true). { unfold in_int. apply andb_true_intro. split; apply Z.leb_le; unfold int_min, int_max; lia. }
  now rewrite II.
Qed.
Lemma nan_step (x : f64) grow : is_nan x = true -> to_int (fround (fmul (clamp x (of_Z (-1)) f1) (of_Z grow))) = None.
Proof. destruct x; try discriminate. intros _. change (clamp B754_nan (of_Z (-1)) f1) with (B754_nan : f64). unfold fmul. destruct (of_Z grow); reflexivity. Qed.

(** Either no variate is NaN, or a NaN converted to int is allowed for. *)
Definition casts_ok : Prop := (forall z, Zok z -> nn (fadd (fmul z fhalf) f0)) \/ bad (UB BadCast).

Lemma draw_step_ok fuel grow : casts_ok -> bad OutOfFuel -> Z.abs grow <= int_max ->
  rxj (draw_step lm fuel grow) (fun n => n <> 0 /\ Z.abs n <= Z.abs grow).
Proof.
  intros CA FO G. induction fuel as [|f IH]; cbn [draw_step].
  - intros g _. exact FO.
  - eapply rxj_bind; [apply rxj_rt, (rt_normal J lm Zok SR)|]. intros x (z & Hz & ->). cbv zeta.
    destruct (to_int _) as [n|] eqn:E.
    + destruct (Z.eqb_spec n 0); [exact IH|]. apply rxj_ret. split; [assumption|].
      destruct (is_nan (fadd (fmul z fhalf) f0)) eqn:EN; [rewrite nan_step in E by exact EN; discriminate|].
      destruct (step_bound _ grow EN G) as (n' & E' & B). rewrite E in E'. injection E' as <-. exact B.
    + destruct CA as [CA|CA]; [|intros g _; exact CA]. destruct (step_bound _ grow (CA z Hz) G) as (n' & E' & _). rewrite E in E'. discriminate.
Qed.
Lemma mutate_count_ok fuel cur mx grow mu : casts_ok -> bad OutOfFuel -> Z.abs grow <= 1000000000 -> 0 <= cur <= 1000000000 -> 1 <= mx ->
  rxj (mutate_count lm fuel cur mx grow mu) (fun n => n = 0 \/ 1 <= cur + n <= mx).
Proof.
  intros CA FO G C M. unfold mutate_count. eapply rxj_bind; [apply rxj_rt, (rt_uniform J lm Zok SR)|]. intros u _. destruct (flt u mu); [|apply rxj_ret; auto].
  eapply rxj_bind; [apply draw_step_ok; try assumption; unfold int_max; lia|]. intros n (N0 & NB).
  eapply rxj_bind; [apply rxj_rt; eapply rt_lift with (Q := fun s => s = cur + n); [apply cint_in; lia|reflexivity]|]. intros s ->.
  destruct (Z.ltb_spec (cur + n) 1); [apply rxj_ret; right; lia|]. destruct (Z.ltb_spec mx (cur + n)); apply rxj_ret; right; lia.
Qed.

(** ** Mutating a connected layer *)

(** The fields mutation never touches. *)
Definition fixed (l : layer f64) :=
  ((l_type l, l_options l, l_n_inputs l, l_max_outputs l, l_grow l),
   (l_eta_max l, l_eta_min l, l_momentum l, l_decay l, l_scale l, l_probability l),
   (l_height l, l_width l, l_channels l, l_pad l, l_out_w l, l_out_h l, l_out_c l, l_size l, l_stride l, l_n_filters l),
   (l_temp l, l_indexes l)).

(** The neurons both layers have kept their weights, connections and biases. *)
Definition survives (l l' : layer f64) : Prop :=
  (forall o i, 0 <= o < l_n_outputs l -> o < l_n_outputs l' -> 0 <= i < l_n_inputs l ->
     at_ fnan (l_weights l') (l_n_inputs l' * o + i) = at_ fnan (l_weights l) (l_n_inputs l * o + i) /\
     at_ false (l_active l') (l_n_inputs l' * o + i) = at_ false (l_active l) (l_n_inputs l * o + i)) /\
  (forall o, 0 <= o < l_n_outputs l -> o < l_n_outputs l' -> at_ fnan (l_biases l') o = at_ fnan (l_biases l) o).

(** The limits mutation must keep to: the layer can grow to its maximum without exceeding
    those of xcsf/neural_layer.h:60-61. *)
Record growable (l : layer f64) : Prop := {
  gw_in : 1 <= l_n_inputs l;
  gw_out : 1 <= l_n_outputs l <= l_max_outputs l;
  gw_max : l_max_outputs l <= N_OUTPUTS_MAX;
  gw_w : l_max_outputs l * l_n_inputs l <= N_WEIGHTS_MAX;
  gw_grow : Z.abs (l_grow l) <= 1000000000;
  gw_mu : len (l_mu l) = 6
}.

Definition layer_mutated (l l' : layer f64) : Prop :=
  conn_shape l' /\ tidy l' /\ fixed l' = fixed l /\ len (l_mu l') = 6 /\
  (l_function l' = l_function l \/ has l EVOLVE_FUNCTIONS = true /\ 0 <= l_function l' < NUM_ACTIVATIONS) /\
  (has l EVOLVE_ETA = false -> l_eta l' = l_eta l) /\
  1 <= l_n_outputs l' <= l_max_outputs l /\
  (has l EVOLVE_NEURONS = false -> l_n_outputs l' = l_n_outputs l) /\
  (has l EVOLVE_CONNECT = false -> has l EVOLVE_WEIGHTS = false -> survives l l') /\
  (has l EVOLVE_CONNECT = false -> l_n_outputs l' = l_n_outputs l -> l_active l' = l_active l) /\
  (wired l -> l_n_outputs l' = l_n_outputs l -> wired l').

Lemma survives_refl l l' : l_n_inputs l' = l_n_inputs l -> l_weights l' = l_weights l -> l_active l' = l_active l -> l_biases l' = l_biases l -> survives l l'.
Proof. intros H1 H2 H3 H4. unfold survives. rewrite H1, H2, H3, H4. auto. Qed.
Lemma grown_survives l l' N : conn_shape l -> grown l l' N -> survives l l'.
Proof.
  intros C G. pose proof (gr_rest _ _ _ G) as R. assert (NI : l_n_inputs l' = l_n_inputs l) by (rewrite R; reflexivity).
  pose proof (cs_w _ C) as W. pose proof (cs_w _ (gr_shape _ _ _ G)) as W'. rewrite NI in W'. pose proof (cs_in _ C) as CI.
  split.
  - intros o i O O' I. rewrite NI. destruct (gr_weights _ _ _ G (l_n_inputs l * o + i)) as (H1 & H2 & _); [rewrite W'; nia|rewrite W; nia|auto].
  - intros o O O'. destruct (gr_biases _ _ _ G) as (_ & H & _). apply H; lia.
Qed.
Lemma grown_tidy l l' N : tidy l -> grown l l' N -> (forall k, l_n_weights l <= k < l_n_weights l' -> 0 <= k) -> tidy l'.
Proof.
  intros (T1 & _) G P. split; [|exact (gr_active _ _ _ G)]. intros k K H. destruct (Z_lt_le_dec k (l_n_weights l)) as [D|D].
  - destruct (gr_weights _ _ _ G k K D) as (H1 & H2 & _). rewrite H1. apply T1; [lia|congruence].
  - destruct (gr_new _ _ _ G k ltac:(lia)) as (_ & [H1|(_ & H1)]); [congruence|exact H1].
Qed.

Lemma connected_mutate_ok fuel l : (has l EVOLVE_NEURONS = true -> casts_ok /\ bad OutOfFuel) -> (1 <= fuel)%nat -> conn_shape l -> tidy l -> growable l ->
  rxj (connected_mutate lm fuel l) (fun r => layer_mutated l (fst r)).
Proof.
  intros CA FU C T GW. unfold connected_mutate.
  eapply rxj_bind; [apply rxj_rt, (sam_adapt_len J lm Zok SR layer_mu_type)|].
  { unfold layer_mu_type. repeat (apply Forall_cons || apply Forall_nil); unfold scheme_ok; auto. }
  { pose proof (gw_mu _ GW) as H. unfold len in H. unfold layer_mu_type. cbn [length]. lia. }
  intros mu LMU. assert (LM : len mu = 6) by (unfold len; rewrite LMU; reflexivity). clear LMU. cbv zeta.
  set (l0 := set_mu mu l).
  (* learning rate *)
  eapply rxj_bind with (P := fun r => exists e, fst r = set_eta e l0 /\ (has l EVOLVE_ETA = false -> e = l_eta l)).
  { change (has l0 EVOLVE_ETA) with (has l EVOLVE_ETA). destruct (has l EVOLVE_ETA).
    - eapply rxj_bind with (P := fun _ => True); [apply rxj_rt; eapply rt_lift; [apply (rd_ok fnan); lia|exact I]|]. intros m _.
      apply rxj_rt. eapply rt_mono; [apply (mutate_eta_ok J lm Zok SR)|]. intros r (e & H & _). exists e. split; [exact H|discriminate].
    - apply rxj_ret. exists (l_eta l0). cbn [fst]. split; [unfold l0; destruct l; reflexivity|reflexivity]. }
  intros (l1, m0) (e & E1 & EE). cbn [fst] in E1. subst l1. set (l1 := set_eta e l0).
  (* neurons *)
  eapply rxj_bind with (P := fun r => fst r = l1 \/ (has l EVOLVE_NEURONS = true /\ exists n, n <> 0 /\ 1 <= l_n_outputs l1 + n <= l_max_outputs l /\ grown l1 (fst r) n)).
  { change (has l1 EVOLVE_NEURONS) with (has l EVOLVE_NEURONS). destruct (has l EVOLVE_NEURONS); [|apply rxj_ret; left; reflexivity]. destruct (CA eq_refl) as (CA1 & CA2).
    eapply rxj_bind with (P := fun _ => True); [apply rxj_rt; eapply rt_lift; [apply (rd_ok fnan); lia|exact I]|]. intros m _.
    pose proof (gw_in _ GW) as G1. pose proof (gw_out _ GW) as G2. pose proof (gw_max _ GW) as G3. pose proof (gw_w _ GW) as G4. pose proof (gw_grow _ GW) as G5.
    unfold layer_mutate_neurons. eapply rxj_bind.
    { apply mutate_count_ok; try assumption.
      - change (0 <= l_n_outputs l <= 1000000000). unfold N_OUTPUTS_MAX in G3. lia.
      - change (1 <= l_max_outputs l). lia. }
    intros n Hn. change (l_n_outputs l1) with (l_n_outputs l) in Hn. change (l_max_outputs l1) with (l_max_outputs l) in Hn.
    destruct (Z.eqb_spec n 0) as [->|N0]; [apply rxj_ret; left; reflexivity|]. destruct Hn as [Hn|Hn]; [contradiction|].
    eapply rxj_bind.
    { apply rxj_rt, (add_neurons_ok J lm Zok SR l1 n).
      - destruct C. constructor; assumption.
      - exact G1.
      - change (1 <= l_n_outputs l + n <= N_OUTPUTS_MAX). lia.
      - change ((l_n_outputs l + n) * l_n_inputs l <= N_WEIGHTS_MAX). nia. }
    intros l2 G. apply rxj_ret. right. split; [reflexivity|]. exists n. cbn [fst]. split; [exact N0|]. split; [exact Hn|exact G]. }
  intros (l2, m1) S2. cbn [fst] in S2.
  assert (B2 : conn_shape l2 /\ tidy l2 /\ fixed l2 = fixed l /\ l_mu l2 = mu /\ 1 <= l_n_outputs l2 <= l_max_outputs l /\
    (has l EVOLVE_NEURONS = false -> l_n_outputs l2 = l_n_outputs l) /\ survives l l2 /\
    (l_n_outputs l2 = l_n_outputs l -> l_active l2 = l_active l) /\ l_function l2 = l_function l /\ l_eta l2 = e).
  { pose proof (gw_out _ GW) as G2. destruct S2 as [->|(EN & n & N0 & Hn & G)].
    - split; [destruct C; constructor; assumption|]. split; [exact T|]. split; [reflexivity|]. split; [reflexivity|]. split; [exact G2|]. split; [reflexivity|].
      split; [apply survives_refl; reflexivity|auto].
    - assert (C1 : conn_shape l1) by (destruct C; constructor; assumption).
      assert (T1 : tidy l1) by exact T. pose proof (gr_rest _ _ _ G) as R. pose proof (gr_n _ _ _ G) as GN.
      change (l_n_outputs l1) with (l_n_outputs l) in *.
      split; [exact (gr_shape _ _ _ G)|]. split.
      { apply (grown_tidy l1 l2 n T1 G). intros k K. pose proof (cs_weights _ C1) as W. pose proof (len_nonneg (l_weights l1)). lia. }
      split; [rewrite R; reflexivity|]. split; [rewrite R; reflexivity|]. split; [lia|]. split; [congruence|].
      pose proof (grown_survives l1 l2 n C1 G) as SV. split; [exact SV|]. split; [intros H; lia|]. split; rewrite R; reflexivity. }
  clear S2. destruct B2 as (C2 & T2 & F2 & MU2 & N2 & EN2 & SV2 & AC2 & FN2 & ET2).
  assert (OPT : l_options l2 = l_options l) by (unfold fixed in F2; congruence).
  assert (NI : l_n_inputs l2 = l_n_inputs l) by (unfold fixed in F2; congruence).
  assert (HAS : forall o, has l2 o = has l o) by (intros o; unfold has; rewrite OPT; reflexivity).
  rewrite !HAS.
  (* connectivity *)
  eapply rxj_bind with (P := fun r => exists a w n, fst r = rewire a w n l2 /\ links (l_n_weights l2) a w n /\
     (has l EVOLVE_CONNECT = false -> fst r = l2) /\ (wired l2 -> wired (fst r))).
  { destruct (has l EVOLVE_CONNECT) eqn:EC.
    2:{ apply rxj_ret. exists (l_active l2), (l_weights l2), (l_n_active l2). cbn [fst]. split; [symmetry; apply rewire_id|]. split; [now apply conn_links|]. auto. }
    eapply rxj_bind with (P := fun _ => True); [apply rxj_rt; eapply rt_lift; [apply (rd_ok fnan); lia|exact I]|]. intros p2 _.
    eapply rxj_bind with (P := fun _ => True); [apply rxj_rt; eapply rt_lift; [apply (rd_ok fnan); lia|exact I]|]. intros p3 _.
    eapply rxj_bind; [apply rxj_rt, (mutate_connectivity_ok J lm Zok SR l2 p2 p3 (conn_wfit _ C2) T2)|].
    intros (l3, b) (a & w & n & E3 & L3 & _ & SF & ST). cbn [fst snd] in *. subst l3. destruct b.
    - pose proof (gw_out _ GW) as G2. pose proof (gw_max _ GW) as G3. pose proof (gw_w _ GW) as G4. unfold N_OUTPUTS_MAX, N_WEIGHTS_MAX in *.
      destruct (ST eq_refl) as (Q1 & Q2 & _).
      eapply rxj_bind.
      { apply rxj_rt, (ensure_ok J lm Zok SR fuel (rewire a w n l2)).
        - apply rewire_shape; [exact C2|apply L3|apply L3].
        - apply rewire_tidy, L3.
        - change (1 <= l_n_inputs l2 <= int_max). unfold int_max. nia.
        - change (1 <= l_n_outputs l2 <= int_max). unfold int_max. lia.
        - exact FU. }
      intros l4 (a4 & w4 & n4 & E4 & L4 & _ & W4). apply rxj_ret. exists a4, w4, n4. cbn [fst]. split; [rewrite E4; reflexivity|]. split; [exact L4|]. split; [discriminate|auto].
    - apply rxj_ret. rewrite (SF eq_refl). exists (l_active l2), (l_weights l2), (l_n_active l2). cbn [fst]. split; [symmetry; apply rewire_id|]. split; [now apply conn_links|]. split; [discriminate|auto]. }
  intros (l3, m2) (a & w & n & E3 & L3 & EC3 & W3). cbn [fst] in *.
  assert (OPT3 : forall o, has l3 o = has l o) by (intros o; rewrite E3; exact (HAS o)).
  assert (MU3 : l_mu l3 = mu) by (rewrite E3; exact MU2).
  rewrite !OPT3.
  assert (C3 : conn_shape l3) by (rewrite E3; apply rewire_shape; [exact C2|apply L3|apply L3]).
  assert (T3 : tidy l3) by (rewrite E3; apply rewire_tidy, L3).
  assert (F3 : fixed l3 = fixed l) by (rewrite E3; exact F2).
  assert (NO3 : l_n_outputs l3 = l_n_outputs l2) by (rewrite E3; reflexivity).
  (* weights *)
  eapply rxj_bind with (P := fun r => exists w b, fst r = set_weights w (set_biases b l3) /\ len w = l_n_weights l3 /\ len b = l_n_biases l3 /\
    (forall k, 0 <= k < l_n_weights l3 -> at_ false (l_active l3) k = false -> at_ fnan w k = at_ fnan (l_weights l3) k) /\
    (has l EVOLVE_WEIGHTS = false -> fst r = l3)).
  { destruct (has l EVOLVE_WEIGHTS).
    - eapply rxj_bind with (P := fun _ => True); [apply rxj_rt; eapply rt_lift; [apply (rd_ok fnan); lia|exact I]|]. intros p4 _.
      apply rxj_rt. eapply rt_mono; [apply (mutate_weights_ok J lm Zok SR l3 p4 (conn_wfit _ C3))|]. intros r (w' & b' & H1 & H2 & H3 & H4 & _). exists w', b'. do 4 (split; [assumption|]). discriminate.
    - apply rxj_ret. exists (l_weights l3), (l_biases l3). cbn [fst]. split; [destruct l3; reflexivity|]. split; [apply C3|]. split; [rewrite (cs_b _ C3); apply C3|]. auto. }
  intros (l4, m3) (w' & b' & E4 & LW & LB & IN & EW). cbn [fst] in *.
  assert (OPT4 : forall o, has l4 o = has l o) by (intros o; rewrite E4; exact (OPT3 o)). rewrite !OPT4.
  (* functions *)
  eapply rxj_bind with (P := fun r => exists f, fst r = set_function f l4 /\ (f = l_function l4 \/ has l EVOLVE_FUNCTIONS = true /\ 0 <= f < NUM_ACTIVATIONS)).
  { destruct (has l EVOLVE_FUNCTIONS).
    - eapply rxj_bind with (P := fun _ => True); [apply rxj_rt; eapply rt_lift; [apply (rd_ok fnan); lia|exact I]|]. intros p5 _.
      apply rxj_rt. eapply rt_mono; [apply (mutate_functions_ok J lm Zok SR)|]. intros r (f & H & H' & _). exists f. split; [exact H|]. destruct H' as [H'|H']; auto.
    - apply rxj_ret. exists (l_function l4). cbn [fst]. split; [destruct l4; reflexivity|auto]. }
  intros (l5, m4) (f & E5 & E6). cbn [fst] in E5. apply rxj_ret. cbn [fst].
  assert (AC5 : l_active l5 = l_active l3) by (rewrite E5, E4; reflexivity).
  assert (NI5 : l_n_inputs l5 = l_n_inputs l3) by (rewrite E5, E4; reflexivity).
  assert (NO5 : l_n_outputs l5 = l_n_outputs l3) by (rewrite E5, E4; reflexivity).
  split. { rewrite E5, E4. destruct C3. constructor; try assumption. change (len b' = l_n_outputs l3). lia. }
  split. { rewrite E5, E4. destruct T3 as (TA & TB). split; [|exact TB]. intros k K H. change (at_ fnan w' k = f0). rewrite (IN k K H). apply TA; assumption. }
  split. { rewrite E5, E4. exact F3. }
  split. { rewrite E5, E4. change (len (l_mu l3) = 6). rewrite MU3. exact LM. }
  split. { assert (X : l_function l5 = f) by (rewrite E5; reflexivity). rewrite X. destruct E6 as [E6|E6]; [left|right; exact E6]. rewrite E6, E4, E3. exact FN2. }
  split. { intros H. rewrite E5, E4, E3. change (l_eta l2 = l_eta l). rewrite ET2. exact (EE H). }
  split. { rewrite NO5, NO3. exact N2. }
  split. { intros H. rewrite NO5, NO3. apply EN2, H. }
  split. { intros H1 H2. rewrite (EC3 H1) in *. rewrite E5, (EW H2). exact SV2. }
  split. { intros H1 H2. rewrite AC5, (EC3 H1). apply AC2. congruence. }
  intros W H. assert (W2 : wired l2).
  { unfold wired, connected. rewrite NI, AC2 by congruence. rewrite NO5, NO3 in H. rewrite H. exact W. }
  apply W3 in W2. unfold wired, connected. rewrite NI5, NO5, AC5. exact W2.
Qed.

(** ** Mutating a convolutional layer *)
Record conv_growable (l : layer f64) : Prop := {
  cg_f : l_n_filters l <= l_max_outputs l;
  cg_max : l_out_h l * l_out_w l * l_max_outputs l <= N_OUTPUTS_MAX;
  cg_w : l_max_outputs l * (l_channels l * l_size l * l_size l) <= N_WEIGHTS_MAX;
  cg_grow : Z.abs (l_grow l) <= 1000000000;
  cg_mu : len (l_mu l) = 6
}.
(** The fields mutation of a convolutional layer never touches. *)
Definition conv_fixed (l : layer f64) :=
  ((l_type l, l_options l, l_n_inputs l, l_max_outputs l, l_grow l),
   (l_eta_max l, l_eta_min l, l_momentum l, l_decay l, l_scale l, l_probability l),
   (l_height l, l_width l, l_channels l, l_pad l, l_out_w l, l_out_h l, l_size l, l_stride l),
   (l_indexes l)).
(** The filters both layers have kept their weights and biases. *)
Definition filters_survive (l l' : layer f64) : Prop :=
  let k := l_channels l * l_size l * l_size l in
  (forall f i, 0 <= f < l_n_filters l -> f < l_n_filters l' -> 0 <= i < k ->
     at_ fnan (l_weights l') (f * k + i) = at_ fnan (l_weights l) (f * k + i) /\
     at_ false (l_active l') (f * k + i) = at_ false (l_active l) (f * k + i)) /\
  (forall f, 0 <= f < l_n_filters l -> f < l_n_filters l' -> at_ fnan (l_biases l') f = at_ fnan (l_biases l) f).
Definition conv_mutated (l l' : layer f64) : Prop :=
  conv_shape l' /\ len (l_active l') = l_n_weights l' /\ l_out_c l' = l_n_filters l' /\ tidy l' /\ conv_fixed l' = conv_fixed l /\ len (l_mu l') = 6 /\
  1 <= l_n_filters l' <= l_max_outputs l /\
  (has l EVOLVE_NEURONS = false -> l_n_filters l' = l_n_filters l) /\
  (has l EVOLVE_CONNECT = false -> has l EVOLVE_WEIGHTS = false -> filters_survive l l').


Lemma filters_kept l l' N : conv_shape l -> filters l l' N -> filters_survive l l'.
Proof.
  intros C F. pose proof (fl_shape _ _ _ F) as C'. pose proof (fl_rest _ _ _ F) as R.
  assert (E1 : l_channels l' = l_channels l) by (rewrite R; reflexivity). assert (E2 : l_size l' = l_size l) by (rewrite R; reflexivity).
  pose proof (cv_nw _ C) as W. pose proof (cv_nw _ C') as W'. rewrite E1, E2 in W'. pose proof (cv_c _ C). pose proof (cv_size _ C).
  unfold filters_survive. cbv zeta. set (k := l_channels l * l_size l * l_size l) in *. assert (K : 1 <= k) by (unfold k; nia). split.
  - intros f i O O' I. destruct (fl_weights _ _ _ F (f * k + i)) as (H1 & H2 & _); [rewrite W'; nia|rewrite W; nia|auto].
  - intros f O O'. destruct (fl_biases _ _ _ F) as (_ & H1 & _). apply H1; lia.
Qed.

Lemma convolutional_mutate_ok fuel l : casts_ok -> bad OutOfFuel -> conv_shape l -> len (l_active l) = l_n_weights l -> l_out_c l = l_n_filters l -> tidy l -> conv_growable l ->
  rxj (convolutional_mutate lm fuel l) (fun r => conv_mutated l (fst r)).
Proof.
  intros CA FO C LA OC T GW. unfold convolutional_mutate.
  eapply rxj_bind; [apply rxj_rt, (sam_adapt_len J lm Zok SR layer_mu_type)|].
  { unfold layer_mu_type. repeat (apply Forall_cons || apply Forall_nil); unfold scheme_ok; auto. }
  { pose proof (cg_mu _ GW) as H. unfold len in H. unfold layer_mu_type. cbn [length]. lia. }
  intros mu LMU. assert (LM : len mu = 6) by (unfold len; rewrite LMU; reflexivity). clear LMU. cbv zeta.
  set (l0 := set_mu mu l).
  eapply rxj_bind with (P := fun r => exists e, fst r = set_eta e l0).
  { change (has l0 EVOLVE_ETA) with (has l EVOLVE_ETA). destruct (has l EVOLVE_ETA).
    - eapply rxj_bind with (P := fun _ => True); [apply rxj_rt; eapply rt_lift; [apply (rd_ok fnan); lia|exact I]|]. intros m _.
      apply rxj_rt. eapply rt_mono; [apply (mutate_eta_ok J lm Zok SR)|]. intros r (e & H & _). eauto.
    - apply rxj_ret. exists (l_eta l0). cbn [fst]. unfold l0. destruct l; reflexivity. }
  intros (l1, m0) (e & E1). cbn [fst] in E1. subst l1. set (l1 := set_eta e l0).
  assert (C1 : conv_shape l1) by (destruct C; constructor; assumption).
  eapply rxj_bind with (P := fun r => fst r = l1 \/ (has l EVOLVE_NEURONS = true /\ exists n, n <> 0 /\ 1 <= l_n_filters l1 + n <= l_max_outputs l /\ filters l1 (fst r) n)).
  { change (has l1 EVOLVE_NEURONS) with (has l EVOLVE_NEURONS). destruct (has l EVOLVE_NEURONS); [|apply rxj_ret; left; reflexivity].
    eapply rxj_bind with (P := fun _ => True); [apply rxj_rt; eapply rt_lift; [apply (rd_ok fnan); lia|exact I]|]. intros m _.
    pose proof (cg_f _ GW) as G2. pose proof (cg_max _ GW) as G3. pose proof (cg_w _ GW) as G4. pose proof (cg_grow _ GW) as G5.
    pose proof (cv_f _ C) as D1. pose proof (cv_oh1 _ C) as D2. pose proof (cv_ow1 _ C) as D3. pose proof (cv_c _ C) as D4. pose proof (cv_size _ C) as D5.
    assert (D6 : 1 <= l_out_h l * l_out_w l) by nia. assert (D7 : 1 <= l_channels l * l_size l * l_size l) by (assert (1 <= l_channels l * l_size l) by nia; nia).
    unfold N_OUTPUTS_MAX in G3. assert (D8 : l_max_outputs l <= 2000000) by nia.
    eapply rxj_bind.
    { apply mutate_count_ok; try assumption.
      - change (0 <= l_n_filters l <= 1000000000). lia.
      - change (1 <= l_max_outputs l). lia. }
    intros n Hn. change (l_n_filters l1) with (l_n_filters l) in Hn. change (l_max_outputs l1) with (l_max_outputs l) in Hn.
    destruct (Z.eqb_spec n 0) as [->|N0]; [apply rxj_ret; left; reflexivity|]. destruct Hn as [Hn|Hn]; [contradiction|].
    eapply rxj_bind.
    { apply rxj_rt, (add_filters_ok J lm Zok SR l1 n C1).
      - exact LA.
      - change (1 <= l_n_filters l + n). lia.
      - change (l_out_h l * l_out_w l * (l_n_filters l + n) <= N_OUTPUTS_MAX). unfold N_OUTPUTS_MAX. nia.
      - change ((l_n_filters l + n) * (l_channels l * l_size l * l_size l) <= N_WEIGHTS_MAX). nia. }
    intros l2 G. apply rxj_ret. right. split; [reflexivity|]. exists n. cbn [fst]. split; [exact N0|]. split; [exact Hn|exact G]. }
  intros (l2, m1) S2. cbn [fst] in S2.
  assert (B2 : conv_shape l2 /\ len (l_active l2) = l_n_weights l2 /\ l_out_c l2 = l_n_filters l2 /\ tidy l2 /\ conv_fixed l2 = conv_fixed l /\ l_mu l2 = mu /\ 1 <= l_n_filters l2 <= l_max_outputs l /\
    (has l EVOLVE_NEURONS = false -> l_n_filters l2 = l_n_filters l) /\ filters_survive l l2).
  { pose proof (cg_f _ GW) as G2. destruct S2 as [->|(EN & n & N0 & Hn & G)].
    - split; [exact C1|]. split; [exact LA|]. split; [exact OC|]. split; [exact T|]. split; [reflexivity|]. split; [reflexivity|]. split; [split; [exact (cv_f _ C)|exact G2]|]. split; [reflexivity|].
      split; [intros; auto|auto].
    - pose proof (fl_rest _ _ _ G) as R. pose proof (fl_n _ _ _ G) as GN. change (l_n_filters l1) with (l_n_filters l) in *.
      split; [exact (fl_shape _ _ _ G)|]. split; [exact (fl_len _ _ _ G)|]. split; [rewrite (fl_c _ _ _ G), GN; reflexivity|]. split.
      { destruct T as (T1 & _). split; [|exact (fl_active _ _ _ G)]. intros k K H. destruct (Z_lt_le_dec k (l_n_weights l)) as [D|D].
        - destruct (fl_weights _ _ _ G k K D) as (H1 & H2 & _). rewrite H1. apply T1; [lia|]. rewrite H2 in H. exact H.
        - pose proof (fl_new _ _ _ G k) as H1. change (l_n_weights l1) with (l_n_weights l) in H1. destruct (H1 ltac:(lia)). congruence. }
      split; [rewrite R; reflexivity|]. split; [rewrite R; reflexivity|]. split; [lia|]. split; [congruence|].
      exact (filters_kept l1 l2 n C1 G). }
  clear S2. destruct B2 as (C2 & LA2 & OC2 & T2 & F2 & MU2 & N2 & EN2 & SV2).
  assert (OPT : l_options l2 = l_options l) by (unfold conv_fixed in F2; congruence).
  assert (HAS : forall o, has l2 o = has l o) by (intros o; unfold has; rewrite OPT; reflexivity).
  rewrite !HAS.
  assert (WF2 : wfit l2) by (split; [apply C2|]; split; [exact LA2|apply C2]).
  eapply rxj_bind with (P := fun r => exists a w n, fst r = rewire a w n l2 /\ links (l_n_weights l2) a w n /\ (has l EVOLVE_CONNECT = false -> fst r = l2)).
  { destruct (has l EVOLVE_CONNECT) eqn:EC.
    2:{ apply rxj_ret. exists (l_active l2), (l_weights l2), (l_n_active l2). cbn [fst]. split; [symmetry; apply rewire_id|]. split; [now apply wfit_links|]. auto. }
    eapply rxj_bind with (P := fun _ => True); [apply rxj_rt; eapply rt_lift; [apply (rd_ok fnan); lia|exact I]|]. intros p2 _.
    eapply rxj_bind with (P := fun _ => True); [apply rxj_rt; eapply rt_lift; [apply (rd_ok fnan); lia|exact I]|]. intros p3 _.
    apply rxj_rt. eapply rt_mono; [apply (mutate_connectivity_ok J lm Zok SR l2 p2 p3 WF2 T2)|].
    intros r (a & w & n & E3 & L3 & _). exists a, w, n. split; [exact E3|]. split; [exact L3|discriminate]. }
  intros (l3, m2) (a & w & n & E3 & L3 & EC3). cbn [fst] in *.
  assert (OPT3 : forall o, has l3 o = has l o) by (intros o; rewrite E3; exact (HAS o)).
  assert (MU3 : l_mu l3 = mu) by (rewrite E3; exact MU2).
  rewrite !OPT3.
  assert (C3 : conv_shape l3) by (rewrite E3; destruct C2; constructor; try assumption; apply L3).
  assert (LA3 : len (l_active l3) = l_n_weights l3) by (rewrite E3; apply L3).
  assert (T3 : tidy l3) by (rewrite E3; apply rewire_tidy, L3).
  assert (F3 : conv_fixed l3 = conv_fixed l) by (rewrite E3; exact F2).
  assert (NO3 : l_n_filters l3 = l_n_filters l2) by (rewrite E3; reflexivity).
  assert (OC3 : l_out_c l3 = l_n_filters l3) by (rewrite E3; exact OC2).
  assert (WF3 : wfit l3) by (split; [apply C3|]; split; [exact LA3|apply C3]).
  eapply rxj_bind with (P := fun r => exists w b, fst r = set_weights w (set_biases b l3) /\ len w = l_n_weights l3 /\ len b = l_n_biases l3 /\
    (forall k, 0 <= k < l_n_weights l3 -> at_ false (l_active l3) k = false -> at_ fnan w k = at_ fnan (l_weights l3) k) /\
    (has l EVOLVE_WEIGHTS = false -> fst r = l3)).
  { destruct (has l EVOLVE_WEIGHTS).
    - eapply rxj_bind with (P := fun _ => True); [apply rxj_rt; eapply rt_lift; [apply (rd_ok fnan); lia|exact I]|]. intros p4 _.
      apply rxj_rt. eapply rt_mono; [apply (mutate_weights_ok J lm Zok SR l3 p4 WF3)|]. intros r (w' & b' & H1 & H2 & H3 & H4 & _). exists w', b'. do 4 (split; [assumption|]). discriminate.
    - apply rxj_ret. exists (l_weights l3), (l_biases l3). cbn [fst]. split; [destruct l3; reflexivity|]. split; [apply C3|]. split; [apply C3|]. auto. }
  intros (l4, m3) (w' & b' & E4 & LW & LB & IN & EW). cbn [fst] in *.
  assert (OPT4 : forall o, has l4 o = has l o) by (intros o; rewrite E4; exact (OPT3 o)). rewrite !OPT4.
  eapply rxj_bind with (P := fun r => exists f, fst r = set_function f l4).
  { destruct (has l EVOLVE_FUNCTIONS).
    - eapply rxj_bind with (P := fun _ => True); [apply rxj_rt; eapply rt_lift; [apply (rd_ok fnan); lia|exact I]|]. intros p5 _.
      apply rxj_rt. eapply rt_mono; [apply (mutate_functions_ok J lm Zok SR)|]. intros r (f & H & _). eauto.
    - apply rxj_ret. exists (l_function l4). cbn [fst]. destruct l4; reflexivity. }
  intros (l5, m4) (f & E5). cbn [fst] in E5. apply rxj_ret. cbn [fst].
  split. { rewrite E5, E4. destruct C3. constructor; assumption. }
  split. { rewrite E5, E4. exact LA3. }
  split. { rewrite E5, E4. exact OC3. }
  split. { rewrite E5, E4. destruct T3 as (TA & TB). split; [|exact TB]. intros k K H. change (at_ fnan w' k = f0). rewrite (IN k K H). apply TA; assumption. }
  split. { rewrite E5, E4. exact F3. }
  split. { rewrite E5, E4. change (len (l_mu l3) = 6). rewrite MU3. exact LM. }
  split. { rewrite E5, E4. change (1 <= l_n_filters l3 <= l_max_outputs l). rewrite NO3. exact N2. }
  split. { intros H. rewrite E5, E4. change (l_n_filters l3 = l_n_filters l). rewrite NO3. apply EN2, H. }
  intros H1 H2. rewrite E5, (EW H2), (EC3 H1). exact SV2.
Qed.
End Bad.

(** ** The properties *)
Definition anything (o : outcome unit) : Prop := True.
Definition only_fuel (o : outcome unit) : Prop := o = OutOfFuel.

Lemma rxj_ok {A} J bad (m : RM A) Q g v g' : rxj J bad m Q -> J g -> m g = Ok (v, g') -> Q v.
Proof. intros H G E. specialize (H g G). rewrite E in H. apply H. Qed.
Lemma casts_normal lm : libm_ok lm -> casts_ok normal_ok only_fuel.
Proof.
  intros L. left. intros z (F & B). destruct (fmul_in (-64) 64 (fmt_opp _ fmt_64) fmt_64 ltac:(pose proof (lt_bnd 64 ltac:(cbn; lia)); lra) (lt_bnd 64 ltac:(cbn; lia)) z fhalf F eq_refl) as (F2 & B2).
  - assert (E : B2R fhalf = (/ 2)%R) by (unfold fhalf; vm_compute; lra). rewrite E. lra.
  - destruct (fadd_in (-64) 64 (fmt_opp _ fmt_64) fmt_64 ltac:(pose proof (lt_bnd 64 ltac:(cbn; lia)); lra) (lt_bnd 64 ltac:(cbn; lia)) (fmul z fhalf) f0 F2 eq_refl) as (F3 & _).
    + change (B2R f0) with 0%R. lra.
    + apply fin_nn, F3.
Qed.

Lemma C43_count_lemma (lm : libm) (fuel : nat) (l : layer f64) (mu : f64) (g : rng) (n : Z) (g' : rng) :
  0 <= l_n_outputs l <= 1000000000 -> 1 <= l_max_outputs l -> Z.abs (l_grow l) <= 1000000000 ->
  layer_mutate_neurons lm fuel l mu g = Ok (n, g') -> n = 0 \/ 1 <= l_n_outputs l + n <= l_max_outputs l.
Proof.
  intros N M G E. refine (rxj_ok (fun _ => True) anything (layer_mutate_neurons lm fuel l mu) (fun n => n = 0 \/ 1 <= l_n_outputs l + n <= l_max_outputs l) g n g' _ I E).
  apply (mutate_count_ok _ lm _ (src_any lm)); try assumption; try exact I. right. exact I.
Qed.

Lemma C43_add_lemma (lm : libm) (l : layer f64) (N : Z) (g : rng) :
  conn_shape l -> 1 <= l_n_inputs l -> 1 <= l_n_outputs l + N <= N_OUTPUTS_MAX -> (l_n_outputs l + N) * l_n_inputs l <= N_WEIGHTS_MAX ->
  exists l' g', layer_add_neurons lm l N g = Ok (l', g') /\ grown l l' N /\ survives l l' /\ fixed l' = fixed l /\ l_mu l' = l_mu l /\ l_function l' = l_function l.
Proof.
  intros C NI NO NW. destruct (add_neurons_ok _ lm _ (src_any lm) l N C NI NO NW g I) as (l' & g' & E & _ & G).
  exists l', g'. split; [exact E|]. split; [exact G|]. split; [exact (grown_survives l l' N C G)|]. pose proof (gr_rest _ _ _ G) as R. rewrite R. auto.
Qed.

Lemma C43_mutate_lemma (lm : libm) (fuel : nat) (l : layer f64) (g : rng) (l' : layer f64) (b : bool) (g' : rng) :
  (1 <= fuel)%nat -> conn_shape l -> tidy l -> growable l -> connected_mutate lm fuel l g = Ok (l', b, g') -> layer_mutated l l'.
Proof.
  intros FU C T G E. refine (rxj_ok (fun _ => True) anything (connected_mutate lm fuel l) (fun r => layer_mutated l (fst r)) g (l', b) g' _ I E).
  apply (connected_mutate_ok _ lm _ (src_any lm)); try assumption; try exact I. intros _. split; [right|]; exact I.
Qed.
Lemma C43_safe_lemma (lm : libm) (fuel : nat) (l : layer f64) (g : rng) :
  libm_ok lm -> gen_ok g -> (1 <= fuel)%nat -> conn_shape l -> tidy l -> growable l ->
  match connected_mutate lm fuel l g with Ok (l', b, g') => gen_ok g' | OutOfFuel => True | _ => False end.
Proof.
  intros LM GO FU C T G. pose proof (connected_mutate_ok _ lm _ (src_normal_ok lm LM) only_fuel fuel l (fun _ => conj (casts_normal lm LM) eq_refl) FU C T G g GO) as H.
  destruct (connected_mutate lm fuel l g) as [((l', b), g')| | |]; try discriminate H; try exact I. apply H.
Qed.

Lemma C43_filters_lemma (lm : libm) (l : layer f64) (N : Z) (g : rng) :
  conv_shape l -> len (l_active l) = l_n_weights l -> 1 <= l_n_filters l + N ->
  l_out_h l * l_out_w l * (l_n_filters l + N) <= N_OUTPUTS_MAX -> (l_n_filters l + N) * (l_channels l * l_size l * l_size l) <= N_WEIGHTS_MAX ->
  exists l' g', convolutional_add_filters lm l N g = Ok (l', g') /\ filters l l' N /\ filters_survive l l'.
Proof.
  intros C A N1 N2 N3. destruct (add_filters_ok _ lm _ (src_any lm) l N C A N1 N2 N3 g I) as (l' & g' & E & _ & F).
  exists l', g'. split; [exact E|]. split; [exact F|]. exact (filters_kept l l' N C F).
Qed.
Lemma C43_conv_lemma (lm : libm) (fuel : nat) (l : layer f64) (g : rng) (l' : layer f64) (b : bool) (g' : rng) :
  conv_shape l -> len (l_active l) = l_n_weights l -> l_out_c l = l_n_filters l -> tidy l -> conv_growable l ->
  convolutional_mutate lm fuel l g = Ok (l', b, g') -> conv_mutated l l'.
Proof.
  intros C A OC T G E. refine (rxj_ok (fun _ => True) anything (convolutional_mutate lm fuel l) (fun r => conv_mutated l (fst r)) g (l', b) g' _ I E).
  apply (convolutional_mutate_ok _ lm _ (src_any lm)); try assumption; try exact I. right. exact I.
Qed.
Lemma C43_conv_safe_lemma (lm : libm) (fuel : nat) (l : layer f64) (g : rng) :
  libm_ok lm -> gen_ok g -> conv_shape l -> len (l_active l) = l_n_weights l -> l_out_c l = l_n_filters l -> tidy l -> conv_growable l ->
  match convolutional_mutate lm fuel l g with Ok (l', b, g') => gen_ok g' | OutOfFuel => True | _ => False end.
Proof.
  intros LM GO C A OC T G. pose proof (convolutional_mutate_ok _ lm _ (src_normal_ok lm LM) only_fuel fuel l (casts_normal lm LM) eq_refl C A OC T G g GO) as H.
  destruct (convolutional_mutate lm fuel l g) as [((l', b), g')| | |]; try discriminate H; try exact I. apply H.
Qed.

Lemma C43_resize_lemma (lm : libm) (fuel : nat) (l : layer f64) (pn : Z) (g : rng) :
  (1 <= fuel)%nat -> conn_shape l -> tidy l -> 1 <= l_n_outputs l -> 1 <= pn -> pn * l_n_outputs l <= N_WEIGHTS_MAX ->
  exists l' g', connected_resize lm fuel l pn g = Ok (l', g') /\
    conn_shape l' /\ tidy l' /\ l_n_inputs l' = pn /\ l_n_outputs l' = l_n_outputs l /\ l_biases l' = l_biases l /\
    (has l EVOLVE_CONNECT = true -> wired l') /\
    (forall o i, 0 <= o < l_n_outputs l -> 0 <= i < pn -> i < l_n_inputs l ->
       let k := l_n_inputs l * o + i in let k' := pn * o + i in
       (at_ false (l_active l) k = true -> at_ false (l_active l') k' = true /\ at_ fnan (l_weights l') k' = at_ fnan (l_weights l) k) /\
       (has l EVOLVE_CONNECT = false -> at_ false (l_active l') k' = at_ false (l_active l) k /\ at_ fnan (l_weights l') k' = at_ fnan (l_weights l) k)) /\
    (forall o i, 0 <= o < l_n_outputs l -> l_n_inputs l <= i < pn -> at_ false (l_active l') (pn * o + i) = true).
Proof.
  intros FU C T NO PN NW. unfold N_WEIGHTS_MAX in NW.
  assert (B1 : 1 <= l_n_outputs l <= int_max) by (unfold int_max; nia). assert (B2 : 1 <= pn <= int_max) by (unfold int_max; nia).
  destruct (resize_ok _ lm _ (src_any lm) fuel l pn C T B1 B2 NW FU g I) as (l' & g' & E & _ & l1 & R & T1 & H).
  exists l', g'. split; [exact E|]. pose proof (ri_shape _ _ _ R) as C1. pose proof (ri_in _ _ _ R) as RI. pose proof (ri_out _ _ _ R) as RO. pose proof (ri_rest _ _ _ R) as RR.
  assert (RB : l_biases l1 = l_biases l) by (rewrite RR; reflexivity).
  pose proof (cs_w _ C1) as W1. rewrite RI, RO in W1. pose proof (cs_in _ C) as CI.
  destruct (has l EVOLVE_CONNECT) eqn:EC.
  - destruct H as (a & w & n & E' & L & EX & W). split; [rewrite E'; apply rewire_shape; [exact C1|apply L|apply L]|]. split; [rewrite E'; apply rewire_tidy, L|].
    split; [rewrite E'; exact RI|]. split; [rewrite E'; exact RO|]. split; [rewrite E'; exact RB|]. split; [auto|].
    assert (AA : l_active l' = a) by (rewrite E'; reflexivity). assert (WW : l_weights l' = w) by (rewrite E'; reflexivity). rewrite AA, WW. split.
    + intros o i O I0 I1. cbv zeta. pose proof (ri_moved _ _ _ R o i O I0) as M. unfold moved in M. cbv zeta in M. destruct (Z.ltb_spec i (l_n_inputs l)); [|lia].
      rewrite (Z.mul_comm o pn), (Z.mul_comm o (l_n_inputs l)) in M. destruct M as (M1 & _ & M3). split; [|discriminate].
      intros A1. destruct (EX (pn * o + i) ltac:(rewrite W1; nia) ltac:(congruence)) as (X1 & X2). split; [exact X1|congruence].
    + intros o i O I0. pose proof (ri_moved _ _ _ R o i O ltac:(lia)) as M. unfold moved in M. cbv zeta in M. destruct (Z.ltb_spec i (l_n_inputs l)); [lia|].
      rewrite (Z.mul_comm o pn) in M. destruct M as (_ & M3). destruct (EX (pn * o + i) ltac:(rewrite W1; nia) M3) as (X1 & _). exact X1.
  - subst l'. split; [exact C1|]. split; [exact T1|]. split; [exact RI|]. split; [exact RO|]. split; [exact RB|]. split; [discriminate|]. split.
    + intros o i O I0 I1. cbv zeta. pose proof (ri_moved _ _ _ R o i O I0) as M. unfold moved in M. cbv zeta in M. destruct (Z.ltb_spec i (l_n_inputs l)); [|lia].
      rewrite (Z.mul_comm o pn), (Z.mul_comm o (l_n_inputs l)) in M. destruct M as (M1 & _ & M3). split; [|auto]. intros A1. split; congruence.
    + intros o i O I0. pose proof (ri_moved _ _ _ R o i O ltac:(lia)) as M. unfold moved in M. cbv zeta in M. destruct (Z.ltb_spec i (l_n_inputs l)); [lia|].
      rewrite (Z.mul_comm o pn) in M. apply M.
Qed.

(** *** C42 *)

(** Connectivity mutation as neural_layer_connected.c:306-310 runs it. *)
Definition connectivity (lm : libm) (fuel : nat) (l : layer f64) (en dis : f64) : RM (layer f64 * bool) :=
  (r <- layer_mutate_connectivity lm l en dis ;;
   if snd r then (l' <- layer_ensure_input_representation lm fuel (fst r) ;; ret (l', true)) else ret r)%rng.

Lemma C42_lemma (lm : libm) (fuel : nat) (l : layer f64) (en dis : f64) (g : rng) :
  (1 <= fuel)%nat -> conn_shape l -> tidy l -> l_n_weights l <= N_WEIGHTS_MAX ->
  exists l' b g', connectivity lm fuel l en dis g = Ok (l', b, g') /\
    conn_shape l' /\ tidy l' /\ (b = true -> wired l') /\ (b = false -> l' = l) /\
    l' = rewire (l_active l') (l_weights l') (l_n_active l') l.
Proof.
  intros FU C T NW. unfold connectivity, bind.
  destruct (mutate_connectivity_ok _ lm _ (src_any lm) l en dis (conn_wfit _ C) T g I) as ((l1, b) & g1 & E & _ & a & w & n & E1 & L & _ & H0 & H1).
  rewrite E. cbn [fst snd] in *. destruct b.
  - destruct (H1 eq_refl) as (N1 & N2 & _). rewrite (cs_w _ C) in NW. unfold N_WEIGHTS_MAX in NW.
    assert (C1 : conn_shape l1) by (rewrite E1; apply rewire_shape; [exact C|apply L|apply L]).
    assert (T1 : tidy l1) by (rewrite E1; apply rewire_tidy, L).
    assert (B1 : 1 <= l_n_inputs l1 <= int_max) by (rewrite E1; change (1 <= l_n_inputs l <= int_max); unfold int_max; nia).
    assert (B2 : 1 <= l_n_outputs l1 <= int_max) by (rewrite E1; change (1 <= l_n_outputs l <= int_max); unfold int_max; nia).
    destruct (ensure_ok _ lm _ (src_any lm) fuel l1 C1 T1 B1 B2 FU g1 I) as (l2 & g2 & E2 & _ & a2 & w2 & n2 & R2 & L2 & _ & W2).
    rewrite E2. exists l2, true, g2. split; [reflexivity|]. split; [rewrite R2; apply rewire_shape; [exact C1|apply L2|apply L2]|]. split; [rewrite R2; apply rewire_tidy, L2|].
    split; [auto|]. split; [discriminate|]. rewrite R2, E1. reflexivity.
  - rewrite (H0 eq_refl). exists l, false, g1. split; [reflexivity|]. split; [exact C|]. split; [exact T|]. split; [discriminate|]. split; [reflexivity|]. symmetry. apply rewire_id.
Qed.

Lemma C42_mutate_lemma (lm : libm) (fuel : nat) (l : layer f64) (g : rng) (l' : layer f64) (b : bool) (g' : rng) :
  (1 <= fuel)%nat -> conn_shape l -> tidy l -> growable l -> connected_mutate lm fuel l g = Ok (l', b, g') ->
  conn_shape l' /\ tidy l' /\ (wired l -> l_n_outputs l' = l_n_outputs l -> wired l').
Proof.
  intros FU C T G E. destruct (C43_mutate_lemma lm fuel l g l' b g' FU C T G E) as (H1 & H2 & _ & _ & _ & _ & _ & _ & _ & _ & H9). auto.
Qed.

(** Two inputs and the neurons given by [a]. *)
Definition small_layer (a : list bool) (w : list f64) (no opts grow : Z) (mu : list f64) : layer f64 :=
  set_options opts (set_n_inputs 2 (set_n_outputs no (set_max_outputs 10 (set_n_weights (2 * no) (set_n_biases no
  (set_n_active (actives a) (set_grow grow (set_state (zeros f0 no) (set_output (zeros f0 no) (set_biases (zeros f0 no)
  (set_bias_updates (zeros f0 no) (set_delta (zeros f0 no) (set_weights w (set_weight_updates (zeros f0 (2 * no)) (set_active a
  (set_mu mu layer_defaults)))))))))))))))).
(** Near the true values of log, sin and cos where the witnesses call them. *)
Definition const_lm : libm :=
  mkLibm (fun x => f1) (fun x => lit (-1204) 1000) (fun x => lit 951 1000) (fun x => lit (-309) 1000) (fun x => x) (fun x y => f1) (fun x => x) (fun x => x).
Definition tape3 : rng := mkRng (fun _ => 1351079888211149) 0 false f0.
Definition tape3c : rng := mkRng (fun _ => 1351079888211149) 0 true (lit 1475 1000).
Definition low_mu : list f64 := [fhalf; fhalf; lit 1 1000; lit 1 1000; fhalf; fhalf].
Definition grow_opts : Z := Z.lor (2 ^ EVOLVE_NEURONS) (2 ^ EVOLVE_CONNECT).

Lemma small_shape a w no opts grow mu : 0 <= no -> len a = 2 * no -> len w = 2 * no -> conn_shape (small_layer a w no opts grow mu).
Proof.
  intros NO A W. constructor; unfold small_layer; cbn [l_n_inputs l_n_outputs l_n_weights l_n_biases l_weights l_weight_updates l_active l_biases l_bias_updates l_state l_output l_delta
    set_options set_n_inputs set_n_outputs set_max_outputs set_n_weights set_n_biases set_n_active set_grow set_state set_output set_biases set_bias_updates set_delta set_weights set_weight_updates set_active set_mu];
    rewrite ?len_zeros by lia; lia.
Qed.
Lemma small_tidy a w no opts grow mu : (forall k, 0 <= k < 2 * no -> at_ false a k = false -> at_ fnan w k = f0) -> tidy (small_layer a w no opts grow mu).
Proof. intros H. split; [exact H|reflexivity]. Qed.

Definition diag_layer (grow : Z) : layer f64 := small_layer [true; false; false; true] [f1; f0; f0; f1] 2 grow_opts grow low_mu.
Lemma diag_ok grow : Z.abs grow <= 1000000000 -> conn_shape (diag_layer grow) /\ tidy (diag_layer grow) /\ growable (diag_layer grow) /\ wired (diag_layer grow).
Proof.
  intros G. split; [exact (small_shape [true; false; false; true] [f1; f0; f0; f1] 2 grow_opts grow low_mu ltac:(lia) eq_refl eq_refl)|].
  split. { apply (small_tidy [true; false; false; true] [f1; f0; f0; f1] 2 grow_opts grow low_mu). intros k K. assert (k = 0 \/ k = 1 \/ k = 2 \/ k = 3) as [-> | [-> | [-> | ->]]] by lia; intros AC; (discriminate AC || reflexivity). }
  split. { constructor; [..|exact G|reflexivity]; vm_compute; intuition congruence. }
  split; intros k K; change (0 <= k < 2) in K; exists k; (split; [exact K|]); assert (k = 0 \/ k = 1) as [-> | ->] by lia; reflexivity.
Qed.

Lemma C42_refuted_removal_lemma : exists (lm : libm) (l : layer f64) (g : rng) (l' : layer f64) (b : bool) (g' : rng),
  conn_shape l /\ tidy l /\ growable l /\ wired l /\ has l EVOLVE_CONNECT = true /\
  connected_mutate lm 1 l g = Ok (l', b, g') /\ l_n_outputs l' = 1 /\
  (forall o, 0 <= o < l_n_outputs l' -> at_ false (l_active l') (l_n_inputs l' * o + 1) = false).
Proof.
  destruct (diag_ok 5 ltac:(lia)) as (C & T & G & W).
  assert (X : match connected_mutate const_lm 1 (diag_layer 5) tape3 with Ok (l', b, g') => (l_n_outputs l', l_n_inputs l', l_active l') = (1, 2, [true; false]) | _ => False end) by (vm_compute; reflexivity).
  exists const_lm, (diag_layer 5), tape3. revert X. generalize (connected_mutate const_lm 1 (diag_layer 5) tape3). intros o X.
  destruct o as [((l', b), g')| | |]; try contradiction X. exists l', b, g'. split; [exact C|]. split; [exact T|]. split; [exact G|]. split; [exact W|]. split; [reflexivity|]. split; [reflexivity|].
  injection X as X1 X2 X3. split; [exact X1|]. rewrite X1, X2, X3. intros o O. replace o with 0 by lia. reflexivity.
Qed.
Lemma C42_refuted_addition_lemma : exists (lm : libm) (l : layer f64) (g : rng) (l' : layer f64) (b : bool) (g' : rng),
  conn_shape l /\ tidy l /\ growable l /\ wired l /\ has l EVOLVE_CONNECT = true /\
  connected_mutate lm 1 l g = Ok (l', b, g') /\ l_n_outputs l' = 3 /\
  (forall i, 0 <= i < l_n_inputs l' -> at_ false (l_active l') (l_n_inputs l' * 2 + i) = false).
Proof.
  destruct (diag_ok 1 ltac:(lia)) as (C & T & G & W).
  assert (X : match connected_mutate const_lm 1 (diag_layer 1) tape3c with Ok (l', b, g') => (l_n_outputs l', l_n_inputs l', l_active l') = (3, 2, [true; false; false; true; false; false]) | _ => False end) by (vm_compute; reflexivity).
  exists const_lm, (diag_layer 1), tape3c. revert X. generalize (connected_mutate const_lm 1 (diag_layer 1) tape3c). intros o X.
  destruct o as [((l', b), g')| | |]; try contradiction X. exists l', b, g'. split; [exact C|]. split; [exact T|]. split; [exact G|]. split; [exact W|]. split; [reflexivity|]. split; [reflexivity|].
  injection X as X1 X2 X3. split; [exact X1|]. rewrite X2, X3. intros i O. assert (i = 0 \/ i = 1) as [-> | ->] by lia; reflexivity.
Qed.

(** A 1 x 2 image and one filter of one cell. *)
Definition one_filter : layer f64 :=
  set_options (2 ^ EVOLVE_CONNECT) (set_mu [fhalf; fhalf; fhalf; fhalf; fhalf; fhalf] (conv_layer f0 1 2 1 1 1 1 0 1 2 [f1] [])).
Lemma C42_refuted_conv_lemma : exists (lm : libm) (l : layer f64) (g : rng) (l' : layer f64) (b : bool) (g' : rng),
  conv_shape l /\ len (l_active l) = l_n_weights l /\ l_out_c l = l_n_filters l /\ tidy l /\ conv_growable l /\ l_active l = [true] /\
  convolutional_mutate lm 1 l g = Ok (l', b, g') /\ l_n_filters l' = 1 /\ l_active l' = [false].
Proof.
  assert (X : match convolutional_mutate const_lm 1 one_filter tape3 with Ok (l', b, g') => (l_n_filters l', l_active l') = (1, [false]) | _ => False end) by (vm_compute; reflexivity).
  exists const_lm, one_filter, tape3. revert X. generalize (convolutional_mutate const_lm 1 one_filter tape3). intros o X.
  destruct o as [((l', b), g')| | |]; try contradiction X. exists l', b, g'.
  split. { assert (CV : conv_shape (conv_layer f0 1 2 1 1 1 1 0 1 2 [f1] [])) by (apply conv_layer_shape; try reflexivity; vm_compute; discriminate). destruct CV. constructor; assumption. }
  split; [reflexivity|]. split; [reflexivity|].
  split. { split; [|reflexivity]. intros k K. change (0 <= k < 1) in K. replace k with 0 by lia. discriminate. }
  split. { constructor; vm_compute; intuition congruence. }
  split; [reflexivity|]. split; [reflexivity|]. injection X as X1 X2. auto.
Qed.

(** *** Weight updates *)
Lemma at_indep {A} (d d' : A) l k : 0 <= k < len l -> at_ d l k = at_ d' l k.
Proof. intros K. unfold at_. apply nth_indep. unfold len in K. lia. Qed.
Definition weights_only (l : layer f64) w wu b bu : layer f64 := set_weights w (set_biases b (set_bias_updates bu (set_weight_updates wu l))).
Lemma C42_update_lemma (lm : libm) (l : layer f64) :
  conn_shape l -> tidy l ->
  exists l', weights_update (f64_arith lm) l = Ok l' /\ conn_shape l' /\ tidy l' /\ l_active l' = l_active l /\ l_n_active l' = l_n_active l /\
    l' = weights_only l (l_weights l') (l_weight_updates l') (l_biases l') (l_bias_updates l').
Proof.
  intros C T. assert (TR : l = weights_only l (l_weights l) (l_weight_updates l) (l_biases l) (l_bias_updates l)) by (destruct l; reflexivity).
  destruct (has l SGD_WEIGHTS && a_lt (f64_arith lm) (a_Z (f64_arith lm) 0) (l_eta l)) eqn:E.
  - apply andb_prop in E. destruct E as (E1 & E2).
    assert (N : 0 <= l_n_weights l) by (rewrite (cs_w _ C); pose proof (cs_in _ C); pose proof (cs_out _ C); nia).
    assert (NB : 0 <= l_n_biases l) by (rewrite (cs_b _ C); apply (cs_out _ C)).
    destruct (weights_update_ok (f64_arith lm) l N NB) as (w & wu & b & bu & U & L1 & L2 & L3 & L4 & H & _); try assumption.
    { unfold weight_arrays. destruct C. repeat split; congruence. }
    exists (weights_only l w wu b bu). split; [exact U|]. split.
    { destruct C. constructor; try assumption; cbn [weights_only set_weights set_biases set_bias_updates set_weight_updates l_weights l_weight_updates l_biases l_bias_updates l_n_outputs l_n_inputs]; congruence. }
    split; [|split; [reflexivity|split; [reflexivity|destruct l; reflexivity]]].
    split; [|apply T]. intros k K A. destruct (H k K) as (H1 & _). change (at_ false (l_active l) k = false) in A. rewrite A in H1. change (at_ fnan w k = f0). rewrite (at_indep fnan (n0 (a_num (f64_arith lm)))) by (change (0 <= k < l_n_weights l) in K; lia). exact H1.
  - rewrite weights_update_off by exact E. exists l. auto 8.
Qed.

Lemma C42_count_lemma (l : layer f64) : len (l_active l) = l_n_weights l -> layer_calc_n_active l = Ok (set_n_active (actives (l_active l)) l).
Proof. intros H. unfold layer_calc_n_active. rewrite count_active_ok by auto. reflexivity. Qed.
