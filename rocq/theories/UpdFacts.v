(** * The gradient-descent step on weights and biases. *)
From Coq Require Import ZArith Bool List Lia.
From Verif Require Import Outcome F64 Rng Arr ArrFacts Blas BlasFacts Clock Dgp Act Image Layer LayerFacts.
Import ListNotations.
Open Scope Z_scope.

Section Any.
Context {T : Type} (A : arith T).
Let Q := a_num A.
Let d := n0 Q.

Definition weight_arrays (l : layer T) : Prop :=
  len (l_weights l) = l_n_weights l /\ len (l_weight_updates l) = l_n_weights l /\ len (l_active l) = l_n_weights l /\
  len (l_biases l) = l_n_biases l /\ len (l_bias_updates l) = l_n_biases l.
(** y + alpha x, as blas_axpy computes it (xcsf/blas.c:218-234). *)
Definition axpy (alpha x y : T) : T := nadd Q y (if nne Q alpha (n1 Q) then nmul Q alpha x else x).
(** alpha x, as blas_scal computes it. *)
Definition scaled (alpha x : T) : T := if nne Q alpha (n0 Q) then nmul Q x alpha else n0 Q.
Definition limited (x : T) : T := aclamp A x (a_Z A WEIGHT_MIN) (a_Z A WEIGHT_MAX).

Lemma stride1 n (X : list T) : n <= len X -> stride_ok n X 0 1.
Proof. intros H i I. lia. Qed.
Lemma weight_clamp_ok l : 0 <= l_n_weights l -> 0 <= l_n_biases l -> len (l_weights l) = l_n_weights l -> len (l_active l) = l_n_weights l -> len (l_biases l) = l_n_biases l ->
  exists w b, layer_weight_clamp A l = Ok (set_weights w (set_biases b l)) /\ len w = l_n_weights l /\ len b = l_n_biases l /\
    (forall k, 0 <= k < l_n_weights l -> at_ d w k = if at_ false (l_active l) k then limited (at_ d (l_weights l) k) else a_Z A 0) /\
    (forall k, 0 <= k < l_n_biases l -> at_ d b k = limited (at_ d (l_biases l) k)).
Proof.
  intros N1 N2 L1 L2 L3. unfold layer_weight_clamp. fold Q.
  destruct (ofor_ind (fun i (w : list T) => len w = l_n_weights l /\
      (forall k, 0 <= k < i -> at_ d w k = if at_ false (l_active l) k then limited (at_ d (l_weights l) k) else a_Z A 0) /\
      (forall k, i <= k -> at_ d w k = at_ d (l_weights l) k))
    (fun i w => obind (rd (l_active l) i) (fun a => if a : bool then modify_at w i limited else wr w i (a_Z A 0))) (l_n_weights l) (l_weights l)) as (w & E1 & W1 & W2 & _).
  - exact N1.
  - split; [exact L1|]. split; [intros; lia|auto].
  - intros i w I (H1 & H2 & H3). rewrite (rd_ok false) by lia. cbn [obind]. destruct (at_ false (l_active l) i) eqn:AI.
    + destruct (modify_ok Q w i limited ltac:(lia)) as (w' & E & W1 & W2 & W3 & _). exists w'. split; [exact E|]. split; [lia|]. split.
      * intros k K. destruct (Z.eq_dec k i) as [->|NE]; [rewrite W2, AI; fold d; rewrite H3 by lia; reflexivity|rewrite W3 by lia; apply H2; lia].
      * intros k K. rewrite W3 by lia. apply H3. lia.
    + destruct (wr_ok w i (a_Z A 0) ltac:(lia)) as (w' & E & W1 & W2 & W3 & _). exists w'. split; [exact E|]. split; [lia|]. split.
      * intros k K. destruct (Z.eq_dec k i) as [->|NE]; [rewrite W2, AI; reflexivity|rewrite W3 by lia; apply H2; lia].
      * intros k K. rewrite W3 by lia. apply H3. lia.
  - destruct (ofor_ind (fun i (b : list T) => len b = l_n_biases l /\ (forall k, 0 <= k < i -> at_ d b k = limited (at_ d (l_biases l) k)) /\
        (forall k, i <= k -> at_ d b k = at_ d (l_biases l) k)) (fun i b => modify_at b i limited) (l_n_biases l) (l_biases l)) as (b & E2 & B1 & B2 & _).
    + exact N2.
    + split; [exact L3|]. split; [intros; lia|auto].
    + intros i b I (H1 & H2 & H3). destruct (modify_ok Q b i limited ltac:(lia)) as (b' & E & U1 & U2 & U3 & _). exists b'. split; [exact E|]. split; [lia|]. split.
      * intros k K. destruct (Z.eq_dec k i) as [->|NE]; [rewrite U2; fold d; rewrite H3 by lia; reflexivity|rewrite U3 by lia; apply H2; lia].
      * intros k K. rewrite U3 by lia. apply H3. lia.
    + exists w, b. split; [|auto]. unfold limited in E1, E2. rewrite E1. cbn [obind]. rewrite E2. reflexivity.
Qed.

(** The step taken when the option is set and the rate positive. *)
Lemma weights_update_ok l : 0 <= l_n_weights l -> 0 <= l_n_biases l -> weight_arrays l -> has l SGD_WEIGHTS = true -> a_lt A (a_Z A 0) (l_eta l) = true ->
  exists w wu b bu, weights_update A l = Ok (set_weights w (set_biases b (set_bias_updates bu (set_weight_updates wu l)))) /\
    len w = l_n_weights l /\ len wu = l_n_weights l /\ len b = l_n_biases l /\ len bu = l_n_biases l /\
    (forall k, 0 <= k < l_n_weights l ->
       let u := if a_lt A (a_Z A 0) (l_decay l) then axpy (nneg Q (l_decay l)) (at_ d (l_weights l) k) (at_ d (l_weight_updates l) k) else at_ d (l_weight_updates l) k in
       at_ d w k = (if at_ false (l_active l) k then limited (axpy (l_eta l) u (at_ d (l_weights l) k)) else a_Z A 0) /\
       at_ d wu k = scaled (l_momentum l) u) /\
    (forall k, 0 <= k < l_n_biases l ->
       at_ d b k = limited (axpy (l_eta l) (at_ d (l_bias_updates l) k) (at_ d (l_biases l) k)) /\
       at_ d bu k = scaled (l_momentum l) (at_ d (l_bias_updates l) k)).
Proof.
  intros N1 N2 (L1 & L2 & L3 & L4 & L5) OPT ETA. unfold weights_update. fold Q. rewrite OPT, ETA. cbn [andb].
  destruct (blas_axpy_ok Q (l_n_biases l) (l_eta l) (l_bias_updates l) 1 (l_biases l) 0 1) as (b & E1 & SB1 & SB2 & SB3); [lia|lia|apply stride1; lia|apply stride1; lia|].
  rewrite E1. cbn [obind].
  destruct (blas_scal_ok Q (l_n_biases l) (l_momentum l) (l_bias_updates l) 1) as (bu & E2 & SU1 & SU2 & SU3); [lia|lia|apply stride1; lia|].
  rewrite E2. cbn [obind].
  set (uk := fun k => if a_lt A (a_Z A 0) (l_decay l) then axpy (nneg Q (l_decay l)) (at_ d (l_weights l) k) (at_ d (l_weight_updates l) k) else at_ d (l_weight_updates l) k).
  assert (DEC : exists wu, (if a_lt A (a_Z A 0) (l_decay l) then blas_axpy Q (l_n_weights l) (nneg Q (l_decay l)) (l_weights l) 1 (l_weight_updates l) 0 1 else Ok (l_weight_updates l)) = Ok wu /\
    len wu = l_n_weights l /\ forall k, 0 <= k < l_n_weights l -> at_ d wu k = uk k).
  { unfold uk. destruct (a_lt A (a_Z A 0) (l_decay l)).
    - destruct (blas_axpy_ok Q (l_n_weights l) (nneg Q (l_decay l)) (l_weights l) 1 (l_weight_updates l) 0 1) as (wu & E3 & S1 & S2 & S3); [lia|lia|apply stride1; lia|apply stride1; lia|].
      exists wu. split; [exact E3|]. split; [lia|]. intros k K. specialize (S2 k K). rewrite Z.mul_1_r in S2. exact S2.
    - exists (l_weight_updates l). auto. }
  destruct DEC as (wu & E3 & LU & HU). rewrite E3. cbn [obind].
  destruct (blas_axpy_ok Q (l_n_weights l) (l_eta l) wu 1 (l_weights l) 0 1) as (w & E4 & SW1 & SW2 & SW3); [lia|lia|apply stride1; lia|apply stride1; lia|].
  rewrite E4. cbn [obind].
  destruct (blas_scal_ok Q (l_n_weights l) (l_momentum l) wu 1) as (wu' & E5 & SV1 & SV2 & SV3); [lia|lia|apply stride1; lia|].
  rewrite E5. cbn [obind].
  destruct (weight_clamp_ok (set_biases b (set_bias_updates bu (set_weights w (set_weight_updates wu' l)))) N1 N2) as (w' & b' & E6 & LW & LB & HW & HB); [cbn; lia|exact L3|cbn; lia|].
  cbn [l_active l_weights l_biases l_n_weights l_n_biases set_biases set_bias_updates set_weights set_weight_updates] in *.
  exists w', wu', b', bu. split; [rewrite E6; reflexivity|]. split; [exact LW|]. split; [lia|]. split; [exact LB|]. split; [lia|]. split.
  - intros k K. cbv zeta. fold (uk k). rewrite HW by exact K. specialize (SW2 k K). specialize (SV2 k K). rewrite Z.mul_1_r in SW2, SV2.
    change (0 + k) with k in SW2, SV2. fold d in SW2, SV2. rewrite SW2, SV2. rewrite HU by exact K. split; reflexivity.
  - intros k K. rewrite HB by exact K. specialize (SB2 k K). specialize (SU2 k K). rewrite Z.mul_1_r in SB2, SU2.
    change (0 + k) with k in SB2, SU2. fold d in SB2, SU2. rewrite SB2, SU2. split; reflexivity.
Qed.
Lemma weights_update_off l : has l SGD_WEIGHTS && a_lt A (a_Z A 0) (l_eta l) = false -> weights_update A l = Ok l.
Proof. intros H. unfold weights_update. now rewrite H. Qed.
End Any.
