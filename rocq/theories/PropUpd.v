(** * C65: the gradient-descent step. *)
From Coq Require Import ZArith Bool List Reals Lra Lia.
From Verif Require Import Outcome F64 F64Facts Rng Arr ArrFacts Blas BlasFacts Exact Clock Dgp Act ActFacts Image Layer LayerFacts UpdFacts PropConn.
Import ListNotations.
Open Scope R_scope.

Notation w0 := (at_ 0%R).
Definition step (eta u w : R) : R := Rmax (-10) (Rmin 10 (w + eta * u)).

Lemma limited_R x : limited R_arith x = Rmax (-10) (Rmin 10 x).
Proof.
  change (limited R_arith x) with (if rltb x (-10) then -10 else if rltb 10 x then 10 else x). unfold rltb.
  destruct (Rlt_dec x (-10)); [rewrite Rmin_right by lra; rewrite Rmax_left by lra; reflexivity|].
  destruct (Rlt_dec 10 x); [rewrite Rmin_left by lra; rewrite Rmax_right by lra; reflexivity|].
  rewrite Rmin_right by lra. rewrite Rmax_right by lra. reflexivity.
Qed.
Lemma axpy_R a x y : axpy R_arith a x y = y + a * x.
Proof. unfold axpy. cbn [a_num R_arith nadd nne n1 nmul R_num]. destruct (Req_EM_T a 1) as [->|]; lra. Qed.
Lemma scaled_R a x : scaled R_arith a x = a * x.
Proof. unfold scaled. cbn [a_num R_arith nne n0 nmul R_num]. destruct (Req_EM_T a 0) as [->|]; lra. Qed.

Lemma C65_lemma (l : layer R) :
  l_type l = CONNECTED \/ l_type l = CONVOLUTIONAL ->
  (0 <= l_n_weights l)%Z -> (0 <= l_n_biases l)%Z -> weight_arrays l -> has l SGD_WEIGHTS = true -> 0 < l_eta l -> 0 <= l_decay l ->
  exists w wu b bu, layer_update R_arith l = Ok (set_weights w (set_biases b (set_bias_updates bu (set_weight_updates wu l)))) /\
    len w = l_n_weights l /\ len wu = l_n_weights l /\ len b = l_n_biases l /\ len bu = l_n_biases l /\
    (forall k, (0 <= k < l_n_weights l)%Z ->
       let u := w0 (l_weight_updates l) k - l_decay l * w0 (l_weights l) k in
       w0 w k = (if at_ false (l_active l) k then step (l_eta l) u (w0 (l_weights l) k) else 0) /\ w0 wu k = l_momentum l * u) /\
    (forall k, (0 <= k < l_n_biases l)%Z ->
       w0 b k = step (l_eta l) (w0 (l_bias_updates l) k) (w0 (l_biases l) k) /\ w0 bu k = l_momentum l * w0 (l_bias_updates l) k).
Proof.
  intros TY N1 N2 W OPT ETA DE. assert (E0 : a_lt R_arith (a_Z R_arith 0) (l_eta l) = true) by (apply rltb_true; exact ETA).
  destruct (weights_update_ok R_arith l N1 N2 W OPT E0) as (w & wu & b & bu & U & L1 & L2 & L3 & L4 & HW & HB).
  exists w, wu, b, bu. split. { unfold layer_update. destruct TY as [-> | ->]; exact U. }
  split; [exact L1|]. split; [exact L2|]. split; [exact L3|]. split; [exact L4|]. split.
  - intros k K. destruct (HW k K) as (H1 & H2). cbv zeta in *. clear HW HB. change (n0 (a_num R_arith)) with 0 in *.
    assert (EU : (if a_lt R_arith (a_Z R_arith 0) (l_decay l) then axpy R_arith (nneg (a_num R_arith) (l_decay l)) (w0 (l_weights l) k) (w0 (l_weight_updates l) k) else w0 (l_weight_updates l) k)
      = w0 (l_weight_updates l) k - l_decay l * w0 (l_weights l) k).
    { rewrite axpy_R. change (a_lt R_arith (a_Z R_arith 0) (l_decay l)) with (rltb 0 (l_decay l)). unfold rltb. destruct (Rlt_dec 0 (l_decay l)) as [P|P].
      + cbn [nneg a_num R_arith R_num]. ring.
      + replace (l_decay l) with 0 by lra. ring. }
    rewrite EU in H1, H2. rewrite limited_R, axpy_R in H1. rewrite scaled_R in H2. split; [exact H1|exact H2].
  - intros k K. destruct (HB k K) as (H1 & H2). rewrite limited_R, axpy_R, scaled_R in *. split; [exact H1|exact H2].
Qed.

Lemma C65_off_lemma {T} (A : arith T) (l : layer T) :
  has l SGD_WEIGHTS = false \/ a_lt A (a_Z A 0) (l_eta l) = false \/ (l_type l <> CONNECTED /\ l_type l <> CONVOLUTIONAL) -> layer_update A l = Ok l.
Proof.
  intros H. unfold layer_update. destruct ((l_type l =? CONNECTED)%Z || (l_type l =? CONVOLUTIONAL)%Z) eqn:E; [|reflexivity].
  destruct H as [H|[H|(H1 & H2)]].
  - apply weights_update_off. rewrite H. reflexivity.
  - apply weights_update_off. rewrite H. apply andb_false_r.
  - apply orb_prop in E. destruct E as [E|E]; apply Z.eqb_eq in E; contradiction.
Qed.

(** In doubles, with the order of the operations. *)
Notation wf := (at_ f0).
Definition faxpy (a x y : f64) : f64 := fadd y (if negb (feq a f1) then fmul a x else x).
Definition fscaled (a x : f64) : f64 := if negb (feq a f0) then fmul x a else f0.
Lemma C65_doubles_lemma (lm : libm) (l : layer f64) :
  l_type l = CONNECTED \/ l_type l = CONVOLUTIONAL ->
  (0 <= l_n_weights l)%Z -> (0 <= l_n_biases l)%Z -> weight_arrays l -> has l SGD_WEIGHTS = true -> flt f0 (l_eta l) = true ->
  exists w wu b bu, layer_update (f64_arith lm) l = Ok (set_weights w (set_biases b (set_bias_updates bu (set_weight_updates wu l)))) /\
    len w = l_n_weights l /\ len wu = l_n_weights l /\ len b = l_n_biases l /\ len bu = l_n_biases l /\
    (forall k, (0 <= k < l_n_weights l)%Z ->
       let u := if flt f0 (l_decay l) then faxpy (fneg (l_decay l)) (wf (l_weights l) k) (wf (l_weight_updates l) k) else wf (l_weight_updates l) k in
       wf w k = (if at_ false (l_active l) k then clamp (faxpy (l_eta l) u (wf (l_weights l) k)) (of_Z (-10)) (of_Z 10) else f0) /\ wf wu k = fscaled (l_momentum l) u) /\
    (forall k, (0 <= k < l_n_biases l)%Z ->
       wf b k = clamp (faxpy (l_eta l) (wf (l_bias_updates l) k) (wf (l_biases l) k)) (of_Z (-10)) (of_Z 10) /\ wf bu k = fscaled (l_momentum l) (wf (l_bias_updates l) k)) /\
    (forall k, (0 <= k < l_n_weights l)%Z -> nn (wf w k) -> fle (of_Z (-10)) (wf w k) = true /\ fle (wf w k) (of_Z 10) = true).
Proof.
  intros TY N1 N2 W OPT ETA. destruct (weights_update_ok (f64_arith lm) l N1 N2 W OPT ETA) as (w & wu & b & bu & U & L1 & L2 & L3 & L4 & HW & HB).
  exists w, wu, b, bu. split. { unfold layer_update. destruct TY as [-> | ->]; exact U. }
  split; [exact L1|]. split; [exact L2|]. split; [exact L3|]. split; [exact L4|]. split; [exact HW|]. split; [exact HB|].
  intros k K NN. destruct (HW k K) as (H1 & _). cbv zeta in H1. change (n0 (a_num (f64_arith lm))) with f0 in H1. revert NN. rewrite H1. clear. intros NN.
  destruct (at_ false (l_active l) k); [|split; vm_compute; reflexivity]. revert NN. set (x := axpy _ _ _ _). clearbody x.
  change (limited (f64_arith lm) x) with (if flt x (of_Z (-10)) then of_Z (-10) else if flt (of_Z 10) x then of_Z 10 else x).
  destruct (flt x (of_Z (-10))) eqn:E1; [split; vm_compute; reflexivity|]. destruct (flt (of_Z 10) x) eqn:E2; [split; vm_compute; reflexivity|].
  intros NN. assert (N : nn x) by exact NN. split; apply flt_false_fle; auto; apply nn_of_Z.
Qed.
