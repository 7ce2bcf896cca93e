(** * C38 Losses are non-negative and vanish on perfect predictions. *)
From Coq Require Import ZArith Bool List Reals Lra.
From Flocq Require Import Core BinarySingleNaN.
From Verif Require Import Outcome F64 F64Facts F64Bounds Rng RngFacts Arr ArrFacts Pop Loss LossFacts.
Import ListNotations.
Open Scope Z_scope.

(** Every loss is defined for arrays of at least y_dim elements (no access outside them), whatever
    the values. *)
Theorem C38_defined :
  forall (lm : libm) (ydim : Z) (delta : f64) (type : Z) (pred y : list f64),
  1 <= ydim <= int_max ->
  ydim <= len pred ->
  ydim <= len y ->
  0 <= type <= 6 ->
  exists (f : list f64 -> list f64 -> outcome f64) (e : f64),
    loss_of lm ydim delta type = Some f /\ f pred y = Ok e /\ loss_fun lm ydim delta type pred y = e.
Proof. exact @loss_defined. Qed.
Print Assumptions C38_defined.

(** Absolute error, IEEE double precision, finite arguments: not NaN and not negative (it may
    overflow to +infinity); zero on a perfect prediction; if zero, no output is off by more than
    y_dim times the smallest positive double. *)
Theorem C38_mae :
  forall (ydim : Z) (pred y : list f64),
  1 <= ydim <= int_max ->
  ydim <= len pred ->
  ydim <= len y ->
  (forall i : Z, 0 <= i < ydim -> is_finite (at_ f0 pred i) = true) ->
  (forall i : Z, 0 <= i < ydim -> is_finite (at_ f0 y i) = true) ->
  exists e : f64,
    loss_mae ydim pred y = Ok e /\
    fpos e /\
    ((forall i : Z, 0 <= i < ydim -> B2R (at_ f0 y i) = B2R (at_ f0 pred i)) -> X e = 0%R) /\
    (X e = 0%R ->
     forall i : Z,
     0 <= i < ydim -> (Rabs (B2R (at_ f0 y i) - B2R (at_ f0 pred i)) < IZR ydim * bpow radix2 (-1074))%R).
Proof. exact @mae_lemma. Qed.
Print Assumptions C38_mae.

(** With one output it is zero exactly on a perfect prediction. *)
Theorem C38_mae_one :
  forall pred y : list f64,
  1 <= len pred ->
  1 <= len y ->
  is_finite (at_ f0 pred 0) = true ->
  is_finite (at_ f0 y 0) = true ->
  exists e : f64,
    loss_mae 1 pred y = Ok e /\ fpos e /\ (X e = 0%R <-> B2R (at_ f0 y 0) = B2R (at_ f0 pred 0)).
Proof. exact @mae_one. Qed.
Print Assumptions C38_mae_one.

(** Squared error: the same; if zero, no output is off by 2^-521 or more. *)
Theorem C38_mse :
  forall (ydim : Z) (pred y : list f64),
  1 <= ydim <= int_max ->
  ydim <= len pred ->
  ydim <= len y ->
  (forall i : Z, 0 <= i < ydim -> is_finite (at_ f0 pred i) = true) ->
  (forall i : Z, 0 <= i < ydim -> is_finite (at_ f0 y i) = true) ->
  exists e : f64,
    loss_mse ydim pred y = Ok e /\
    fpos e /\
    ((forall i : Z, 0 <= i < ydim -> B2R (at_ f0 y i) = B2R (at_ f0 pred i)) -> X e = 0%R) /\
    (X e = 0%R ->
     forall i : Z, 0 <= i < ydim -> (Rabs (B2R (at_ f0 y i) - B2R (at_ f0 pred i)) < bpow radix2 (-521))%R).
Proof. exact @mse_lemma. Qed.
Print Assumptions C38_mse.

(** Its square root. *)
Theorem C38_rmse :
  forall (ydim : Z) (pred y : list f64),
  1 <= ydim <= int_max ->
  ydim <= len pred ->
  ydim <= len y ->
  (forall i : Z, 0 <= i < ydim -> is_finite (at_ f0 pred i) = true) ->
  (forall i : Z, 0 <= i < ydim -> is_finite (at_ f0 y i) = true) ->
  exists e : f64,
    loss_rmse ydim pred y = Ok e /\
    fpos e /\
    ((forall i : Z, 0 <= i < ydim -> B2R (at_ f0 y i) = B2R (at_ f0 pred i)) -> X e = 0%R) /\
    (X e = 0%R ->
     forall i : Z, 0 <= i < ydim -> (Rabs (B2R (at_ f0 y i) - B2R (at_ f0 pred i)) < bpow radix2 (-521))%R).
Proof. exact @rmse_lemma. Qed.
Print Assumptions C38_rmse.

(** Huber loss with a positive threshold (or threshold zero and differences that do not overflow).
    *)
Theorem C38_huber :
  forall (ydim : Z) (delta : f64) (pred y : list f64),
  1 <= ydim <= int_max ->
  ydim <= len pred ->
  ydim <= len y ->
  (forall i : Z, 0 <= i < ydim -> is_finite (at_ f0 pred i) = true) ->
  (forall i : Z, 0 <= i < ydim -> is_finite (at_ f0 y i) = true) ->
  is_finite delta = true ->
  (0 <= B2R delta)%R ->
  (0 < B2R delta)%R \/
  (forall i : Z, 0 <= i < ydim -> is_finite (fsub (at_ f0 y i) (at_ f0 pred i)) = true) ->
  exists e : f64,
    loss_huber ydim delta pred y = Ok e /\
    fpos e /\ ((forall i : Z, 0 <= i < ydim -> B2R (at_ f0 y i) = B2R (at_ f0 pred i)) -> X e = 0%R).
Proof. exact @huber_lemma. Qed.
Print Assumptions C38_huber.

(** Logarithmic loss, for non-negative targets and predictions up to 1, given that log is finite and
    not positive on [epsilon, 1] and log 1 = 0: not negative, and zero if the target weight is all
    on outputs predicted as 1. *)
Theorem C38_log :
  forall (lm : libm) (ydim : Z) (pred y : list f64),
  1 <= ydim <= int_max ->
  ydim <= len pred ->
  ydim <= len y ->
  (forall i : Z, 0 <= i < ydim -> is_finite (at_ f0 pred i) = true) ->
  (forall i : Z, 0 <= i < ydim -> is_finite (at_ f0 y i) = true) ->
  log_ok lm ->
  (forall i : Z, 0 <= i < ydim -> (0 <= B2R (at_ f0 y i))%R) ->
  (forall i : Z, 0 <= i < ydim -> (B2R (at_ f0 pred i) <= 1)%R) ->
  exists e : f64,
    loss_log lm ydim pred y = Ok e /\
    fpos e /\
    ((forall i : Z, 0 <= i < ydim -> B2R (at_ f0 y i) = 0%R \/ B2R (at_ f0 pred i) = 1%R) -> X e = 0%R).
Proof. exact @log_lemma. Qed.
Print Assumptions C38_log.

(** Binary logarithmic loss, targets and predictions in [0,1]: not negative, and zero on a perfect
    prediction of 0/1 targets. *)
Theorem C38_binary_log :
  forall (lm : libm) (ydim : Z) (pred y : list f64),
  1 <= ydim <= int_max ->
  ydim <= len pred ->
  ydim <= len y ->
  (forall i : Z, 0 <= i < ydim -> is_finite (at_ f0 pred i) = true) ->
  (forall i : Z, 0 <= i < ydim -> is_finite (at_ f0 y i) = true) ->
  log_ok lm ->
  (forall i : Z, 0 <= i < ydim -> (0 <= B2R (at_ f0 y i) <= 1)%R) ->
  (forall i : Z, 0 <= i < ydim -> (0 <= B2R (at_ f0 pred i) <= 1)%R) ->
  exists e : f64,
    loss_binary_log lm ydim pred y = Ok e /\
    fpos e /\
    ((forall i : Z,
      0 <= i < ydim ->
      B2R (at_ f0 y i) = B2R (at_ f0 pred i) /\ (B2R (at_ f0 y i) = 0%R \/ B2R (at_ f0 y i) = 1%R)) ->
     X e = 0%R).
Proof. exact @binary_log_lemma. Qed.
Print Assumptions C38_binary_log.

(** One-hot error for a one-hot target t: 0 if the first largest prediction is at t, else 1; zero on
    a perfect prediction. *)
Theorem C38_onehot :
  forall (ydim : Z) (pred y : list f64),
  1 <= ydim <= int_max ->
  ydim <= len pred ->
  ydim <= len y ->
  (forall i : Z, 0 <= i < ydim -> is_finite (at_ f0 pred i) = true) ->
  (forall i : Z, 0 <= i < ydim -> is_finite (at_ f0 y i) = true) ->
  forall t : Z,
  0 <= t < ydim ->
  (forall i : Z, 0 <= i < ydim -> B2R (at_ f0 y i) = (if i =? t then 1%R else 0%R)) ->
  exists (e : f64) (m : Z),
    loss_onehot ydim pred y = Ok e /\
    argmax pred ydim = Ok m /\
    0 <= m < ydim /\
    (forall i : Z, 0 <= i < ydim -> (B2R (at_ f0 pred i) <= B2R (at_ f0 pred m))%R) /\
    (forall i : Z, 0 <= i < m -> (B2R (at_ f0 pred i) < B2R (at_ f0 pred m))%R) /\
    e = (if m =? t then f0 else f1) /\
    ((forall i : Z, 0 <= i < ydim -> B2R (at_ f0 y i) = B2R (at_ f0 pred i)) -> e = f0).
Proof. exact @onehot_lemma. Qed.
Print Assumptions C38_onehot.

(** REFUTED in double precision: squared and absolute errors can vanish by underflow on wrong
    predictions, and the Huber loss with threshold 0 (accepted by the setter) can be NaN. *)
Theorem C38_refuted :
  (exists y : f64,
     is_finite y = true /\ flt f0 y = true /\ loss_mse 1 [f0] [y] = Ok f0 /\ loss_rmse 1 [f0] [y] = Ok f0) /\
  (exists y : f64,
     is_finite y = true /\ flt f0 y = true /\ loss_mae 2 [f0; f0] [y; f0] = Ok f0) /\
  (exists p y : f64,
     is_finite p = true /\ is_finite y = true /\ loss_huber 1 f0 [p] [y] = Ok fnan).
Proof. exact @C38_refuted_lemma. Qed.
Print Assumptions C38_refuted.

(** REFUTED for the logarithmic loss: negative for a prediction of 4 (log 4 > 1), positive for the
    perfect prediction of 1/2 (log 1/2 < -1/2). *)
Theorem C38_refuted_log :
  forall lm : libm,
  (is_finite (m_log lm (of_Z 4)) = true ->
   (1 < B2R (m_log lm (of_Z 4)))%R -> exists e : f64, loss_log lm 1 [of_Z 4] [f1] = Ok e /\ (X e < 0)%R) /\
  (is_finite (m_log lm fhalf) = true ->
   (B2R (m_log lm fhalf) < - / 2)%R -> exists e : f64, loss_log lm 1 [fhalf] [fhalf] = Ok e /\ (0 < X e)%R).
Proof. exact @C38_refuted_log_lemma. Qed.
Print Assumptions C38_refuted_log.

(** Target (1, -2, 1/2), prediction (0, 1, 1/2): absolute error 4/3, squared error 10/3, Huber loss with
    threshold 1 is (1/2 + 5/2) / 3 = 1; one-hot error 1 for the target (1, 0, 0) and 0 for (0, 1, 0). *)
Definition p3 : list f64 := [f0; f1; fhalf].
Definition y3 : list f64 := [f1; of_Z (-2); fhalf].
Definition is (o : outcome f64) (v : f64) : bool := match o with Ok e => feq e v | _ => false end.
Example C38_example :
  is (loss_mae 3 p3 y3) (fdiv (of_Z 4) (of_Z 3)) && is (loss_mse 3 p3 y3) (fdiv (of_Z 10) (of_Z 3)) &&
  is (loss_huber 3 f1 p3 y3) f1 && is (loss_onehot 3 p3 [f1; f0; f0]) f1 && is (loss_onehot 3 p3 [f0; f1; f0]) f0 &&
  is (loss_mae 3 p3 p3) f0 && is (loss_rmse 3 p3 p3) f0 = true.
Proof. vm_compute. reflexivity. Qed.
(** A logarithm meeting the assumption. *)
Definition log3 : libm := mkLibm (fun _ => f1) (fun x => if feq x f1 then f0 else fneg f1) (fun _ => f0) (fun _ => f0) (fun _ => f0) (fun _ _ => f1) (fun _ => f0) (fun _ => f0).
Example C38_example_log : log_ok log3 /\ is (loss_log log3 3 p3 [f1; f0; f0]) f1 && is (loss_log log3 3 [f0; f1; f0] [f0; f1; f0]) f0 &&
  is (loss_binary_log log3 3 p3 [f0; f1; f1]) f1 = true.
Proof.
  split; [|vm_compute; reflexivity]. intros x F H. cbn [log3 m_log]. destruct (feq x f1) eqn:Q.
  - split; [reflexivity|]. rewrite f0_R. split; [apply Rle_refl|reflexivity].
  - split; [reflexivity|]. split.
    + change (B2R (fneg f1)) with (B2R (Bopp f1)). rewrite B2R_Bopp, f1_R. lra.
    + intros E. exfalso. assert (G : feq x f1 = true); [|congruence]. apply feq_X; [apply fin_nn, F|apply nn_f1|]. rewrite X_finite, X_f1 by exact F. exact E.
Qed.
