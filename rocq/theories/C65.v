(** * C65 The weight update is a limited gradient step. *)
From Coq Require Import ZArith Bool List Reals Lra Lia.
From Flocq Require Import Core BinarySingleNaN.
From Verif Require Import Outcome F64 F64Facts F64Bounds Rng RngFacts Sam SamFacts Arr ArrFacts Blas BlasFacts Exact Demo Act ActFacts Image Layer LayerFacts PropConn PoolFacts PropPool ConvFacts PropConv MutFacts FiltFacts UpdFacts PropMut PropUpd.
Import ListNotations.
Open Scope Z_scope.

(** Exact arithmetic. *)
Theorem C65 :
  forall l : layer R,
  l_type l = CONNECTED \/ l_type l = CONVOLUTIONAL ->
  0 <= l_n_weights l ->
  0 <= l_n_biases l ->
  weight_arrays l ->
  has l SGD_WEIGHTS = true ->
  (0 < l_eta l)%R ->
  (0 <= l_decay l)%R ->
  exists w wu b bu : list R,
    layer_update R_arith l =
    Ok (set_weights w (set_biases b (set_bias_updates bu (set_weight_updates wu l)))) /\
    len w = l_n_weights l /\
    len wu = l_n_weights l /\
    len b = l_n_biases l /\
    len bu = l_n_biases l /\
    (forall k : Z,
     0 <= k < l_n_weights l ->
     let u := (at_ 0 (l_weight_updates l) k - l_decay l * at_ 0 (l_weights l) k)%R in
     at_ 0%R w k = (if at_ false (l_active l) k then step (l_eta l) u (at_ 0%R (l_weights l) k) else 0%R) /\
     at_ 0%R wu k = (l_momentum l * u)%R) /\
    (forall k : Z,
     0 <= k < l_n_biases l ->
     at_ 0%R b k = step (l_eta l) (at_ 0%R (l_bias_updates l) k) (at_ 0%R (l_biases l) k) /\
     at_ 0%R bu k = (l_momentum l * at_ 0 (l_bias_updates l) k)%R).
Proof. exact @C65_lemma. Qed.
Print Assumptions C65.

(** Double precision, with the order of the operations; no weight that is a number is ever outside
    the limits afterwards. *)
Theorem C65_doubles :
  forall (lm : libm) (l : layer f64),
  l_type l = CONNECTED \/ l_type l = CONVOLUTIONAL ->
  0 <= l_n_weights l ->
  0 <= l_n_biases l ->
  weight_arrays l ->
  has l SGD_WEIGHTS = true ->
  flt f0 (l_eta l) = true ->
  exists w wu b bu : list f64,
    layer_update (f64_arith lm) l =
    Ok (set_weights w (set_biases b (set_bias_updates bu (set_weight_updates wu l)))) /\
    len w = l_n_weights l /\
    len wu = l_n_weights l /\
    len b = l_n_biases l /\
    len bu = l_n_biases l /\
    (forall k : Z,
     0 <= k < l_n_weights l ->
     let u :=
       if flt f0 (l_decay l)
       then faxpy (fneg (l_decay l)) (wf (l_weights l) k) (wf (l_weight_updates l) k)
       else wf (l_weight_updates l) k in
     wf w k =
     (if at_ false (l_active l) k
      then clamp (faxpy (l_eta l) u (wf (l_weights l) k)) (of_Z (-10)) (of_Z 10)
      else f0) /\ wf wu k = fscaled (l_momentum l) u) /\
    (forall k : Z,
     0 <= k < l_n_biases l ->
     wf b k = clamp (faxpy (l_eta l) (wf (l_bias_updates l) k) (wf (l_biases l) k)) (of_Z (-10)) (of_Z 10) /\
     wf bu k = fscaled (l_momentum l) (wf (l_bias_updates l) k)) /\
    (forall k : Z,
     0 <= k < l_n_weights l ->
     nn (wf w k) -> fle (of_Z (-10)) (wf w k) = true /\ fle (wf w k) (of_Z 10) = true).
Proof. exact @C65_doubles_lemma. Qed.
Print Assumptions C65_doubles.

(** Otherwise nothing changes. *)
Theorem C65_off :
  forall (T : Type) (A : arith T) (l : layer T),
  has l SGD_WEIGHTS = false \/
  a_lt A (a_Z A 0) (l_eta l) = false \/ l_type l <> CONNECTED /\ l_type l <> CONVOLUTIONAL ->
  layer_update A l = Ok l.
Proof. exact @C65_off_lemma. Qed.
Print Assumptions C65_off.

Definition C65_layer : layer f64 :=
  set_eta fhalf (set_momentum fhalf (set_decay fhalf (set_weight_updates (map of_Z [1; 2; 3; 60]) (set_weights (map of_Z [2; 4; 6; 8])
    (small_layer [true; false; true; true] (map of_Z [2; 0; 6; 8]) 2 (2 ^ SGD_WEIGHTS) 0 [])))))%Z.
Example C65_example : weight_arrays C65_layer /\ l_type C65_layer = CONNECTED /\ has C65_layer SGD_WEIGHTS = true /\ flt f0 (l_eta C65_layer) = true /\
  match layer_update (f64_arith demo_lm) C65_layer with
  | Ok l => map (fun x => to_int (fmul x (of_Z 4))) (l_weights l) = [Some 8; Some 0; Some 24; Some 40]%Z /\ map (fun x => to_int (fmul x (of_Z 4))) (l_weight_updates l) = [Some 0; Some 0; Some 0; Some 112]%Z
  | _ => False
  end.
Proof. split; [repeat split; reflexivity|]. split; [reflexivity|]. split; [reflexivity|]. split; [vm_compute; reflexivity|]. vm_compute. auto. Qed.
