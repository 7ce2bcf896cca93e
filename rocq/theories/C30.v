(** * C30 Linear predictions are the inner product and NLMS moves towards the target. *)
From Coq Require Import ZArith Bool List Reals.
From Flocq Require Import Core BinarySingleNaN.
From Verif Require Import Outcome F64 F64Facts Rng RngFacts Arr ArrFacts Sam SamFacts Pop PopSpec Blas BlasFacts Pred PredFacts Exact Cond RectFacts Comp CompFacts PropPred Demo.
Import ListNotations.
Open Scope Z_scope.

(** Linear, exact arithmetic: computing and updating succeed for any weights, inputs and targets;
    the prediction is the inner product; the error on the same input is multiplied by 1 - eta, so it
    strictly decreases for eta in (0,2). *)
Theorem C30_linear :
  forall (x0 eta : R) (x y : list R) (ydim : Z) (w tmp p0 : list R),
  let n := len x + 1 in
  len tmp = n ->
  0 <= ydim ->
  len y = ydim ->
  len p0 = ydim ->
  len w = n * ydim ->
  (x0 * x0 + norm2 x)%R <> 0%R ->
  exists f p w' p' : list R,
    transform_input R_num (len x) false x x0 tmp = Ok f /\
    inner_products R_num ydim n w f p0 = Ok p /\
    nlms_weights R_num (len x) ydim n x0 eta x y p f w = Ok w' /\
    inner_products R_num ydim n w' f p = Ok p' /\
    len w' = len w /\
    (forall i : Z,
     0 <= i < ydim ->
     at_ 0%R p i =
     (at_ 0 w (i * n) * x0 + rsum (len x) (fun k : Z => at_ 0 w (i * n + 1 + k) * at_ 0 x k))%R) /\
    (forall i : Z, 0 <= i < ydim -> (at_ 0 y i - at_ 0 p' i)%R = ((1 - eta) * (at_ 0 y i - at_ 0 p i))%R) /\
    ((0 < eta < 2)%R ->
     forall i : Z,
     0 <= i < ydim ->
     at_ 0%R p i <> at_ 0%R y i -> (Rabs (at_ 0 y i - at_ 0 p' i) < Rabs (at_ 0 y i - at_ 0 p i))%R).
Proof. exact @C30_linear_lemma. Qed.
Print Assumptions C30_linear.

(** REFUTED for quadratic features: the step is divided by the norm of the input, not of the
    features, so the error can grow (here more than eightfold with eta = 1/10). *)
Theorem C30_refuted :
  exists (x0 eta : R) (x y w f p w' p' : list R),
    (0 < eta < 2)%R /\
    len x = 1 /\
    transform_input R_num 1 true x x0 [0%R; 0%R; 0%R] = Ok f /\
    inner_products R_num 1 3 w f [0%R] = Ok p /\
    nlms_weights R_num 1 1 3 x0 eta x y p f w = Ok w' /\
    inner_products R_num 1 3 w' f p = Ok p' /\
    (8 * Rabs (at_ 0 y 0 - at_ 0 p 0) < Rabs (at_ 0 y 0 - at_ 0 p' 0))%R.
Proof. exact @C30_refuted_lemma. Qed.
Print Assumptions C30_refuted.

(** What holds for quadratic features: the error is multiplied by 1 - eta * (1 + |products|^2 /
    (x0^2 + |x|^2)), so it decreases when that product is below 2. *)
Theorem C30_quadratic :
  forall (x0 eta : R) (x y : list R) (ydim : Z) (w tmp p0 : list R),
  let n := n_features (len x) true in
  len tmp = n ->
  0 <= ydim ->
  len y = ydim ->
  len p0 = ydim ->
  len w = n * ydim ->
  (0 < x0 * x0 + norm2 x)%R ->
  exists f p w' p' : list R,
    transform_input R_num (len x) true x x0 tmp = Ok f /\
    inner_products R_num ydim n w f p0 = Ok p /\
    nlms_weights R_num (len x) ydim n x0 eta x y p f w = Ok w' /\
    inner_products R_num ydim n w' f p = Ok p' /\
    len w' = len w /\
    (forall i : Z,
     0 <= i < ydim -> at_ 0%R p i = rsum n (fun k : Z => (at_ 0 w (i * n + k) * at_ 0 f k)%R)) /\
    (forall i : Z,
     0 <= i < ydim ->
     (at_ 0 y i - at_ 0 p' i)%R =
     ((1 - eta * (1 + norm2 (pairs R_num x) / (x0 * x0 + norm2 x))) * (at_ 0 y i - at_ 0 p i))%R) /\
    ((0 < eta)%R ->
     (eta * (1 + norm2 (pairs R_num x) / (x0 * x0 + norm2 x)) < 2)%R ->
     forall i : Z,
     0 <= i < ydim ->
     at_ 0%R p i <> at_ 0%R y i -> (Rabs (at_ 0 y i - at_ 0 p' i) < Rabs (at_ 0 y i - at_ 0 p i))%R).
Proof. exact @C30_quadratic_lemma. Qed.
Print Assumptions C30_quadratic.

(** The code in double precision: predicting succeeds, changes only the feature buffer, and
    evaluates weights times features left to right ([predicted], PredFacts). *)
Theorem C30_compute :
  forall (K : cfg) (R : ppar),
  1 <= x_dim K ->
  1 <= y_dim K ->
  pp_type R = PRED_TYPE_NLMS_LINEAR \/ pp_type R = PRED_TYPE_NLMS_QUADRATIC ->
  forall (c : nlms) (v x : list f64),
  wf_nlms K R c ->
  len v = y_dim K ->
  len x = x_dim K ->
  exists (c' : nlms) (v' : list f64),
    nlms_compute K R c v x = Ok (c', v') /\
    wf_nlms K R c' /\
    len v' = y_dim K /\
    nl_weights c' = nl_weights c /\
    nl_mu c' = nl_mu c /\
    nl_eta c' = nl_eta c /\
    nl_tmp c' = features f64_num (pp_type R =? PRED_TYPE_NLMS_QUADRATIC) (pp_x0 R) x /\
    (forall i : Z,
     0 <= i < y_dim K ->
     at_ f0 v' i =
     predicted f64_num (n_features (x_dim K) (pp_type R =? PRED_TYPE_NLMS_QUADRATIC)) 
       (nl_weights c) (features f64_num (pp_type R =? PRED_TYPE_NLMS_QUADRATIC) (pp_x0 R) x) i).
Proof. exact @nlms_compute_ok. Qed.
Print Assumptions C30_compute.

(** Updating succeeds and changes only the weights; each one by the step times its feature ([axpy1],
    BlasFacts; [nlms_step], PredFacts). *)
Theorem C30_update :
  forall (K : cfg) (R : ppar),
  1 <= x_dim K ->
  1 <= y_dim K ->
  forall (c : nlms) (v x y : list f64),
  wf_nlms K R c ->
  len v = y_dim K ->
  len x = x_dim K ->
  len y = y_dim K ->
  exists c' : nlms,
    nlms_update K R c v x y = Ok c' /\
    wf_nlms K R c' /\
    nl_mu c' = nl_mu c /\
    nl_eta c' = nl_eta c /\
    nl_tmp c' = nl_tmp c /\
    (forall i k : Z,
     0 <= i < y_dim K ->
     0 <= k < nl_n c ->
     at_ f0 (nl_weights c') (i * nl_n c + k) =
     axpy1 f64_num (nlms_step f64_num (pp_x0 R) (nl_eta c) x y v i) (at_ f0 (nl_tmp c) k)
       (at_ f0 (nl_weights c) (i * nl_n c + k))).
Proof. exact @nlms_update_ok. Qed.
Print Assumptions C30_update.

(** Hypotheses for one input 3, offset 1. *)
Example C30_example_hyp : (1 * 1 + norm2 [3] <> 0)%R.
Proof. rewrite norm2_cons. change (norm2 []) with 0%R. intros E. apply (f_equal (fun r => r * 1)%R) in E. revert E. replace ((1 * 1 + (3 * 3 + 0)) * 1)%R with 10%R by ring. rewrite Rmult_0_l. apply IZR_neq. discriminate. Qed.
(** The same code on doubles: input 3, offset 1, target 20, rate 1/2 (then 1): the prediction goes from 0 to 10 (20). *)
Example C30_example :
  map (fun eta => match (f <- transform_input f64_num 1 false [of_Z 3] f1 [f0; f0] ;;
     p <- inner_products f64_num 1 2 [f0; f0] f [f0] ;;
     w <- nlms_weights f64_num 1 1 2 f1 eta [of_Z 3] [of_Z 20] p f [f0; f0] ;;
     p' <- inner_products f64_num 1 2 w f p ;; Ok (map to_int w ++ map to_int p'))%out with Ok l => l | _ => [] end) [fhalf; f1] =
  [map Some [1; 3; 10]; map Some [2; 6; 20]].
Proof. vm_compute. reflexivity. Qed.
