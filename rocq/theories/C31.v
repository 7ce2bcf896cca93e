(** * C31 RLS update contracts the error and keeps its gain matrix sound. *)
From Coq Require Import ZArith Bool List Reals.
From Flocq Require Import Core BinarySingleNaN.
From Verif Require Import Outcome F64 F64Facts Rng RngFacts Arr ArrFacts Sam SamFacts Pop PopSpec Blas BlasFacts Pred PredFacts Exact Cond RectFacts Comp CompFacts PropPred Demo.
Import ListNotations.
Open Scope Z_scope.

(** One update in exact arithmetic: always succeeds, multiplies the error on the same input by
    lambda / (lambda + f'Pf), gives the gain matrix (P - Pf f'P / (lambda + f'Pf)) / lambda, which
    stays symmetric and positive semidefinite. ([Pf], [fPf], Exact; f are the features.) *)
Theorem C31_step :
  forall (quad : bool) (x0 lambda : R) (x y : list R) (ydim : Z) (w P tmp v0 a0 b0 p0 : list R),
  let n := n_features (len x) quad in
  len tmp = n ->
  0 <= ydim ->
  len y = ydim ->
  len p0 = ydim ->
  len w = n * ydim ->
  len P = n * n ->
  len v0 = n ->
  len a0 = n * n ->
  len b0 = n * n ->
  (0 < lambda)%R ->
  symmetric n P ->
  psd n P ->
  exists (f p w' P' : list R) (t : list R * list R * list R) (p' : list R),
    transform_input R_num (len x) quad x x0 tmp = Ok f /\
    inner_products R_num ydim n w f p0 = Ok p /\
    rls_update R_num ydim n lambda y p f v0 a0 b0 w P = Ok (w', P', t) /\
    inner_products R_num ydim n w' f p = Ok p' /\
    len w' = len w /\
    len P' = len P /\
    (forall i : Z,
     0 <= i < ydim -> at_ 0%R p i = rsum n (fun k : Z => (at_ 0 w (i * n + k) * at_ 0 f k)%R)) /\
    (forall i : Z,
     0 <= i < ydim ->
     (at_ 0 y i - at_ 0 p' i)%R = (lambda / (lambda + fPf n f P) * (at_ 0 y i - at_ 0 p i))%R) /\
    (forall i j : Z,
     0 <= i < n ->
     0 <= j < n ->
     at_ 0%R P' (i * n + j) =
     ((at_ 0 P (i * n + j) - Pf n f P i * Pf n f P j / (lambda + fPf n f P)) / lambda)%R) /\
    symmetric n P' /\ psd n P'.
Proof. exact @rls_step_exact. Qed.
Print Assumptions C31_step.

(** Any number of prediction and update steps succeed and keep the gain matrix symmetric and
    positive semidefinite. *)
Theorem C31_run :
  forall (xdim ydim : Z) (quad : bool) (x0 lambda : R),
  0 <= ydim ->
  (0 < lambda)%R ->
  forall (d : list (list R * list R)) (s : list R * list R * list R * list R * list R * list R * list R),
  let n := n_features xdim quad in
  sized ydim n s ->
  (let '(_, P, _, _, _, _, _) := s in symmetric n P /\ psd n P) ->
  Forall (fun r : list R * list R => len (fst r) = xdim /\ len (snd r) = ydim) d ->
  exists s' : list R * list R * list R * list R * list R * list R * list R,
    rls_run xdim ydim n quad x0 lambda d s = Ok s' /\
    sized ydim n s' /\ (let '(_, P, _, _, _, _, _) := s' in symmetric n P /\ psd n P).
Proof. exact @C31_run_lemma. Qed.
Print Assumptions C31_run.

(** The initial gain matrix is so. *)
Theorem C31_init :
  forall (n : Z) (scale : R),
  0 <= n ->
  (0 <= scale)%R ->
  exists P : list R, init_matrix R_num n scale = Ok P /\ len P = n * n /\ symmetric n P /\ psd n P.
Proof. exact @C31_init_lemma. Qed.
Print Assumptions C31_init.

(** The code in double precision: predicting changes only the feature buffer. *)
Theorem C31_compute :
  forall (K : cfg) (R : ppar),
  1 <= x_dim K ->
  1 <= y_dim K ->
  pp_type R = PRED_TYPE_RLS_LINEAR \/ pp_type R = PRED_TYPE_RLS_QUADRATIC ->
  forall (c : rls) (v x : list f64),
  wf_rls K R c ->
  len v = y_dim K ->
  len x = x_dim K ->
  exists (c' : rls) (v' : list f64),
    rls_compute K R c v x = Ok (c', v') /\
    wf_rls K R c' /\
    len v' = y_dim K /\
    rl_weights c' = rl_weights c /\
    rl_matrix c' = rl_matrix c /\
    rl_tmp c' = features f64_num (pp_type R =? PRED_TYPE_RLS_QUADRATIC) (pp_x0 R) x /\
    rl_vec c' = rl_vec c /\
    rl_mat1 c' = rl_mat1 c /\
    rl_mat2 c' = rl_mat2 c /\
    (forall i : Z,
     0 <= i < y_dim K ->
     at_ f0 v' i =
     predicted f64_num (n_features (x_dim K) (pp_type R =? PRED_TYPE_RLS_QUADRATIC)) 
       (rl_weights c) (features f64_num (pp_type R =? PRED_TYPE_RLS_QUADRATIC) (pp_x0 R) x) i).
Proof. exact @rls_compute_ok. Qed.
Print Assumptions C31_compute.

(** Updating always succeeds; [rls_result] (PredFacts) gives every entry of the new weights, gain
    matrix and temporary arrays as a sequence of double operations. *)
Theorem C31_update :
  forall (K : cfg) (R : ppar),
  1 <= x_dim K ->
  1 <= y_dim K ->
  forall (c : rls) (v y : list f64),
  wf_rls K R c ->
  len v = y_dim K ->
  len y = y_dim K ->
  exists c' : rls,
    rls_upd K R c v y = Ok c' /\
    wf_rls K R c' /\
    rl_tmp c' = rl_tmp c /\
    rls_result f64_num (y_dim K) (rl_n c) (pp_lambda R) y v (rl_tmp c) (rl_vec c) 
      (rl_mat1 c) (rl_mat2 c) (rl_weights c) (rl_matrix c) (rl_weights c') (rl_matrix c') 
      (rl_vec c') (rl_mat1 c') (rl_mat2 c').
Proof. exact @rls_upd_ok. Qed.
Print Assumptions C31_update.

(** The identity is symmetric and positive semidefinite. *)
Example C31_example_hyp : symmetric 2 [1; 0; 0; 1]%R /\ psd 2 [1; 0; 0; 1]%R /\ len [1; 0; 0; 1]%R = 2 * 2.
Proof.
  destruct (C31_init 2 1%R) as (P & E & L & S & D); [discriminate|apply Rlt_le, Rlt_0_1|].
  assert (EP : init_matrix R_num 2 1%R = Ok [1; 0; 0; 1]%R) by reflexivity. rewrite EP in E. injection E as <-. split; [exact S|split; [exact D|reflexivity]].
Qed.
(** The same code on doubles: features (1, 1), identity gain, forgetting factor 2, target 8: f'Pf = 2, so the error 8 is halved; the new
    gain matrix is (I - ff'/4)/2. *)
Example C31_example :
  match (f <- transform_input f64_num 1 false [f1] f1 [f0; f0] ;;
     p <- inner_products f64_num 1 2 [f0; f0] f [f0] ;;
     u <- rls_update f64_num 1 2 f2 [of_Z 8] p f [f0; f0] (repeat f0 4) (repeat f0 4) [f0; f0] [f1; f0; f0; f1] ;;
     let '(w, P, _) := u in
     p' <- inner_products f64_num 1 2 w f p ;; Ok (map to_int w ++ map to_int p' ++ map (fun a => to_int (fmul (of_Z 8) a)) P))%out with Ok l => l | _ => [] end =
  map Some [2; 2; 4; 3; -1; -1; 3].
Proof. vm_compute. reflexivity. Qed.
