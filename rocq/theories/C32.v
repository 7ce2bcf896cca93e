(** * C32 Constant prediction is a running then exponential mean. *)
From Coq Require Import ZArith Bool List Reals.
From Flocq Require Import Core BinarySingleNaN.
From Verif Require Import Outcome F64 F64Facts Rng RngFacts Arr ArrFacts Sam SamFacts Pop PopSpec Blas BlasFacts Pred PredFacts Exact Cond RectFacts Comp CompFacts PropPred Demo.
Import ListNotations.
Open Scope Z_scope.

(** One update in exact arithmetic, for any experience e >= 1: during warm-up (e*BETA < 1) the
    running mean, afterwards BETA of the residual is added. *)
Theorem C32_step :
  forall (ydim : Z) (beta : R) (e : Z) (p y : list R),
  0 <= ydim ->
  len p = ydim ->
  len y = ydim ->
  1 <= e ->
  exists p' : list R,
    constant_update R_num ydim (if Rlt_dec (IZR e * beta) 1 then true else false) 
      (IZR e) (IZR (e - 1)) beta p y = Ok p' /\
    len p' = ydim /\
    (forall i : Z,
     0 <= i < ydim ->
     ((IZR e * beta < 1)%R -> at_ 0%R p' i = ((at_ 0 p i * IZR (e - 1) + at_ 0 y i) / IZR e)%R) /\
     ((1 <= IZR e * beta)%R -> at_ 0%R p' i = (at_ 0 p i + beta * (at_ 0 y i - at_ 0 p i))%R)).
Proof. exact @constant_step. Qed.
Print Assumptions C32_step.

(** After any sequence of updates within the warm-up phase the prediction is the mean of the
    targets, whatever it was initially. *)
Theorem C32_mean :
  forall (ydim : Z) (beta : R),
  (0 <= beta)%R ->
  0 <= ydim ->
  forall (ys : list (list R)) (p : list R),
  len p = ydim ->
  ys <> [] ->
  Forall (fun y : list R => len y = ydim) ys ->
  (IZR (len ys) * beta < 1)%R ->
  exists p' : list R,
    constant_run ydim beta 1 p ys = Ok p' /\
    len p' = ydim /\ (forall i : Z, 0 <= i < ydim -> at_ 0%R p' i = (total ys i / IZR (len ys))%R).
Proof. exact @C32_mean_lemma. Qed.
Print Assumptions C32_mean.

(** After any non-empty sequence of updates it lies between any bounds of the targets seen. (BETA is
    assumed positive: with BETA = 0 the mean is the result above.) *)
Theorem C32_hull :
  forall (ydim : Z) (beta lo hi : R) (i : Z),
  (0 < beta <= 1)%R ->
  0 <= i < ydim ->
  forall (ys : list (list R)) (p : list R),
  len p = ydim ->
  ys <> [] ->
  Forall (fun y : list R => len y = ydim) ys ->
  Forall (fun y : list R => (lo <= at_ 0 y i <= hi)%R) ys ->
  exists p' : list R, constant_run ydim beta 1 p ys = Ok p' /\ len p' = ydim /\ (lo <= at_ 0 p' i <= hi)%R.
Proof. exact @C32_hull_lemma. Qed.
Print Assumptions C32_hull.

(** The loop for any kind of numbers, in particular doubles: every entry below the output dimension
    is updated so and no other entry changes. *)
Theorem C32_code :
  forall (T : Type) (Q : num T) (ydim : Z) (warm : bool) (e e1 beta : T) (p y : list T),
  0 <= ydim <= len p ->
  ydim <= len y ->
  exists p' : list T,
    constant_update Q ydim warm e e1 beta p y = Ok p' /\
    len p' = len p /\
    (forall i : Z,
     0 <= i < ydim ->
     at_ (n0 Q) p' i =
     (if warm
      then ndiv Q (nadd Q (nmul Q (at_ (n0 Q) p i) e1) (at_ (n0 Q) y i)) e
      else nadd Q (at_ (n0 Q) p i) (nmul Q beta (nsub Q (at_ (n0 Q) y i) (at_ (n0 Q) p i))))) /\
    (forall i : Z, ydim <= i -> at_ (n0 Q) p' i = at_ (n0 Q) p i).
Proof. exact @constant_update_ok. Qed.
Print Assumptions C32_code.

(** Targets 3, 5, 10 from an arbitrary start with BETA = 1/8 (warm-up) on doubles: 6; then with BETA = 1/2 towards 2: 4. *)
Example C32_example :
  (IZR (len [[3]; [5]; [10]]%R) * / 8 < 1)%R /\
  match (p1 <- constant_update f64_num 1 true f1 f0 (lit 1 8) [of_Z 77] [of_Z 3] ;;
         p2 <- constant_update f64_num 1 true f2 f1 (lit 1 8) p1 [of_Z 5] ;;
         p3 <- constant_update f64_num 1 true (of_Z 3) f2 (lit 1 8) p2 [of_Z 10] ;;
         p4 <- constant_update f64_num 1 false (of_Z 4) (of_Z 3) fhalf p3 [of_Z 2] ;;
         Ok (map to_int (p1 ++ p2 ++ p3 ++ p4)))%out with Ok l => l | _ => [] end = map Some [3; 4; 6; 4].
Proof.
  split; [|vm_compute; reflexivity]. change (len _) with 3. apply (Rmult_lt_reg_r 8); [apply IZR_lt; reflexivity|].
  rewrite Rmult_assoc, Rinv_l, Rmult_1_r, Rmult_1_l by (apply IZR_neq; discriminate). apply IZR_lt. reflexivity.
Qed.
