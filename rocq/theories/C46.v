(** * C46 Activation gradients are the derivatives. *)
From Coq Require Import ZArith Bool List Reals Lra Lia.
From Flocq Require Import Core BinarySingleNaN.
From Verif Require Import Outcome F64 F64Facts F64Bounds Rng Arr ArrFacts Blas BlasFacts Exact Demo Act ActFacts Image Layer LayerFacts PropConn PoolFacts PropPool.
Import ListNotations.
Open Scope Z_scope.

(** For every activation function f the code has, and its gradient g, in exact arithmetic: wherever
    f has a derivative, g is it; and f has one everywhere except possibly at 0. *)
Theorem C46 :
  forall a : Z,
  0 <= a < NUM_ACTIVATIONS ->
  exists f g : R -> R,
    denotes (neural_activate R_arith) a f /\
    denotes (neural_gradient R_arith) a g /\
    (forall x : R, (exists l : R, derivable_pt_lim f x l) -> derivable_pt_lim f x (g x)) /\
    (forall x : R, x <> 0%R -> exists l : R, derivable_pt_lim f x l).
Proof. exact @C46_lemma. Qed.
Print Assumptions C46.

(** Exactly where they are differentiable: everywhere, except that the rectifier, the leaky
    rectifier and SELU are not at 0. *)
Theorem C46_where :
  forall (a : Z) (f : R -> R),
  0 <= a < NUM_ACTIVATIONS ->
  denotes (neural_activate R_arith) a f ->
  forall x : R,
  (exists l : R, derivable_pt_lim f x l) <-> x <> 0%R \/ a <> RELU /\ a <> LEAKY /\ a <> SELU.
Proof. exact @C46_where_lemma. Qed.
Print Assumptions C46_where.

(** The array function used by the layers multiplies each delta by the derivative at its state, and
    touches nothing else. *)
Theorem C46_array :
  forall (a : Z) (f : R -> R) (state delta : list R) (n : Z),
  0 <= a < NUM_ACTIVATIONS ->
  denotes (neural_activate R_arith) a f ->
  0 <= n <= len state ->
  n <= len delta ->
  exists delta' : list R,
    neural_gradient_array R_arith state delta n a = Ok delta' /\
    len delta' = len delta /\
    (forall i : Z,
     0 <= i < n ->
     forall l : R, derivable_pt_lim f (at_ 0%R state i) l -> at_ 0%R delta' i = (at_ 0 delta i * l)%R) /\
    (forall i : Z, n <= i -> at_ 0%R delta' i = at_ 0%R delta i).
Proof. exact @C46_array_lemma. Qed.
Print Assumptions C46_array.

(** What the activation functions are; other codes end the program. *)
Theorem C46_values :
  forall x : R,
  neural_activate R_arith LOGISTIC x = Ok (1 / (1 + exp (- x)))%R /\
  neural_activate R_arith RELU x = Ok (Rmax 0 x) /\
  neural_activate R_arith TANH x = Ok (sinh x / cosh x)%R /\
  neural_activate R_arith LINEAR x = Ok x /\
  neural_activate R_arith GAUSSIAN x = Ok (exp (- (x * x))) /\
  neural_activate R_arith SIN x = Ok (sin x) /\
  neural_activate R_arith COS x = Ok (cos x) /\
  neural_activate R_arith SOFT_PLUS x = Ok (ln (1 + exp x)) /\
  neural_activate R_arith LEAKY x = Ok (Rmax x (x / 10)) /\
  neural_activate R_arith SELU x =
  Ok (10507 / 10000 * (if Rlt_dec x 0 then 16732 / 10000 * (exp x - 1) else x))%R /\
  neural_activate R_arith LOGGY x = Ok (2 / (1 + exp (- x)) - 1)%R /\
  (forall a : Z,
   ~ 0 <= a < NUM_ACTIVATIONS -> neural_activate R_arith a x = Exit /\ neural_gradient R_arith a x = Exit).
Proof. exact @C46_values_lemma. Qed.
Print Assumptions C46_values.

(** The logistic function at 0 has value 1/2 and derivative 1/4; the leaky rectifier at -2 has derivative 1/10. *)
Example C46_example :
  neural_activate R_arith LOGISTIC 0%R = Ok (1 / 2)%R /\ neural_gradient R_arith LOGISTIC 0%R = Ok (1 / 4)%R /\
  (exists f, denotes (neural_activate R_arith) LOGISTIC f /\ derivable_pt_lim f 0%R (1 / 4)%R) /\
  neural_gradient R_arith LEAKY (-2)%R = Ok (1 / 10)%R /\
  (exists f, denotes (neural_activate R_arith) LEAKY f /\ derivable_pt_lim f (-2)%R (1 / 10)%R).
Proof.
  assert (E : exp (- 0) = 1%R) by (rewrite Ropp_0; apply exp_0).
  assert (G1 : neural_gradient R_arith LOGISTIC 0%R = Ok (1 / 4)%R).
  { change (neural_gradient R_arith LOGISTIC 0%R) with (Ok ((1 - 1 / (1 + exp (- 0))) * (1 / (1 + exp (- 0)))))%R. rewrite E.
    replace ((1 - 1 / (1 + 1)) * (1 / (1 + 1)))%R with (1 / 4)%R by lra. reflexivity. }
  assert (G2 : neural_gradient R_arith LEAKY (-2)%R = Ok (1 / 10)%R).
  { change (neural_gradient R_arith LEAKY (-2)%R) with (Ok (if rltb (-2) 0 then 1 / 10 else 1))%R.
    rewrite rltb_true by lra. reflexivity. }
  split; [|split; [exact G1|split; [|split; [exact G2|]]]].
  - rewrite (proj1 (C46_values 0)), E. replace (1 + 1)%R with 2%R by lra. reflexivity.
  - destruct (C46 LOGISTIC) as (f & g & F & G & H & D); [unfold LOGISTIC, NUM_ACTIVATIONS; lia|]. exists f. split; [exact F|].
    pose proof (G 0%R) as G0. rewrite G1 in G0. injection G0 as ->. apply H. apply (C46_where LOGISTIC f); [unfold LOGISTIC, NUM_ACTIVATIONS; lia|exact F|].
    right. repeat split; discriminate.
  - destruct (C46 LEAKY) as (f & g & F & G & H & D); [unfold LEAKY, NUM_ACTIVATIONS; lia|]. exists f. split; [exact F|].
    pose proof (G (-2)%R) as G0. rewrite G2 in G0. injection G0 as ->. apply H, D. lra.
Qed.
