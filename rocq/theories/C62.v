(** * C62 Python array arguments are checked before use. *)
From Coq Require Import ZArith Bool List Reals Lia.
From Flocq Require Import Core BinarySingleNaN.
From Verif Require Import Outcome F64 F64Facts F64Bounds Rng Pop PopSpec PopInv PopTrial PopFit PopOps PopSeq PopKeep PropMulti PropStore Clock Py PopTick PropPy PropEarly PropCover Arr Cond Pred Comp CompFacts Demo DemoEx PropPyRef.
Import ListNotations.
Open Scope Z_scope.

(** fit and score with two-dimensional arrays: accepted exactly when the shapes are (n, x_dim) and
    (n, y_dim), and then every row read is the corresponding part of the array. *)
Theorem C62_two_dimensional :
  forall (x_dim y_dim n a m b : Z) (dx dy : list f64),
  0 <= x_dim ->
  0 <= y_dim ->
  nd_wf {| nd_shape := [n; a]; nd_data := dx |} ->
  nd_wf {| nd_shape := [m; b]; nd_data := dy |} ->
  match
    load_input x_dim y_dim {| nd_shape := [n; a]; nd_data := dx |} {| nd_shape := [m; b]; nd_data := dy |}
  with
  | Raise => ~ (n = m /\ a = x_dim /\ b = y_dim)
  | Return i =>
      n = m /\
      a = x_dim /\
      b = y_dim /\
      pi_n i = n /\
      pi_x i = dx /\
      pi_y i = dy /\
      (forall row : Z,
       0 <= row < n ->
       (exists r : list f64,
          row_at (pi_x i) (pi_x_dim i) row = Ok r /\
          Z.of_nat (length r) = x_dim /\
          (forall j : Z,
           0 <= j < x_dim -> nth_error r (Z.to_nat j) = nth_error dx (Z.to_nat (row * x_dim + j)))) /\
       (exists r : list f64,
          row_at (pi_y i) (pi_y_dim i) row = Ok r /\
          Z.of_nat (length r) = y_dim /\
          (forall j : Z,
           0 <= j < y_dim -> nth_error r (Z.to_nat j) = nth_error dy (Z.to_nat (row * y_dim + j)))))
  end.
Proof. exact @C62_lemma. Qed.
Print Assumptions C62_two_dimensional.

(** Any accepted arrays are safe if one-dimensional ones are meant to have one column. *)
Theorem C62_any :
  forall (x_dim y_dim : Z) (A B : ndarray) (i : pyinput),
  nd_wf A ->
  nd_wf B ->
  0 <= x_dim ->
  0 <= y_dim ->
  load_input x_dim y_dim A B = Return i ->
  (length (nd_shape A) = 1%nat -> x_dim = 1) ->
  (length (nd_shape B) = 1%nat -> y_dim = 1) ->
  forall row : Z,
  0 <= row < pi_n i ->
  (exists r : list f64, row_at (pi_x i) (pi_x_dim i) row = Ok r) /\
  (exists r : list f64, row_at (pi_y i) (pi_y_dim i) row = Ok r).
Proof. exact @C62_any_lemma. Qed.
Print Assumptions C62_any.

(** predict with a two-dimensional array. *)
Theorem C62_predict :
  forall (x_dim n a : Z) (dx : list f64),
  0 <= x_dim ->
  nd_wf {| nd_shape := [n; a]; nd_data := dx |} ->
  match predict_rows_of x_dim {| nd_shape := [n; a]; nd_data := dx |} with
  | Raise => a <> x_dim
  | Return k =>
      a = x_dim /\
      k = n /\
      (forall row : Z,
       0 <= row < k -> exists r : list f64, row_at dx x_dim row = Ok r /\ Z.of_nat (length r) = x_dim)
  end.
Proof. exact @C62_predict_lemma. Qed.
Print Assumptions C62_predict.

(** REFUTED: a one-dimensional array of three values is accepted as three samples with two inputs
    each, and reading the second sample leaves the array. *)
Theorem C62_refuted :
  exists (A B : ndarray) (i : pyinput),
    nd_wf A /\
    nd_wf B /\
    load_input 2 1 A B = Return i /\ pi_n i = 3 /\ row_at (pi_x i) (pi_x_dim i) 1 = UB OutOfBounds.
Proof. exact @C62_refuted_lemma. Qed.
Print Assumptions C62_refuted.

(** REFUTED likewise for predict. *)
Theorem C62_predict_refuted :
  exists (A : ndarray) (k : Z),
    nd_wf A /\ predict_rows_of 2 A = Return k /\ 0 <= 1 < k /\ row_at (nd_data A) 2 1 = UB OutOfBounds.
Proof. exact @C62_predict_refuted_lemma. Qed.
Print Assumptions C62_predict_refuted.

Example C62_example : nd_wf (mkNd [2; 2] [f0; f1; f1; f0]) /\ nd_wf (mkNd [2; 1] [f0; f1]) /\
  load_input 2 1 (mkNd [2; 2] [f0; f1; f1; f0]) (mkNd [2; 1] [f0; f1]) = Return (mkPyIn [f0; f1; f1; f0] [f0; f1] 2 1 2) /\
  row_at [f0; f1; f1; f0] 2 1 = Ok [f1; f0] /\ load_input 3 1 (mkNd [2; 2] [f0; f1; f1; f0]) (mkNd [2; 1] [f0; f1]) = Raise.
Proof. repeat split; try reflexivity; repeat constructor; discriminate. Qed.
