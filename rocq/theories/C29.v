(** * C29 Polynomial feature expansion fills its buffer exactly. *)
From Coq Require Import ZArith Bool List Reals.
From Flocq Require Import Core BinarySingleNaN.
From Verif Require Import Outcome F64 F64Facts Rng RngFacts Arr ArrFacts Sam SamFacts Pop PopSpec Blas BlasFacts Pred PredFacts Exact Cond RectFacts Comp CompFacts PropPred Demo.
Import ListNotations.
Open Scope Z_scope.

(** For any kind of numbers: filling a buffer of the allocated size succeeds (an access outside the
    buffer would be an error), overwrites all of it, and the features are the offset, the inputs,
    and for each i the products x_i*x_i, ..., x_i*x_(n-1). *)
Theorem C29_expansion :
  forall (T : Type) (Q : num T) (quad : bool) (x : list T) (x0 : T) (tmp : list T),
  len tmp = n_features (len x) quad ->
  transform_input Q (len x) quad x x0 tmp =
  Ok
    (x0
     :: x ++
        (if quad
         then
          concat
            (map
               (fun i : Z =>
                map (fun k : Z => nmul Q (at_ (n0 Q) x i) (at_ (n0 Q) x (i + k))) (iota (len x - i)))
               (iota (len x)))
         else [])).
Proof. exact @C29_lemma. Qed.
Print Assumptions C29_expansion.

(** The allocated size is one plus the dimension plus the number of pairs i <= j. *)
Theorem C29_count :
  forall (xdim : Z) (quad : bool),
  0 <= xdim ->
  n_features xdim quad =
  1 + xdim +
  (if quad then Z.of_nat (length (concat (map (fun i : Z => iota (xdim - i)) (iota xdim)))) else 0).
Proof. exact @C29_count_lemma. Qed.
Print Assumptions C29_count.

(** Three inputs: 2, 3, 5 with offset 7. *)
Example C29_example :
  n_features 3 true = 10 /\
  match transform_input f64_num 3 true (map of_Z [2; 3; 5]) (of_Z 7) (repeat f0 10) with Ok l => map (fun x => to_int x) l | _ => [] end =
    map Some [7; 2; 3; 5; 4; 6; 10; 9; 15; 25] /\
  transform_input f64_num 3 true (map of_Z [2; 3; 5]) (of_Z 7) (repeat f0 9) = UB OutOfBounds.
Proof. repeat split; vm_compute; reflexivity. Qed.
