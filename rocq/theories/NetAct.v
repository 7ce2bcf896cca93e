(** * Neural networks as actions: /repo/xcsf/act_neural.c:44-47, 77-113, 139-148.

    Networks as in Net.v.  Crossover, generality and update do nothing (56-88, 177-190).  Printing,
    JSON and files are not modelled.  [train] stands for xcsf->explore, as in Net.v. *)
From Coq Require Import ZArith Bool List.
From Verif Require Import Outcome F64 Rng Arr Pop Comp Loss Layer Net.
Import ListNotations.
Open Scope Z_scope.

Section Parts.
Context (K : cfg) (args : list largs) (train : bool).
(** act_neural.c:103-110; neural.c:383-387 neural_outputs. *)
Definition net_act (c : nn f64) (x : list f64) : RM (nn f64 * Z) :=
  (c <- neural_propagate (lm K) train c x ;;
   o <- match rev (nn_layers c) with [] => rub NullDeref | p :: _ => ret (l_output p) end ;;
   i <- lift (argmax o (n_actions K)) ;;
   ret (c, i))%rng.
(** act_neural.c:139-147 *)
Fixpoint act_cover (fuel : nat) (c : nn f64) (x : list f64) (action : Z) : RM (nn f64) :=
  match fuel with
  | O => rfuel
  | S f =>
    (c <- neural_rand (lm K) c ;;
     ' (c, i) <- net_act c x ;;
     if i =? action then ret c else act_cover f c x action)%rng
  end.
Definition neural_act : actT (nn f64) := mkActT (nn f64)
  (neural_create (lm K) args) (fun c => lift (neural_copy c)) (act_cover (loop_fuel K)) net_act (fun c _ _ => ret c)
  (fun _ _ => Ok false) (fun c1 c2 => ret (c1, c2, false)) (neural_mutate (lm K) (loop_fuel K)).
End Parts.
