(** * What is reported about the rules of a set: clset.c:665-704 and clset_neural.c with the
    functions of cond_neural.c and pred_neural.c they call.

    Networks as in Net.v, that is without recurrent layers.  rule_neural.c keeps its network in a
    struct of its own; struct RuleNeural and struct CondNeural have the network as their only
    member (rule_neural.h:34-36, cond_neural.h:35-37), so reading one as the other is the same. *)
From Coq Require Import ZArith Bool List.
From Verif Require Import Outcome F64 Rng Arr Pop Clock Comp Layer Net.
From Verif Require Import RuleJson.
Import ListNotations.
Open Scope Z_scope.

(** cond_neural.c:250-261, pred_neural.c:245-256 and the same loop in the other functions: the
    layers are counted from the one at the input. *)
Fixpoint layer_at (ls : list (layer f64)) (i k : Z) : option (layer f64) :=
  match ls with
  | [] => None
  | l :: r => if i =? k then Some l else layer_at r (i + 1) k
  end.
(** cond_neural.c:244-263, pred_neural.c:239-258 *)
Definition net_neurons (n : nn f64) (k : Z) : Z :=
  match layer_at (nn_layers n) 0 k with
  | Some l => if l_type l =? CONVOLUTIONAL then l_n_filters l else l_n_outputs l
  | None => 0
  end.
(** cond_neural.c:272-288, pred_neural.c:267-283 *)
Definition net_connections (n : nn f64) (k : Z) : Z :=
  match layer_at (nn_layers n) 0 k with Some l => l_n_active l | None => 0 end.
(** cond_neural.c:296-303, pred_neural.c:291-298: n_layers of struct Net. *)
Definition net_layers (n : nn f64) : Z := Z.of_nat (length (nn_layers n)).
(** pred_neural.c:215-230 *)
Definition net_eta (n : nn f64) (k : Z) : f64 :=
  match layer_at (nn_layers n) 0 k with Some l => l_eta l | None => f0 end.

(** condition.h:33 and 38, prediction.h:34 *)
Definition COND_TYPE_NEURAL : Z := 4.
Definition RULE_TYPE_NEURAL : Z := 12.
Definition PRED_TYPE_NEURAL : Z := 5.

Section Loops.
Context {B : Type}.
(** The loops of clset_neural.c with an int sum (all but clset_mean_pred_eta). *)
Fixpoint sum_ints (f : cl B -> outcome Z) (cs : list (cl B)) (sum cnt : Z) : outcome (Z * Z) :=
  match cs with
  | [] => Ok (sum, cnt)
  | c :: r => (v <- f c ;; sum <- cint (sum + v) ;; cnt <- cint (cnt + 1) ;; sum_ints f r sum cnt)%out
  end.
Definition mean_ints (on : bool) (f : cl B -> outcome Z) (set : cset) : M B f64 :=
  if on then
    (cs <~ get_all (set_list set) ;;
     r <~ mlift (sum_ints f cs 0 0) ;;
     mret (if snd r =? 0 then f0 else fdiv (of_Z (fst r)) (of_Z (snd r))))%m
  else mret f0.
(** Those with a double sum. *)
Fixpoint sum_dbls (f : cl B -> outcome f64) (cs : list (cl B)) (sum : f64) (cnt : Z) : outcome (f64 * Z) :=
  match cs with
  | [] => Ok (sum, cnt)
  | c :: r => (v <- f c ;; cnt <- cint (cnt + 1) ;; sum_dbls f r (fadd sum v) cnt)%out
  end.
(** clset_neural.c:172-192: [on] is the test of the type. *)
Definition mean_dbls (on : bool) (f : cl B -> outcome f64) (set : cset) : M B f64 :=
  if on then
    (cs <~ get_all (set_list set) ;;
     r <~ mlift (sum_dbls f cs f0 0) ;;
     mret (if snd r =? 0 then f0 else fdiv (fst r) (of_Z (snd r))))%m
  else mret f0.

(** clset.c:672-684 and 692-704 *)
Definition mean_sizes (f : cl B -> f64) (set : cset) : M B f64 :=
  (cs <~ get_all (set_list set) ;;
   r <~ mlift (sum_dbls (fun c => Ok (f c)) cs f0 0) ;;
   mret (fdiv (fst r) (of_Z (snd r))))%m.
Definition clset_mean_cond_size (V : vtab B) : cset -> M B f64 := mean_sizes (cl_cond_size V).
Definition clset_mean_pred_size (V : vtab B) : cset -> M B f64 := mean_sizes (cl_pred_size V).
End Loops.

(** clset_neural.c:38-57, 64-85, 92-113; [t] is xcsf->cond->type. *)
Section Conditions.
Context {A P : Type} (t : Z).
Notation B := (payload (nn f64) A P).
Definition cond_on : bool := (t =? COND_TYPE_NEURAL) || (t =? RULE_TYPE_NEURAL).
Definition of_cond (f : nn f64 -> Z) (c : cl B) : outcome Z := (n <- deref (y_cond (c_body c)) ;; Ok (f n))%out.
Definition clset_mean_cond_layers : cset -> M B f64 := mean_ints cond_on (of_cond net_layers).
Definition clset_mean_cond_neurons (set : cset) (k : Z) : M B f64 := mean_ints cond_on (of_cond (fun n => net_neurons n k)) set.
Definition clset_mean_cond_connections (set : cset) (k : Z) : M B f64 := mean_ints cond_on (of_cond (fun n => net_connections n k)) set.
End Conditions.

(** clset_neural.c:120-140, 146-165, 172-192, 199-219; [t] is xcsf->pred->type. *)
Section Predictions.
Context {C A : Type} (t : Z).
Notation B := (payload C A (nn f64)).
Definition pred_on : bool := t =? PRED_TYPE_NEURAL.
Definition of_pred {X} (f : nn f64 -> X) (c : cl B) : outcome X := (n <- deref (y_pred (c_body c)) ;; Ok (f n))%out.
Definition clset_mean_pred_layers : cset -> M B f64 := mean_ints pred_on (of_pred net_layers).
Definition clset_mean_pred_neurons (set : cset) (k : Z) : M B f64 := mean_ints pred_on (of_pred (fun n => net_neurons n k)) set.
Definition clset_mean_pred_connections (set : cset) (k : Z) : M B f64 := mean_ints pred_on (of_pred (fun n => net_connections n k)) set.
Definition clset_mean_pred_eta (set : cset) (k : Z) : M B f64 := mean_dbls pred_on (of_pred (fun n => net_eta n k)) set.
End Predictions.
