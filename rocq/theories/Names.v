(** * Names and codes of the selectable options.

    C strings are arrays of characters; a string literal written ["mae\0"] in the headers is its
    characters, the written terminator and the one the compiler adds.  Reading past an array is
    [UB OutOfBounds]. *)
From Coq Require Import ZArith Bool List String Ascii.
From Verif Require Import Outcome Arr.
Import ListNotations.
Open Scope Z_scope.

Definition nul : ascii := Ascii.zero.
Definition chars (s : string) : list ascii := list_ascii_of_string s.
Definition cstr (s : string) : list ascii := chars s ++ [nul; nul].

(** [strncmp(a, b, n) == 0] of the C library: compares at most [n] characters, stopping at the first
    difference or after equal terminators. *)
Fixpoint strncmp0 (a b : list ascii) (n : nat) : outcome bool :=
  match n with
  | O => Ok true
  | S k =>
      match a, b with
      | x :: a', y :: b' =>
          if Ascii.eqb x y then (if Ascii.eqb x nul then Ok true else strncmp0 a' b' k) else Ok false
      | _, _ => UB OutOfBounds
      end
  end.

(** loss.c:194-215 loss_type_as_string; the names are in loss.h. *)
Definition loss_type_as_string (type : Z) : outcome (list ascii) :=
  match type with
  | 0 => Ok (cstr "mae")
  | 1 => Ok (cstr "mse")
  | 2 => Ok (cstr "rmse")
  | 3 => Ok (cstr "log")
  | 4 => Ok (cstr "binary_log")
  | 5 => Ok (cstr "onehot")
  | 6 => Ok (cstr "huber")
  | _ => Exit
  end.

(** loss.c:223-247 loss_type_as_int *)
Definition loss_type_as_int (s : list ascii) : outcome Z :=
  (
   e <- strncmp0 s (cstr "mae") 4 ;; if e then Ok 0 else
   e <- strncmp0 s (cstr "mse") 4 ;; if e then Ok 1 else
   e <- strncmp0 s (cstr "rmse") 5 ;; if e then Ok 2 else
   e <- strncmp0 s (cstr "log") 4 ;; if e then Ok 3 else
   e <- strncmp0 s (cstr "binary_log") 11 ;; if e then Ok 4 else
   e <- strncmp0 s (cstr "onehot") 7 ;; if e then Ok 5 else
   e <- strncmp0 s (cstr "huber") 6 ;; if e then Ok 6 else
   Ok (-1))%out.

(** condition.c:86-115 condition_type_as_string; the names are in condition.h. *)
Definition condition_type_as_string (type : Z) : outcome (list ascii) :=
  match type with
  | 0 => Ok (cstr "dummy")
  | 1 => Ok (cstr "hyperrectangle_csr")
  | 2 => Ok (cstr "hyperrectangle_ubr")
  | 3 => Ok (cstr "hyperellipsoid")
  | 4 => Ok (cstr "neural")
  | 5 => Ok (cstr "tree_gp")
  | 6 => Ok (cstr "dgp")
  | 7 => Ok (cstr "ternary")
  | 11 => Ok (cstr "rule_dgp")
  | 12 => Ok (cstr "rule_neural")
  | 13 => Ok (cstr "rule_network")
  | _ => Exit
  end.

(** condition.c:123-159 condition_type_as_int *)
Definition condition_type_as_int (s : list ascii) : outcome Z :=
  (
   e <- strncmp0 s (cstr "dummy") 6 ;; if e then Ok 0 else
   e <- strncmp0 s (cstr "hyperrectangle_csr") 19 ;; if e then Ok 1 else
   e <- strncmp0 s (cstr "hyperrectangle_ubr") 19 ;; if e then Ok 2 else
   e <- strncmp0 s (cstr "hyperellipsoid") 15 ;; if e then Ok 3 else
   e <- strncmp0 s (cstr "neural") 7 ;; if e then Ok 4 else
   e <- strncmp0 s (cstr "tree_gp") 8 ;; if e then Ok 5 else
   e <- strncmp0 s (cstr "dgp") 4 ;; if e then Ok 6 else
   e <- strncmp0 s (cstr "ternary") 8 ;; if e then Ok 7 else
   e <- strncmp0 s (cstr "rule_dgp") 9 ;; if e then Ok 11 else
   e <- strncmp0 s (cstr "rule_neural") 12 ;; if e then Ok 12 else
   e <- strncmp0 s (cstr "rule_network") 13 ;; if e then Ok 13 else
   Ok (-1))%out.

(** prediction.c:65-84 prediction_type_as_string; the names are in prediction.h. *)
Definition prediction_type_as_string (type : Z) : outcome (list ascii) :=
  match type with
  | 0 => Ok (cstr "constant")
  | 1 => Ok (cstr "nlms_linear")
  | 2 => Ok (cstr "nlms_quadratic")
  | 3 => Ok (cstr "rls_linear")
  | 4 => Ok (cstr "rls_quadratic")
  | 5 => Ok (cstr "neural")
  | _ => Exit
  end.

(** prediction.c:92-113 prediction_type_as_int *)
Definition prediction_type_as_int (s : list ascii) : outcome Z :=
  (
   e <- strncmp0 s (cstr "constant") 9 ;; if e then Ok 0 else
   e <- strncmp0 s (cstr "nlms_linear") 12 ;; if e then Ok 1 else
   e <- strncmp0 s (cstr "nlms_quadratic") 15 ;; if e then Ok 2 else
   e <- strncmp0 s (cstr "rls_linear") 11 ;; if e then Ok 3 else
   e <- strncmp0 s (cstr "rls_quadratic") 14 ;; if e then Ok 4 else
   e <- strncmp0 s (cstr "neural") 7 ;; if e then Ok 5 else
   Ok (-1))%out.

(** action.c:56-67 action_type_as_string; the names are in action.h. *)
Definition action_type_as_string (type : Z) : outcome (list ascii) :=
  match type with
  | 0 => Ok (cstr "integer")
  | 1 => Ok (cstr "neural")
  | _ => Exit
  end.

(** action.c:75-84 action_type_as_int *)
Definition action_type_as_int (s : list ascii) : outcome Z :=
  (
   e <- strncmp0 s (cstr "integer") 8 ;; if e then Ok 0 else
   e <- strncmp0 s (cstr "neural") 7 ;; if e then Ok 1 else
   Ok (-1))%out.

(** ea.c:376-386 ea_type_as_string; the names are in ea.h. *)
Definition ea_type_as_string (type : Z) : outcome (list ascii) :=
  match type with
  | 0 => Ok (cstr "roulette")
  | 1 => Ok (cstr "tournament")
  | _ => Exit
  end.

(** ea.c:394-403 ea_type_as_int *)
Definition ea_type_as_int (s : list ascii) : outcome Z :=
  (
   e <- strncmp0 s (cstr "roulette") 9 ;; if e then Ok 0 else
   e <- strncmp0 s (cstr "tournament") 11 ;; if e then Ok 1 else
   Ok (-1))%out.

(** neural_layer.c:486-513 layer_type_as_string; the names are in neural_layer.h. *)
Definition layer_type_as_string (type : Z) : outcome (list ascii) :=
  match type with
  | 0 => Ok (cstr "connected")
  | 1 => Ok (cstr "dropout")
  | 2 => Ok (cstr "noise")
  | 3 => Ok (cstr "softmax")
  | 4 => Ok (cstr "recurrent")
  | 5 => Ok (cstr "lstm")
  | 6 => Ok (cstr "maxpool")
  | 7 => Ok (cstr "convolutional")
  | 8 => Ok (cstr "avgpool")
  | 9 => Ok (cstr "upsample")
  | _ => Exit
  end.

(** neural_layer.c:540-574 layer_type_as_int *)
Definition layer_type_as_int (s : list ascii) : outcome Z :=
  (
   e <- strncmp0 s (cstr "connected") 10 ;; if e then Ok 0 else
   e <- strncmp0 s (cstr "dropout") 8 ;; if e then Ok 1 else
   e <- strncmp0 s (cstr "softmax") 8 ;; if e then Ok 3 else
   e <- strncmp0 s (cstr "noise") 6 ;; if e then Ok 2 else
   e <- strncmp0 s (cstr "recurrent") 9 ;; if e then Ok 4 else
   e <- strncmp0 s (cstr "lstm") 5 ;; if e then Ok 5 else
   e <- strncmp0 s (cstr "maxpool") 8 ;; if e then Ok 6 else
   e <- strncmp0 s (cstr "convolutional") 14 ;; if e then Ok 7 else
   e <- strncmp0 s (cstr "avgpool") 8 ;; if e then Ok 8 else
   e <- strncmp0 s (cstr "upsample") 9 ;; if e then Ok 9 else
   Exit)%out.

(** neural_activations.c:110-141 neural_activation_string; the names are in neural_activations.h. *)
Definition neural_activation_string (type : Z) : outcome (list ascii) :=
  match type with
  | 0 => Ok (cstr "logistic")
  | 1 => Ok (cstr "relu")
  | 4 => Ok (cstr "gaussian")
  | 2 => Ok (cstr "tanh")
  | 5 => Ok (cstr "sin")
  | 6 => Ok (cstr "cos")
  | 7 => Ok (cstr "softplus")
  | 3 => Ok (cstr "linear")
  | 8 => Ok (cstr "leaky")
  | 9 => Ok (cstr "selu")
  | 10 => Ok (cstr "loggy")
  | 100 => Ok (cstr "softmax")
  | _ => Exit
  end.

(** neural_activations.c:149-189 neural_activation_as_int *)
Definition neural_activation_as_int (s : list ascii) : outcome Z :=
  (
   e <- strncmp0 s (cstr "logistic") 9 ;; if e then Ok 0 else
   e <- strncmp0 s (cstr "relu") 5 ;; if e then Ok 1 else
   e <- strncmp0 s (cstr "gaussian") 9 ;; if e then Ok 4 else
   e <- strncmp0 s (cstr "tanh") 5 ;; if e then Ok 2 else
   e <- strncmp0 s (cstr "sin") 4 ;; if e then Ok 5 else
   e <- strncmp0 s (cstr "cos") 4 ;; if e then Ok 6 else
   e <- strncmp0 s (cstr "softplus") 10 ;; if e then Ok 7 else
   e <- strncmp0 s (cstr "linear") 7 ;; if e then Ok 3 else
   e <- strncmp0 s (cstr "leaky") 6 ;; if e then Ok 8 else
   e <- strncmp0 s (cstr "selu") 5 ;; if e then Ok 9 else
   e <- strncmp0 s (cstr "loggy") 6 ;; if e then Ok 10 else
   e <- strncmp0 s (cstr "softmax") 9 ;; if e then Ok 100 else
   Exit)%out.
