(** * The EA trigger in C int arithmetic.

    Pop.v computes with unbounded integers.  Here the trigger of the EA is modelled again with
    the [int] arithmetic of the C code, where overflow is undefined behaviour. *)
From Coq Require Import ZArith Bool List.
From Verif Require Import Outcome F64 Rng Pop.
Import ListNotations.
Open Scope Z_scope.

Section Clock.
Context {B : Type} (K : cfg).
(** The value of a C expression of type [int]. *)
Definition cint (z : Z) : outcome Z := if (-2 ^ 31 <=? z) && (z <? 2 ^ 31) then Ok z else UB IntOverflow.
(** clset.c:268-278 clset_total_time: the product is an [int], the sum a [double]. *)
Fixpoint total_time_c (cs : list (cl B)) (sum : f64) : outcome f64 :=
  match cs with
  | [] => Ok sum
  | c :: r => match cint (c_time c * c_num c) with
              | Ok p => total_time_c r (fadd sum (of_Z p))
              | Exit => Exit | UB k => UB k | OutOfFuel => OutOfFuel
              end
  end.
(** ea.c:199-204 ea: [++(xcsf->time)], the test for an empty set and the test of the mean time
    stamp; the result tells whether the EA is due. *)
Definition trigger_c (w : sel) (s : st B) : outcome bool :=
  match cint (s_time s + 1) with
  | Ok t =>
      if set_sz (get_set w s) =? 0 then Ok false else
      match get_all (set_list (get_set w s)) s with
      | Ok (cs, _) =>
          match total_time_c cs f0 with
          | Ok tot => Ok (negb (flt (fsub (of_Z t) (fdiv tot (of_Z (set_nm (get_set w s))))) (ea_theta K)))
          | Exit => Exit | UB k => UB k | OutOfFuel => OutOfFuel
          end
      | Exit => Exit | UB k => UB k | OutOfFuel => OutOfFuel
      end
  | Exit => Exit | UB k => UB k | OutOfFuel => OutOfFuel
  end.
End Clock.
