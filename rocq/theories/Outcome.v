(** * Outcomes of modelled C functions.

    A modelled C function either returns normally, terminates the process with
    [exit(EXIT_FAILURE)] (e.g. /repo/xcsf/clset.c:192-193), performs undefined
    behaviour, or runs out of the fuel with which the model cut an unbounded loop.
    The four are kept apart so that no theorem can confuse them. *)

Inductive ub_kind : Type :=
| OutOfBounds      (* array access outside its allocation *)
| NullDeref        (* dereference of a NULL pointer *)
| UseAfterFree     (* access to a freed rule *)
| DoubleFree       (* second free of the same rule *)
| BadCast          (* double -> int conversion out of range (C11 6.3.1.4) *)
| DivByZero        (* integer division or remainder by zero (C11 6.5.5p5) *)
| IntOverflow      (* signed integer overflow (C11 6.5p5) *)
| Uninit.          (* read of indeterminate memory *)

Inductive outcome (A : Type) : Type :=
| Ok (a : A)
| Exit
| UB (k : ub_kind)
| OutOfFuel.

Arguments Ok {A} _.
Arguments Exit {A}.
Arguments UB {A} _.
Arguments OutOfFuel {A}.

Definition obind {A B} (m : outcome A) (k : A -> outcome B) : outcome B :=
  match m with
  | Ok a => k a
  | Exit => Exit
  | UB w => UB w
  | OutOfFuel => OutOfFuel
  end.

Definition is_ub {A} (m : outcome A) : bool :=
  match m with UB _ => true | _ => false end.

Definition is_ok {A} (m : outcome A) : bool :=
  match m with Ok _ => true | _ => false end.

(** [post m P]: the run has no undefined behaviour and a normal result satisfies [P]
    (exiting and running out of fuel are allowed). *)
Definition post {A} (m : outcome A) (P : A -> Prop) : Prop :=
  match m with
  | Ok a => P a
  | Exit => True
  | UB _ => False
  | OutOfFuel => True
  end.

(** [total m P]: the run returns normally and the result satisfies [P]. *)
Definition total {A} (m : outcome A) (P : A -> Prop) : Prop :=
  match m with Ok a => P a | _ => False end.
