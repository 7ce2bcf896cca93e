(** * C arrays and counted loops.

    An array is the list of its elements; every read and write is checked against its
    length, an access outside it is [UB OutOfBounds].  Deterministic code is written in
    [outcome], code drawing random numbers in [RM]. *)
From Coq Require Import ZArith Bool List.
From Verif Require Import Outcome F64 Rng.
Import ListNotations.
Open Scope Z_scope.

Declare Scope out_scope.
Delimit Scope out_scope with out.
Notation "x <- m ;; k" := (obind m (fun x => k))
  (at level 61, m at next level, right associativity) : out_scope.

(** a[i] *)
Definition rd {A} (l : list A) (i : Z) : outcome A :=
  if i <? 0 then UB OutOfBounds
  else match nth_error l (Z.to_nat i) with
       | Some v => Ok v
       | None => UB OutOfBounds
       end.

(** a[i] = v *)
Fixpoint set_nth {A} (l : list A) (i : nat) (v : A) : list A :=
  match l, i with
  | [], _ => []
  | _ :: r, O => v :: r
  | a :: r, S j => a :: set_nth r j v
  end.
Definition wr {A} (l : list A) (i : Z) (v : A) : outcome (list A) :=
  if (i <? 0) || (Z.of_nat (length l) <=? i) then UB OutOfBounds
  else Ok (set_nth l (Z.to_nat i) v).

(** for (int i = 0; i < n; ++i) s = f(i, s); *)
Fixpoint oloop {S} (n : nat) (i : Z) (f : Z -> S -> outcome S) (s : S) : outcome S :=
  match n with
  | O => Ok s
  | Datatypes.S m => (s' <- f i s ;; oloop m (i + 1) f s')%out
  end.
Definition ofor {S} (n : Z) (f : Z -> S -> outcome S) (s : S) : outcome S :=
  oloop (Z.to_nat n) 0 f s.

Fixpoint rloop {S} (n : nat) (i : Z) (f : Z -> S -> RM S) (s : S) : RM S :=
  match n with
  | O => ret s
  | Datatypes.S m => (s' <- f i s ;; rloop m (i + 1) f s')%rng
  end.
Definition rfor {S} (n : Z) (f : Z -> S -> RM S) (s : S) : RM S :=
  rloop (Z.to_nat n) 0 f s.

(** for (int i = 0; i < n; ++i) if (!f(i)) return false; return true; *)
Fixpoint oall_loop (n : nat) (i : Z) (f : Z -> outcome bool) : outcome bool :=
  match n with
  | O => Ok true
  | S m => (b <- f i ;; if b : bool then oall_loop m (i + 1) f else Ok false)%out
  end.
Definition oall (n : Z) (f : Z -> outcome bool) : outcome bool :=
  oall_loop (Z.to_nat n) 0 f.
