(** * The doubly linked list of layers: /repo/xcsf/neural.c:30-66, 88-239 and neural.h:38-58.

    Layers are values of any type [L]; of a layer only its numbers of inputs and outputs are
    used.  A struct Llist with the layer it points to is one cell of the heap ([layer_free] and
    the two calls of free release both); the output array of a layer is identified by the cell of
    the layer.  malloc never fails. *)
From Coq Require Import ZArith Bool List.
From Verif Require Import Outcome Arr.
Import ListNotations.
Open Scope Z_scope.

Section List.
Context {L : Type} (nin nout : L -> Z).

(** neural.h:38-42 *)
Record node := mkNode { nd_layer : L; nd_prev : option nat; nd_next : option nat }.
(** neural.h:47-55 *)
Record net := mkNet {
  n_layers : Z; n_inputs : Z; n_outputs : Z; n_output : option nat;
  n_head : option nat; n_tail : option nat; n_train : bool
}.
(** Allocated cells; the next cell to allocate. *)
Record heap := mkHeap { cells : nat -> option node; fresh : nat }.

Definition load (h : heap) (p : option nat) : outcome node :=
  match p with
  | None => UB NullDeref
  | Some a => match cells h a with Some n => Ok n | None => UB UseAfterFree end
  end.
Definition put (h : heap) (a : nat) (v : option node) : heap :=
  mkHeap (fun b => if Nat.eqb a b then v else cells h b) (fresh h).
(** p->f = v for the field changed by [f]. *)
Definition store (h : heap) (p : option nat) (f : node -> node) : outcome heap :=
  match p with
  | None => UB NullDeref
  | Some a => match cells h a with Some n => Ok (put h a (Some (f n))) | None => UB UseAfterFree end
  end.
Definition alloc (h : heap) (n : node) : heap * nat :=
  (mkHeap (fun b => if Nat.eqb (fresh h) b then Some n else cells h b) (S (fresh h)), fresh h).
Definition release (h : heap) (a : nat) : outcome heap :=
  match cells h a with Some _ => Ok (put h a None) | None => UB DoubleFree end.

Definition with_prev (p : option nat) (n : node) : node := mkNode (nd_layer n) p (nd_next n).
Definition with_next (p : option nat) (n : node) : node := mkNode (nd_layer n) (nd_prev n) p.

(** neural.c:36-46 *)
Definition neural_init : net := mkNet 0 0 0 None None None false.

(** neural.c:111-113, 145-148: for (i = 0; i < pos && iter != NULL; ++i) iter = iter->prev *)
Fixpoint walk (k : nat) (h : heap) (p : option nat) : outcome (option nat) :=
  match k with
  | O => Ok p
  | S k => match p with
           | None => Ok None
           | Some _ => (n <- load h p ;; walk k h (nd_prev n))%out
           end
  end.

(** neural.c:94-136 *)
Definition neural_insert (h : heap) (nt : net) (l : L) (pos : Z) : outcome (heap * net) :=
  match n_head nt, n_tail nt with
  | Some hd, Some tl =>
    (iter <- walk (Z.to_nat pos) h (n_tail nt) ;;
     match iter with
     | None =>
       let (h, new) := alloc h (mkNode l None (Some hd)) in
       (h <- store h (Some hd) (with_prev (Some new)) ;;
        Ok (h, mkNet (n_layers nt + 1) (n_inputs nt) (nout l) (Some new) (Some new) (n_tail nt) (n_train nt)))%out
     | Some it =>
       (ni <- load h iter ;;
        let (h, new) := alloc h (mkNode l iter (nd_next ni)) in
        h <- store h iter (with_next (Some new)) ;;
        ni <- load h iter ;;
        match nd_next ni with
        | None => Ok (h, mkNet (n_layers nt + 1) (nin l) (n_outputs nt) (n_output nt) (n_head nt) (Some new) (n_train nt))
        | Some _ =>
          nn <- load h (Some new) ;;
          h <- store h (nd_next nn) (with_prev (Some new)) ;;
          Ok (h, mkNet (n_layers nt + 1) (n_inputs nt) (n_outputs nt) (n_output nt) (n_head nt) (n_tail nt) (n_train nt))
        end)%out
     end)%out
  | _, _ =>
    let (h, new) := alloc h (mkNode l None None) in
    Ok (h, mkNet (n_layers nt + 1) (nin l) (nout l) (Some new) (Some new) (Some new) (n_train nt))
  end.

(** neural.c:143-187 *)
Definition neural_remove (h : heap) (nt : net) (pos : Z) : outcome (heap * net) :=
  (iter <- walk (Z.to_nat pos) h (n_tail nt) ;;
   match iter with
   | None => Exit
   | Some it =>
     (ni <- load h iter ;;
      match nd_next ni, nd_prev ni with
      | None, None => Exit
      | _, _ =>
        (* head *)
        hn <- match nd_prev ni with
              | None =>
                (h <- match nd_next ni with
                      | None => Ok h
                      | Some _ => store h (nd_next ni) (with_prev None)
                      end ;;
                 nh <- load h (nd_next ni) ;;
                 Ok (h, mkNet (n_layers nt) (n_inputs nt) (nout (nd_layer nh)) (nd_next ni) (nd_next ni) (n_tail nt) (n_train nt)))%out
              | Some _ => Ok (h, nt)
              end ;;
        (* tail *)
        hn <- match nd_next ni with
              | None =>
                let nt := snd hn in
                (h <- match nd_prev ni with
                      | None => Ok (fst hn)
                      | Some _ => store (fst hn) (nd_prev ni) (with_next None)
                      end ;;
                 Ok (h, mkNet (n_layers nt) (n_inputs nt) (n_outputs nt) (n_output nt) (n_head nt) (nd_prev ni) (n_train nt)))%out
              | Some _ => Ok hn
              end ;;
        (* middle *)
        hn <- match nd_prev ni, nd_next ni with
              | Some _, Some _ =>
                (h <- store (fst hn) (nd_next ni) (with_prev (nd_prev ni)) ;;
                 h <- store h (nd_prev ni) (with_next (nd_next ni)) ;;
                 Ok (h, snd hn))%out
              | _, _ => Ok hn
              end ;;
        let nt := snd hn in
        h <- release (fst hn) it ;;
        Ok (h, mkNet (n_layers nt - 1) (n_inputs nt) (n_outputs nt) (n_output nt) (n_head nt) (n_tail nt) (n_train nt))
      end)%out
   end)%out.

(** neural.c:194-208 *)
Definition neural_push (h : heap) (nt : net) (l : L) : outcome (heap * net) := neural_insert h nt l (n_layers nt).
Definition neural_pop (h : heap) (nt : net) : outcome (heap * net) := neural_remove h nt (n_layers nt - 1).

(** neural.c:215-225 *)
Fixpoint copy_loop (cp : L -> outcome L) (fuel : nat) (h : heap) (iter : option nat) (dest : net) : outcome (heap * net) :=
  match iter with
  | None => Ok (h, dest)
  | Some _ => match fuel with
              | O => OutOfFuel
              | S f =>
                (ni <- load h iter ;;
                 l <- cp (nd_layer ni) ;;
                 hn <- neural_push h dest l ;;
                 ni <- load (fst hn) iter ;;
                 copy_loop cp f (fst hn) (nd_prev ni) (snd hn))%out
              end
  end.
Definition neural_copy (cp : L -> outcome L) (fuel : nat) (h : heap) (src : net) : outcome (heap * net) :=
  copy_loop cp fuel h (n_tail src) neural_init.

(** neural.c:231-243 *)
Fixpoint neural_free (fuel : nat) (h : heap) (nt : net) : outcome (heap * net) :=
  match n_tail nt with
  | None => Ok (h, nt)
  | Some a => match fuel with
              | O => OutOfFuel
              | S f =>
                (ni <- load h (n_tail nt) ;;
                 h <- release h a ;;
                 neural_free f h (mkNet (n_layers nt - 1) (n_inputs nt) (n_outputs nt) (n_output nt) (n_head nt) (nd_prev ni) (n_train nt)))%out
              end
  end.

(** The loops of neural_rand, neural_mutate, neural_propagate (from the tail along prev) and
    of the backward phase of neural_learn (from the head along next): the cells in the order
    they are visited. *)
Fixpoint forwards (fuel : nat) (h : heap) (iter : option nat) : outcome (list (nat * L)) :=
  match iter with
  | None => Ok []
  | Some a => match fuel with
              | O => OutOfFuel
              | S f => (n <- load h iter ;; r <- forwards f h (nd_prev n) ;; Ok ((a, nd_layer n) :: r))%out
              end
  end.
Fixpoint backwards (fuel : nat) (h : heap) (iter : option nat) : outcome (list (nat * L)) :=
  match iter with
  | None => Ok []
  | Some a => match fuel with
              | O => OutOfFuel
              | S f => (n <- load h iter ;; r <- backwards f h (nd_next n) ;; Ok ((a, nd_layer n) :: r))%out
              end
  end.
End List.
Arguments mkNode {L}.
Arguments mkHeap {L}.
