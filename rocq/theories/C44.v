(** * C44 Layer lists stay consistent. *)
From Coq Require Import ZArith Bool List.
From Verif Require Import Outcome Arr Llist LlistFacts PropList.
Import ListNotations.
Open Scope Z_scope.

(** [represents h nt ls]: in heap h, the network nt is the doubly linked list of exactly the layers
    ls (from the one at the input, the tail, to the output layer, the head), with the right links in
    both directions, ends, length and numbers of inputs and outputs. Inserting at a position from 1
    on (any position, for an empty network) gives the list with the layer inserted there; positions
    beyond the end append. *)
Theorem C44_insert :
  forall (L : Type) (nin nout : L -> Z) (h : heap) (nt : net) (ls : list (nat * L)) (l : L) (pos : Z),
  represents nin nout h nt ls ->
  ls = [] \/ 1 <= pos ->
  exists (h' : heap) (nt' : net),
    neural_insert nin nout h nt l pos = Ok (h', nt') /\
    represents nin nout h' nt' (firstn (Z.to_nat pos) ls ++ (fresh h, l) :: skipn (Z.to_nat pos) ls) /\
    n_layers nt' = n_layers nt + 1 /\
    n_train nt' = n_train nt /\
    (forall a : nat, a <> fresh h -> ~ In a (locs ls) -> cells h' a = cells h a).
Proof. exact @C44_insert_lemma. Qed.
Print Assumptions C44_insert.

(** Removing at a position other than 0 gives the list without that layer, whose cell is released.
    *)
Theorem C44_remove :
  forall (L : Type) (nin nout : L -> Z) (h : heap) (nt : net) (ls : list (nat * L)) (pos : Z),
  represents nin nout h nt ls ->
  (2 <= length ls)%nat ->
  1 <= pos < Z.of_nat (length ls) ->
  exists (h' : heap) (nt' : net),
    neural_remove nout h nt pos = Ok (h', nt') /\
    represents nin nout h' nt' (firstn (Z.to_nat pos) ls ++ skipn (S (Z.to_nat pos)) ls) /\
    n_layers nt' = n_layers nt - 1 /\
    n_train nt' = n_train nt /\
    (forall (a : nat) (l : L), nth_error ls (Z.to_nat pos) = Some (a, l) -> cells h' a = None) /\
    (forall a : nat, ~ In a (locs ls) -> cells h' a = cells h a).
Proof. exact @C44_remove_lemma. Qed.
Print Assumptions C44_remove.

(** Removing the layer at the input gives the right list, with the right output, but the number of
    inputs is that of the layer just removed. *)
Theorem C44_remove_first :
  forall (L : Type) (nin nout : L -> Z) (h : heap) (nt : net) (a : nat) (la : L) 
    (ls : list (nat * L)) (pos : Z),
  represents nin nout h nt ((a, la) :: ls) ->
  ls <> [] ->
  pos <= 0 ->
  exists (h' : heap) (nt' : net),
    neural_remove nout h nt pos = Ok (h', nt') /\
    represents nin nout h'
      {|
        n_layers := n_layers nt';
        n_inputs := first_inputs nin ls;
        n_outputs := n_outputs nt';
        n_output := n_output nt';
        n_head := n_head nt';
        n_tail := n_tail nt';
        n_train := n_train nt'
      |} ls /\ n_inputs nt' = nin la /\ cells h' a = None.
Proof. exact @C44_remove_first_lemma. Qed.
Print Assumptions C44_remove_first.

(** Removing from beyond the end, or the only layer, is rejected. *)
Theorem C44_rejected :
  forall (L : Type) (nin nout : L -> Z) (h : heap) (nt : net) (ls : list (nat * L)) (pos : Z),
  represents nin nout h nt ls ->
  (length ls < 2)%nat \/ Z.of_nat (length ls) <= pos -> neural_remove nout h nt pos = Exit.
Proof. exact @C44_rejected_lemma. Qed.
Print Assumptions C44_rejected.

(** Pushing appends. *)
Theorem C44_push :
  forall (L : Type) (nin nout : L -> Z) (h : heap) (nt : net) (ls : list (nat * L)) (l : L),
  represents nin nout h nt ls ->
  exists (h' : heap) (nt' : net),
    neural_push nin nout h nt l = Ok (h', nt') /\
    represents nin nout h' nt' (ls ++ [(fresh h, l)]) /\
    (forall a : nat, a <> fresh h -> ~ In a (locs ls) -> cells h' a = cells h a).
Proof. exact @C44_push_lemma. Qed.
Print Assumptions C44_push.

(** Popping removes the output layer. *)
Theorem C44_pop :
  forall (L : Type) (nin nout : L -> Z) (h : heap) (nt : net) (ls : list (nat * L)) (a : nat) (l : L),
  represents nin nout h nt (ls ++ [(a, l)]) ->
  ls <> [] ->
  exists (h' : heap) (nt' : net),
    neural_pop nout h nt = Ok (h', nt') /\ represents nin nout h' nt' ls /\ cells h' a = None.
Proof. exact @C44_pop_lemma. Qed.
Print Assumptions C44_pop.

(** Following the links from either end meets all layers once, in order. *)
Theorem C44_walk :
  forall (L : Type) (nin nout : L -> Z) (h : heap) (nt : net) (ls : list (nat * L)) (fuel : nat),
  represents nin nout h nt ls ->
  (length ls <= fuel)%nat ->
  forwards fuel h (n_tail nt) = Ok ls /\ backwards fuel h (n_head nt) = Ok (rev ls).
Proof. exact @C44_walk_lemma. Qed.
Print Assumptions C44_walk.

(** A copy is a list of copies in new cells; the original is as before. *)
Theorem C44_copy :
  forall (L : Type) (nin nout : L -> Z) (cp : L -> outcome L) (h : heap) (nt : net) 
    (ls : list (nat * L)) (fuel : nat),
  represents nin nout h nt ls ->
  (length ls <= fuel)%nat ->
  (forall c : nat * L, In c ls -> exists l : L, cp (snd c) = Ok l) ->
  exists (h' : heap) (nt' : net) (new : list (nat * L)),
    neural_copy nin nout cp fuel h nt = Ok (h', nt') /\
    represents nin nout h' nt' new /\
    represents nin nout h' nt ls /\
    Forall2 (fun c c' : nat * L => cp (snd c) = Ok (snd c') /\ (fresh h <= fst c')%nat) ls new /\
    (forall a : nat, (a < fresh h)%nat -> cells h' a = cells h a).
Proof. exact @C44_copy_lemma. Qed.
Print Assumptions C44_copy.

(** Freeing releases all layers once and nothing else. *)
Theorem C44_free :
  forall (L : Type) (nin nout : L -> Z) (h : heap) (nt : net) (ls : list (nat * L)) (fuel : nat),
  represents nin nout h nt ls ->
  (length ls <= fuel)%nat ->
  exists (h' : heap) (nt' : net),
    neural_free fuel h nt = Ok (h', nt') /\
    n_layers nt' = 0 /\
    n_tail nt' = None /\
    (forall a : nat, In a (locs ls) -> cells h' a = None) /\
    (forall a : nat, ~ In a (locs ls) -> cells h' a = cells h a).
Proof. exact @C44_free_lemma. Qed.
Print Assumptions C44_free.

(** REFUTED for position 0 of a network with layers: always a null pointer dereference. *)
Theorem C44_refuted_insert :
  forall (L : Type) (nin nout : L -> Z) (h : heap) (nt : net) (ls : list (nat * L)) (l : L) (pos : Z),
  represents nin nout h nt ls -> ls <> [] -> pos <= 0 -> neural_insert nin nout h nt l pos = UB NullDeref.
Proof. exact @C44_refuted_insert_lemma. Qed.
Print Assumptions C44_refuted_insert.

(** REFUTED for the number of inputs after removing the first layer: 3, while the first layer left
    has 5. *)
Theorem C44_refuted_remove :
  exists (h : heap) (nt : net) (h' : heap) (nt' : net),
    represents fst snd h nt [(0%nat, (3, 5)); (1%nat, (5, 2))] /\
    neural_remove snd h nt 0 = Ok (h', nt') /\
    n_inputs nt' = 3 /\ forwards 1 h' (n_tail nt') = Ok [(1%nat, (5, 2))].
Proof. exact @C44_refuted_remove_lemma. Qed.
Print Assumptions C44_refuted_remove.

(** A network of three layers built by pushing; then insertions, a removal, a pop and a removal that is rejected. *)
Example C44_example :
  numbers (built [(3, 5); (5, 4); (4, 2)]) = Some (3, 3, 2, [(3, 5); (5, 4); (4, 2)], [(4, 2); (5, 4); (3, 5)]) /\
  numbers (then_ (built [(3, 5); (5, 4); (4, 2)]) (fun r => neural_insert fst snd (fst r) (snd r) (5, 5) 1)) =
    Some (4, 3, 2, [(3, 5); (5, 5); (5, 4); (4, 2)], [(4, 2); (5, 4); (5, 5); (3, 5)]) /\
  numbers (then_ (built [(3, 5); (5, 4); (4, 2)]) (fun r => neural_insert fst snd (fst r) (snd r) (2, 7) 9)) =
    Some (4, 3, 7, [(3, 5); (5, 4); (4, 2); (2, 7)], [(2, 7); (4, 2); (5, 4); (3, 5)]) /\
  numbers (then_ (built [(3, 5); (5, 5); (5, 2)]) (fun r => neural_remove snd (fst r) (snd r) 1)) =
    Some (2, 3, 2, [(3, 5); (5, 2)], [(5, 2); (3, 5)]) /\
  numbers (then_ (built [(3, 5); (5, 2)]) (fun r => neural_pop snd (fst r) (snd r))) = Some (1, 3, 5, [(3, 5)], [(3, 5)]) /\
  then_ (built [(3, 5); (5, 2)]) (fun r => neural_remove snd (fst r) (snd r) 2) = Exit /\
  then_ (built [(3, 5); (5, 2)]) (fun r => neural_insert fst snd (fst r) (snd r) (3, 3) 0) = UB NullDeref.
Proof. vm_compute. repeat split; reflexivity. Qed.
Example C44_copy_example :
  match then_ (built [(3, 5); (5, 2)]) (fun r => neural_copy fst snd (fun l => Ok l) 5 (fst r) (snd r)) with
  | Ok (h, nt) => numbers (Ok (h, nt)) = Some (2, 3, 2, [(3, 5); (5, 2)], [(5, 2); (3, 5)]) /\ (n_tail nt, n_head nt) = (Some 2%nat, Some 3%nat)
  | _ => False
  end.
Proof. vm_compute. auto. Qed.
Example C44_represents_example : exists (h : @heap shape2) (nt : net), represents fst snd h nt [(0%nat, (3, 5)); (1%nat, (5, 2))].
Proof. destruct C44_refuted_remove_lemma as (h & nt & _ & _ & R & _). exists h, nt. exact R. Qed.
