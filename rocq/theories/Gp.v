(** * GP trees: /repo/xcsf/gp.c, and the conditions made of them: /repo/xcsf/cond_gp.c.

    Simplifications: JSON output, printing and file input/output (gp.c:165-294, 382-532) are
    left out here.  Tree lengths are unbounded integers; a crossover that would build a tree of
    more than INT_MAX nodes (8 GB) ends in [OutOfFuel]. *)
From Coq Require Import ZArith Bool List.
From Verif Require Import Outcome F64 Rng Arr Sam Pop Cond Comp.
Import ListNotations.
Open Scope Z_scope.

(** gp.h:31-39 struct ArgsGPTree (max and min are only used to draw the constants). *)
Record targs := mkTargs {
  ta_max : f64; ta_min : f64;
  ta_inputs : Z; ta_nconst : Z; ta_depth : Z; ta_max_len : Z;
  ta_const : list f64
}.

(** gp.h:44-49 struct GPTree.  [gp_pos] is indeterminate until the tree is evaluated. *)
Record gptree := mkGp { gp_tree : list Z; gp_len : Z; gp_pos : option Z; gp_mu : list f64 }.

(** gp.c:29-33 *)
Definition GP_NUM_FUNC : Z := 4.
Definition ADD : Z := 0.
Definition SUB : Z := 1.
Definition MUL : Z := 2.
Definition DIV : Z := 3.
(** gp.c:41-42 *)
Definition RET_MIN : f64 := of_Z (-1000).
Definition RET_MAX : f64 := of_Z 1000.
(** gp.c:47 MU_TYPE *)
Definition gp_mu_type : list Z := [SAM_RATE_SELECT].

(** gp.c:55-64 tree_traverse; the recursion depth is bounded by [fuel]. *)
Fixpoint tree_traverse (fuel : nat) (tree : list Z) (pos : Z) : outcome Z :=
  match fuel with
  | O => OutOfFuel
  | S f =>
    (n <- rd tree pos ;;
     if GP_NUM_FUNC <=? n then Ok (pos + 1)
     else p <- tree_traverse f tree (pos + 1) ;; tree_traverse f tree p)%out
  end.
(** Every nested call is at a larger position, and a position outside the tree fails. *)
Definition traverse (tree : list Z) (pos : Z) : outcome Z := tree_traverse (S (length tree)) tree pos.

Section Gp.
Context (a : targs).

(** gp.c:84 and 359: GP_NUM_FUNC + args->n_constants + args->n_inputs. *)
Definition max_term : Z := GP_NUM_FUNC + ta_nconst a + ta_inputs a.

(** gp.c:76-94 tree_grow: cells of the malloc'ed array are [None] until written; the result is
    the array and the returned position (-1 on failure).  [depth] counts down to 0. *)
Fixpoint tree_grow (depth : nat) (tree : list (option Z)) (pos max : Z) : RM (list (option Z) * Z) :=
  if max <=? pos then ret (tree, -1) else
  (leaf <- match depth with
           | O => ret true
           | S _ => if pos =? 0 then ret false else u <- rand_uniform f0 f1 ;; ret (flt u fhalf)
           end ;;
   match depth with
   | O =>
       n <- rand_uniform_int GP_NUM_FUNC max_term ;;
       t <- lift (wr tree pos (Some n)) ;; ret (t, pos + 1)
   | S d =>
       if leaf : bool then
         n <- rand_uniform_int GP_NUM_FUNC max_term ;;
         t <- lift (wr tree pos (Some n)) ;; ret (t, pos + 1)
       else
         n <- rand_uniform_int 0 GP_NUM_FUNC ;;
         t <- lift (wr tree pos (Some n)) ;;
         r <- tree_grow d t (pos + 1) max ;;
         if snd r <? 0 then ret (fst r, -1)
         else tree_grow d (fst r) (snd r) max
   end)%rng.

(** gp.c:106-108: try until a tree fits into the array (the array is reused). *)
Fixpoint grow_loop (fuel : nat) (tree : list (option Z)) : RM (list (option Z) * Z) :=
  match fuel with
  | O => rfuel
  | S f =>
    (r <- tree_grow (Z.to_nat (ta_depth a)) tree 0 (ta_max_len a) ;;
     if snd r <? 1 then grow_loop f (fst r) else ret r)%rng
  end.
(** The first [n] cells; a cell never written is indeterminate. *)
Fixpoint cells (n : nat) (tree : list (option Z)) : outcome (list Z) :=
  match n, tree with
  | O, _ => Ok []
  | S m, Some v :: r => obind (cells m r) (fun vs => Ok (v :: vs))
  | S _, None :: _ => UB Uninit
  | S _, [] => UB OutOfBounds
  end.
(** gp.c:101-112 tree_rand. *)
Definition tree_rand (fuel : nat) : RM gptree :=
  (r <- grow_loop fuel (repeat None (Z.to_nat (ta_max_len a))) ;;
   t <- lift (cells (Z.to_nat (snd r)) (fst r)) ;;
   mu <- sam_init gp_mu_type ;;
   ret (mkGp t (snd r) None mu))%rng.

(** gp.c:132-158 tree_eval; result and gp->pos afterwards. *)
Fixpoint tree_eval (fuel : nat) (tree : list Z) (x : list f64) (pos : Z) : outcome (f64 * Z) :=
  match fuel with
  | O => OutOfFuel
  | S f =>
    (node <- rd tree pos ;;
     if GP_NUM_FUNC + ta_nconst a <=? node then
       v <- rd x (node - GP_NUM_FUNC - ta_nconst a) ;; Ok (v, pos + 1)
     else if GP_NUM_FUNC <=? node then
       v <- rd (ta_const a) (node - GP_NUM_FUNC) ;; Ok (v, pos + 1)
     else
       r1 <- tree_eval f tree x (pos + 1) ;;
       r2 <- tree_eval f tree x (snd r1) ;;
       (let u := clamp (fst r1) RET_MIN RET_MAX in
        let v := clamp (fst r2) RET_MIN RET_MAX in
        if node =? ADD then Ok (fadd u v, snd r2)
        else if node =? SUB then Ok (fsub u v, snd r2)
        else if node =? MUL then Ok (fmul u v, snd r2)
        else if node =? DIV then Ok ((if fne v f0 then fdiv u v else u), snd r2)
        else Exit))%out
  end.

(** gp.c:301-310 tree_copy. *)
Definition tree_copy (src : gptree) : outcome gptree :=
  if Z.of_nat (length (gp_tree src)) <? gp_len src then UB OutOfBounds else
  Ok (mkGp (firstn (Z.to_nat (gp_len src)) (gp_tree src)) (gp_len src) (gp_pos src) (gp_mu src)).

(** memcpy of [n] ints starting at [from]. *)
Definition slice (t : list Z) (from n : Z) : outcome (list Z) :=
  if (from <? 0) || (n <? 0) || (Z.of_nat (length t) <? from + n) then UB OutOfBounds
  else Ok (firstn (Z.to_nat n) (skipn (Z.to_nat from) t)).

(** gp.c:317-344 tree_crossover. *)
Definition tree_crossover (p1 p2 : gptree) : RM (gptree * gptree) :=
  (start1 <- rand_uniform_int 0 (gp_len p1) ;;
   end1 <- lift (traverse (gp_tree p1) start1) ;;
   start2 <- rand_uniform_int 0 (gp_len p2) ;;
   end2 <- lift (traverse (gp_tree p2) start2) ;;
   if (int_max <? start1 + (end2 - start2) + (gp_len p1 - end1)) ||
      (int_max <? start2 + (end1 - start1) + (gp_len p2 - end2)) then rfuel else
   a1 <- lift (slice (gp_tree p1) 0 start1) ;;
   b1 <- lift (slice (gp_tree p2) start2 (end2 - start2)) ;;
   c1 <- lift (slice (gp_tree p1) end1 (gp_len p1 - end1)) ;;
   a2 <- lift (slice (gp_tree p2) 0 start2) ;;
   b2 <- lift (slice (gp_tree p1) start1 (end1 - start1)) ;;
   c2 <- lift (slice (gp_tree p2) end2 (gp_len p2 - end2)) ;;
   (let new1 := a1 ++ b1 ++ c1 in
    let new2 := a2 ++ b2 ++ c2 in
    l1 <- lift (traverse new1 0) ;;
    l2 <- lift (traverse new2 0) ;;
    ret (mkGp new1 l1 (gp_pos p1) (gp_mu p1), mkGp new2 l2 (gp_pos p2) (gp_mu p2))))%rng.

(** gp.c:354-374 tree_mutate. *)
Definition tree_mutate (lm : libm) (gp : gptree) : RM (gptree * bool) :=
  (mu <- sam_adapt lm gp_mu_type (gp_mu gp) ;;
   r <- rfor (gp_len gp) (fun i (st : list Z * bool) =>
      u <- rand_uniform f0 f1 ;;
      m0 <- lift (rd mu 0) ;;
      if flt u m0 then
        orig <- lift (rd (fst st) i) ;;
        n <- (if GP_NUM_FUNC <=? orig then rand_uniform_int GP_NUM_FUNC max_term
              else rand_uniform_int 0 GP_NUM_FUNC) ;;
        t <- lift (wr (fst st) i n) ;;
        ret (t, if n =? orig then snd st else true)
      else ret st) (gp_tree gp, false) ;;
   ret (mkGp (fst r) (gp_len gp) (gp_pos gp) mu, snd r))%rng.

(** ** cond_gp.c *)

(** cond_gp.c:112-121 cond_gp_match: evaluation starts at position 0; true above 0.5. *)
Definition gp_match (c : gptree) (x : list f64) : outcome (gptree * bool) :=
  (r <- tree_eval (S (length (gp_tree c))) (gp_tree c) x 0 ;;
   Ok (mkGp (gp_tree c) (gp_len c) (Some (snd r)) (gp_mu c), fgt (fst r) fhalf))%out.

(** cond_gp.c:78-86 cond_gp_cover: new trees until one matches. *)
Fixpoint gp_cover (fuel fuel_rand : nat) (x : list f64) : RM gptree :=
  match fuel with
  | O => rfuel
  | S f =>
    (t <- tree_rand fuel_rand ;;
     r <- lift (gp_match t x) ;;
     if snd r : bool then ret (fst r) else gp_cover f fuel_rand x)%rng
  end.

(** cond_gp.c:144-156 cond_gp_crossover: the flag is true whenever crossover took place. *)
Definition gp_crossover (P : cpar) (c1 c2 : gptree) : RM (gptree * gptree * bool) :=
  (u <- rand_uniform f0 f1 ;;
   if flt u (ea_p_crossover P) then r <- tree_crossover c1 c2 ;; ret (r, true)
   else ret (c1, c2, false))%rng.

(** cond_gp.c:194-200 cond_gp_size. *)
Definition gp_size (c : gptree) : f64 := of_Z (gp_len c).

(** The function table of cond_gp.c (cond_gp.h); update (95-103) does nothing and general
    (165-173) is always false. *)
Definition gp_cond (K : cfg) (P : cpar) : condT gptree := mkCondT gptree
  (tree_rand (loop_fuel K)) (fun c => lift (tree_copy c)) (fun _ x => gp_cover (loop_fuel K) (loop_fuel K) x)
  (fun c x => lift (gp_match c x)) (fun c _ _ => ret c)
  (fun _ _ => Ok false) (gp_crossover P) (tree_mutate (lm K)) gp_size.
End Gp.
