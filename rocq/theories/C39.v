(** * C39 GP trees stay syntactically valid. *)
From Coq Require Import ZArith Bool List Reals Lia.
From Flocq Require Import Core BinarySingleNaN.
From Verif Require Import Outcome F64 F64Facts F64Bounds Rng RandInt Pop PopSpec Arr ArrFacts Sam Cond Pred Comp CompFacts Gp GpRand GpFacts GpOps PropGp.
Import ListNotations.
Open Scope Z_scope.

(** REFUTED when there are two or five terminals (constants plus inputs): the random terminal can be
    one past the last (rand_uniform_int(4, 4 + n) returns its upper end), and evaluating the tree
    reads past the inputs. *)
Theorem C39_refuted :
  forall nc ni : Z,
  1 <= nc ->
  1 <= ni ->
  nc + ni = 2 \/ nc + ni = 5 ->
  exists (g : rng) (c : gptree) (g' : rng),
    tree_rand (mkT nc ni) 1 g = Ok (c, g') /\
    gp_tree c = [3; 4 + nc + ni; 4 + nc + ni] /\
    (forall x : list f64, len x = ni -> gp_match (mkT nc ni) c x = UB OutOfBounds).
Proof. exact @C39_refuted_lemma. Qed.
Print Assumptions C39_refuted.

(** For every other number of terminals [targs_ok]: every tree made by any sequence of random
    generation, covering, copying, crossover, mutation and matching, with any random draws, is the
    prefix notation of one expression whose symbols are in range; evaluating it reads only the tree,
    the constants and the inputs. *)
Theorem C39_valid :
  forall a : targs,
  targs_ok a ->
  1 <= ta_depth a ->
  0 <= ta_max_len a <= int_max ->
  forall (lm : libm) (c : gptree),
  made_gp a lm c ->
  (exists e : gexpr, gp_tree c = flat e /\ gp_len c = len (flat e) /\ ranged a e) /\
  (forall x : list f64, ta_inputs a <= len x -> exists (d : gptree) (b : bool), gp_match a c x = Ok (d, b)).
Proof. exact @C39_lemma. Qed.
Print Assumptions C39_valid.

(** Random trees: the root is a function, the depth at most init_depth, the length at most max_len.
    The first attempt succeeds if a full tree fits. *)
Theorem C39_random :
  forall a : targs,
  targs_ok a ->
  1 <= ta_depth a ->
  0 <= ta_max_len a <= int_max ->
  libm ->
  forall (fuel : nat) (g : rng),
  match tree_rand a fuel g with
  | Ok (c, _) =>
      exists e : gexpr,
        gp_tree c = flat e /\
        gp_len c = len (flat e) /\
        ranged a e /\
        (1 <= height e <= Z.to_nat (ta_depth a))%nat /\
        len (flat e) <= ta_max_len a /\ length (gp_mu c) = 1%nat
  | OutOfFuel => fuel = 0%nat \/ ta_max_len a < 2 ^ (ta_depth a + 1) - 1
  | _ => False
  end.
Proof. exact @C39_rand_lemma. Qed.
Print Assumptions C39_random.

(** With max_len below 3 no random tree is ever found: the loop has no end. *)
Theorem C39_endless :
  forall a : targs,
  targs_ok a ->
  1 <= ta_depth a ->
  0 <= ta_max_len a <= int_max ->
  libm -> forall (fuel : nat) (g : rng), ta_max_len a < 3 -> tree_rand a fuel g = OutOfFuel.
Proof. exact @C39_stuck_lemma. Qed.
Print Assumptions C39_endless.

(** A copy is identical. *)
Theorem C39_copy :
  forall (a : targs) (c : gptree) (e : gexpr), holds a c e -> tree_copy c = Ok c.
Proof. exact @C39_copy_lemma. Qed.
Print Assumptions C39_copy.

(** Crossover exchanges two subtrees of the parents and nothing else; the total length is kept. (The
    model stops at trees of more than INT_MAX nodes.) *)
Theorem C39_crossover :
  forall a : targs,
  libm ->
  forall (p1 p2 : gptree) (e1 e2 : gexpr) (g : rng),
  holds a p1 e1 ->
  holds a p2 e2 ->
  gp_len p1 <= int_max ->
  gp_len p2 <= int_max ->
  match tree_crossover p1 p2 g with
  | Ok (r, _) => swapped a p1 p2 e1 e2 r
  | OutOfFuel => int_max < gp_len p1 + gp_len p2
  | _ => False
  end.
Proof. exact @C39_crossover_lemma. Qed.
Print Assumptions C39_crossover.

(** Mutation replaces functions by functions and terminals by terminals, keeps the shape, never
    fails, and reports a change exactly when the tree differs. *)
Theorem C39_mutation :
  forall a : targs,
  targs_ok a ->
  forall (lm : libm) (c : gptree) (e : gexpr) (g : rng),
  holds a c e ->
  length (gp_mu c) = 1%nat ->
  exists (d : gptree) (ch : bool) (g' : rng),
    tree_mutate a lm c g = Ok (d, ch, g') /\ mutated a c e (d, ch) /\ length (gp_mu d) = 1%nat.
Proof. exact @C39_mutate_lemma. Qed.
Print Assumptions C39_mutation.

(** Evaluation gives the value of the expression (arguments clamped to [-1000, 1000], division by
    zero gives the dividend), ends exactly at the end of the tree, and changes nothing but the
    position; the condition matches when the value exceeds 0.5. *)
Theorem C39_evaluation :
  forall a : targs,
  targs_ok a ->
  forall (c : gptree) (e : gexpr) (x : list f64),
  holds a c e ->
  ta_inputs a <= len x ->
  gp_match a c x =
  Ok
    ({| gp_tree := gp_tree c; gp_len := gp_len c; gp_pos := Some (gp_len c); gp_mu := gp_mu c |},
     fgt (value a x e) fhalf).
Proof. exact @C39_match_lemma. Qed.
Print Assumptions C39_evaluation.

(** Covering ends only with a tree that matches the input. *)
Theorem C39_cover :
  forall a : targs,
  targs_ok a ->
  1 <= ta_depth a ->
  0 <= ta_max_len a <= int_max ->
  libm ->
  forall (f1 f2 : nat) (x : list f64) (g : rng),
  ta_inputs a <= len x ->
  match gp_cover a f1 f2 x g with
  | Ok (c, _) =>
      wf_gp a c /\
      (exists e : gexpr,
         holds a c e /\
         (1 <= height e <= Z.to_nat (ta_depth a))%nat /\
         gp_len c <= ta_max_len a /\ fgt (value a x e) fhalf = true)
  | OutOfFuel => True
  | _ => False
  end.
Proof. exact @C39_cover_lemma. Qed.
Print Assumptions C39_cover.

(** The value is a number if the constants and inputs are. *)
Theorem C39_number :
  forall (a : targs) (x : list f64) (e : gexpr),
  len (ta_const a) = ta_nconst a ->
  ta_inputs a <= len x -> Forall nn (ta_const a) -> Forall nn x -> ranged a e -> nn (value a x e).
Proof. exact @value_nn. Qed.
Print Assumptions C39_number.

(** A tree is the notation of at most one expression. *)
Theorem C39_unique :
  forall (a : targs) (c : gptree) (e e' : gexpr), holds a c e -> holds a c e' -> e = e'.
Proof. exact @holds_unique. Qed.
Print Assumptions C39_unique.

(** Rules with GP conditions satisfy the contract assumed of conditions by the theorems about the
    population, with any action and prediction that satisfy theirs. *)
Theorem C39_system :
  forall (dom : list f64 -> Prop) (FO : Prop) (K : cfg) (P : cpar) (a : targs) 
    (A Q : Type) (VA : actT A) (VP : predT Q) (wa : A -> Prop) (wp : Q -> Prop),
  FO ->
  targs_ok a ->
  1 <= ta_depth a ->
  0 <= ta_max_len a <= int_max ->
  ta_inputs a <= x_dim K ->
  act_ok dom FO K VA wa ->
  pred_ok dom FO K VP wp ->
  vt_ok (dom := dom) FO (join (gp_cond a K P) VA VP) K (wf_pay (wf_gp a) wa wp) (mt_pay (gp_matches a)).
Proof. exact @C39_system_lemma. Qed.
Print Assumptions C39_system.

(** Three constants and four inputs: a random tree of depth two, and the crossover of two trees. *)
Definition C39_gen : rng := mkRng (fun n => nth n [1; 2 ^ 50; 2 ^ 51 + 2 ^ 50; 2 ^ 51; 2 ^ 50; 2 ^ 51 + 1; 3; 2 ^ 51 + 2 ^ 49; 7; 9]%Z 2) 0 false f0.
Definition C39_args : targs := mkTargs f1 f0 4 3 2 100 [f0; f1; fhalf].
Definition C39_t1 : gptree := mkGp [0; 4; 7] 3 None [f1].
Definition C39_t2 : gptree := mkGp [2; 5; 1; 6; 8] 5 None [f1].
Example C39_example : targs_ok C39_args /\
  holds C39_args C39_t1 (Node 0 (Leaf 4) (Leaf 7)) /\ holds C39_args C39_t2 (Node 2 (Leaf 5) (Node 1 (Leaf 6) (Leaf 8))) /\
  match tree_rand C39_args 1 C39_gen with Ok (c, _) => gp_tree c = [0; 9; 1; 7; 4] | _ => False end /\
  match tree_crossover C39_t1 C39_t2 C39_gen with Ok ((c, d), _) => gp_tree c = [5] /\ gp_tree d = [2; 0; 4; 7; 1; 6; 8] | _ => False end /\
  match gp_match C39_args C39_t2 [f0; of_Z 3; f0; f1] with Ok (c, b) => gp_pos c = Some 5 /\ b = false | _ => False end.
Proof. unfold targs_ok, holds. cbn. unfold int_max. repeat split; try lia; vm_compute; reflexivity. Qed.
