(** * GP trees are prefix expressions. *)
From Coq Require Import ZArith Bool List Lia Reals.
From Flocq Require Import Core BinarySingleNaN.
From Verif Require Import Outcome F64 F64Facts Rng RngFacts RandInt Pop PopSpec Arr ArrFacts Sam SamFacts Cond Comp CompFacts Gp GpRand.
Import ListNotations.
Open Scope Z_scope.

(** Expressions, their prefix notation, and their value. *)
Inductive gexpr := Leaf (n : Z) | Node (op : Z) (l r : gexpr).
Fixpoint flat (e : gexpr) : list Z :=
  match e with Leaf n => [n] | Node op l r => op :: flat l ++ flat r end.
Fixpoint height (e : gexpr) : nat :=
  match e with Leaf _ => O | Node _ l r => S (Nat.max (height l) (height r)) end.
(** Functions are 0..3, terminals are numbered from 4: first the constants, then the inputs. *)
Fixpoint ranged (a : targs) (e : gexpr) : Prop :=
  match e with
  | Leaf n => 4 <= n < 4 + ta_nconst a + ta_inputs a
  | Node op l r => 0 <= op < 4 /\ ranged a l /\ ranged a r
  end.
Fixpoint value (a : targs) (x : list f64) (e : gexpr) : f64 :=
  match e with
  | Leaf n => if n <? 4 + ta_nconst a then at_ f0 (ta_const a) (n - 4) else at_ f0 x (n - 4 - ta_nconst a)
  | Node op l r =>
      let u := clamp (value a x l) (of_Z (-1000)) (of_Z 1000) in
      let v := clamp (value a x r) (of_Z (-1000)) (of_Z 1000) in
      if op =? 0 then fadd u v else if op =? 1 then fsub u v else if op =? 2 then fmul u v
      else if feq v f0 then u else fdiv u v
  end.
(** The subtree that starts at position [k] of the prefix notation, and its replacement. *)
Fixpoint size (e : gexpr) : nat := match e with Leaf _ => 1%nat | Node _ l r => S (size l + size r) end.
Fixpoint subtree (e : gexpr) (k : nat) : gexpr :=
  match k, e with
  | S j, Node _ l r => if (j <? size l)%nat then subtree l j else subtree r (j - size l)
  | _, _ => e
  end.
Fixpoint graft (e : gexpr) (k : nat) (s : gexpr) : gexpr :=
  match k, e with
  | S j, Node op l r => if (j <? size l)%nat then Node op (graft l j s) r else Node op l (graft r (j - size l) s)
  | _, _ => s
  end.
(** Same functions-versus-terminals pattern. *)
Fixpoint same_shape (e f : gexpr) : Prop :=
  match e, f with
  | Leaf _, Leaf _ => True
  | Node _ l r, Node _ l' r' => same_shape l l' /\ same_shape r r'
  | _, _ => False
  end.

Lemma size_flat e : length (flat e) = size e.
Proof. induction e; cbn; [reflexivity|]. rewrite app_length. congruence. Qed.
Lemma size_pos e : (1 <= size e)%nat.
Proof. destruct e; cbn; lia. Qed.
Lemma height_size e : (height e < size e)%nat.
Proof. induction e; cbn; lia. Qed.
Lemma len_flat e : len (flat e) = Z.of_nat (size e).
Proof. unfold len. rewrite size_flat. reflexivity. Qed.
Lemma len_app {A} (l r : list A) : len (l ++ r) = len l + len r.
Proof. unfold len. rewrite app_length. lia. Qed.
Lemma len_cons {A} (v : A) r : len (v :: r) = 1 + len r.
Proof. unfold len. cbn [length]. lia. Qed.

Lemma rd_app {A} (p : list A) v q : rd (p ++ v :: q) (len p) = Ok v.
Proof.
  unfold rd. pose proof (len_nonneg p). destruct (len p <? 0) eqn:E; [lia|]. unfold len. rewrite Nat2Z.id.
  rewrite nth_error_app2 by lia. rewrite Nat.sub_diag. reflexivity.
Qed.

Section Args.
Context (a : targs).
Notation ranged := (ranged a).

Lemma subtree_ranged e : ranged e -> forall k, ranged (subtree e k).
Proof.
  induction e as [n|op l IHl r IHr]; intros H k; destruct k as [|k]; try exact H.
  destruct H as (H & Hl & Hr). cbn [subtree]. destruct (k <? size l)%nat; auto.
Qed.
Lemma graft_ranged e s : ranged e -> ranged s -> forall k, ranged (graft e k s).
Proof.
  induction e as [n|op l IHl r IHr]; intros H Hs k; destruct k as [|k]; try exact Hs.
  destruct H as (H & Hl & Hr). cbn [graft]. destruct (k <? size l)%nat; cbn [GpFacts.ranged]; auto.
Qed.

(** The part of the prefix notation that a subtree occupies. *)
Lemma flat_split e : forall k, (k < size e)%nat -> exists pre post, length pre = k /\
  flat e = pre ++ flat (subtree e k) ++ post /\ forall s, flat (graft e k s) = pre ++ flat s ++ post.
Proof.
  induction e as [n|op l IHl r IHr]; intros k Hk; cbn in Hk.
  - assert (k = 0)%nat as -> by lia. exists [], []. cbn. repeat split. intros s. rewrite app_nil_r. reflexivity.
  - destruct k as [|k].
    + exists [], []. cbn. rewrite app_nil_r. repeat split. intros s. rewrite app_nil_r. reflexivity.
    + cbn [subtree graft flat]. destruct (k <? size l)%nat eqn:E.
      * apply Nat.ltb_lt in E. destruct (IHl k E) as (pre & post & L & E1 & E2). exists (op :: pre), (post ++ flat r).
        split; [cbn; congruence|]. split; [rewrite E1 at 1; rewrite <- !app_assoc; reflexivity|].
        intros s. cbn. rewrite E2, <- !app_assoc. reflexivity.
      * apply Nat.ltb_ge in E. destruct (IHr (k - size l)%nat ltac:(lia)) as (pre & post & L & E1 & E2). exists (op :: flat l ++ pre), post.
        split; [cbn; rewrite app_length, size_flat; lia|]. split; [rewrite E1 at 1; cbn [app]; rewrite <- !app_assoc; reflexivity|].
        intros s. cbn [flat]. rewrite E2. cbn [app]. rewrite <- !app_assoc. reflexivity.
Qed.

Lemma traverse_ok e : ranged e -> forall f pre post, (height e < f)%nat ->
  tree_traverse f (pre ++ flat e ++ post) (len pre) = Ok (len pre + len (flat e)).
Proof.
  induction e as [n|op l IHl r IHr]; intros H f pre post Hf; destruct f as [|f]; try lia; cbn [tree_traverse flat] in *.
  - cbn [app]. rewrite rd_app. cbn [obind]. change (4 <= n < 4 + ta_nconst a + ta_inputs a) in H. destruct (GP_NUM_FUNC <=? n) eqn:E; [reflexivity|unfold GP_NUM_FUNC in E; lia].
  - destruct H as (H & Hl & Hr). cbn [app]. rewrite rd_app. cbn [obind]. destruct (GP_NUM_FUNC <=? op) eqn:E; [unfold GP_NUM_FUNC in E; lia|].
    cbn [height] in Hf.
    replace (pre ++ op :: (flat l ++ flat r) ++ post) with ((pre ++ [op]) ++ flat l ++ (flat r ++ post)) by (rewrite <- !app_assoc; reflexivity).
    replace (len pre + 1) with (len (pre ++ [op])) by (rewrite len_app; reflexivity).
    rewrite (IHl Hl) by lia. cbn [obind].
    replace ((pre ++ [op]) ++ flat l ++ flat r ++ post) with ((pre ++ [op] ++ flat l) ++ flat r ++ post) by (rewrite <- !app_assoc; reflexivity).
    replace (len (pre ++ [op]) + len (flat l)) with (len (pre ++ [op] ++ flat l)) by (rewrite !len_app; lia).
    rewrite (IHr Hr) by lia. f_equal. unfold len. repeat (rewrite app_length; cbn [length]). cbn [length]. rewrite ?app_length. lia.
Qed.
(** The end of the subtree starting at [k]. *)
Lemma traverse_at e k : ranged e -> 0 <= k < len (flat e) ->
  traverse (flat e) k = Ok (k + len (flat (subtree e (Z.to_nat k)))).
Proof.
  intros H Hk. rewrite len_flat in Hk. destruct (flat_split e (Z.to_nat k) ltac:(lia)) as (pre & post & L & E1 & E2).
  unfold traverse. set (s := subtree e (Z.to_nat k)) in *. assert (LP : len pre = k) by (unfold len; lia).
  assert (HF : (height s < S (length (flat e)))%nat).
  { pose proof (height_size s). rewrite E1, !app_length, size_flat. lia. }
  rewrite <- LP. rewrite E1 at 2. apply traverse_ok; [apply subtree_ranged, H|exact HF].
Qed.
Lemma traverse_all e : ranged e -> traverse (flat e) 0 = Ok (len (flat e)).
Proof. intros H. rewrite traverse_at; [|exact H|rewrite len_flat; pose proof (size_pos e); lia]. destruct e; reflexivity. Qed.

(** *** Evaluation. *)
Context (CC : len (ta_const a) = ta_nconst a).
Lemma eval_ok x e : ta_inputs a <= len x -> ranged e -> forall f pre post, (height e < f)%nat ->
  tree_eval a f (pre ++ flat e ++ post) x (len pre) = Ok (value a x e, len pre + len (flat e)).
Proof.
  intros HX. induction e as [n|op l IHl r IHr]; intros H f pre post Hf; destruct f as [|f]; try lia; cbn [tree_eval flat] in *.
  - cbn [app]. rewrite rd_app. cbn [obind]. change (4 <= n < 4 + ta_nconst a + ta_inputs a) in H. unfold GP_NUM_FUNC. cbn [value].
    destruct (4 + ta_nconst a <=? n) eqn:E.
    + rewrite (rd_ok f0) by lia. cbn [obind]. destruct (n <? 4 + ta_nconst a) eqn:E2; [lia|]. reflexivity.
    + destruct (4 <=? n) eqn:E3; [|lia]. rewrite (rd_ok f0) by lia. cbn [obind]. destruct (n <? 4 + ta_nconst a) eqn:E2; [|lia]. reflexivity.
  - destruct H as (H & Hl & Hr). cbn [app]. rewrite rd_app. cbn [obind]. unfold GP_NUM_FUNC.
    pose proof (len_nonneg (ta_const a)). destruct (4 + ta_nconst a <=? op) eqn:E; [lia|]. destruct (4 <=? op) eqn:E3; [lia|].
    cbn [height] in Hf.
    replace (pre ++ op :: (flat l ++ flat r) ++ post) with ((pre ++ [op]) ++ flat l ++ (flat r ++ post)) by (rewrite <- !app_assoc; reflexivity).
    replace (len pre + 1) with (len (pre ++ [op])) by (rewrite len_app; reflexivity).
    rewrite (IHl Hl) by lia. cbn [obind snd].
    replace ((pre ++ [op]) ++ flat l ++ flat r ++ post) with ((pre ++ [op] ++ flat l) ++ flat r ++ post) by (rewrite <- !app_assoc; reflexivity).
    replace (len (pre ++ [op]) + len (flat l)) with (len (pre ++ [op] ++ flat l)) by (rewrite !len_app; lia).
    rewrite (IHr Hr) by lia. cbn [obind snd fst].
    replace (len (pre ++ [op] ++ flat l) + len (flat r)) with (len pre + len (op :: flat l ++ flat r)) by (unfold len; repeat (rewrite app_length; cbn [length]); cbn [length]; rewrite ?app_length; lia).
    cbn [value]. unfold RET_MIN, RET_MAX, ADD, SUB, MUL, DIV.
    assert (op = 0 \/ op = 1 \/ op = 2 \/ op = 3) as [->|[->|[->| ->]]] by lia; try reflexivity.
    change (3 =? 0) with false. change (3 =? 1) with false. change (3 =? 2) with false. change (3 =? 3) with true. cbv zeta iota. unfold fne, feq. destruct (Beqb _ f0); reflexivity.
Qed.
End Args.
