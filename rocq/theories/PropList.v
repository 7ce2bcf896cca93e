(** * C44: lists of layers. *)
From Coq Require Import ZArith Bool List Lia.
From Verif Require Import Outcome Arr Llist LlistFacts.
Import ListNotations.
Open Scope Z_scope.

Section Any.
Context {L : Type} (nin nout : L -> Z).
Notation cell := (nat * L)%type.
Notation heap := (@heap L).
Notation represents := (represents nin nout).

Lemma C44_insert_lemma (h : heap) (nt : net) (ls : list cell) (l : L) (pos : Z) : represents h nt ls -> ls = [] \/ 1 <= pos ->
  exists h' nt', neural_insert nin nout h nt l pos = Ok (h', nt') /\
    represents h' nt' (firstn (Z.to_nat pos) ls ++ (fresh h, l) :: skipn (Z.to_nat pos) ls) /\
    n_layers nt' = n_layers nt + 1 /\ n_train nt' = n_train nt /\ (forall a, a <> fresh h -> ~ In a (locs ls) -> cells h' a = cells h a).
Proof.
  intros R P. destruct (insert_ok nin nout h nt ls l pos R P) as (h' & nt' & E & R' & T & F & O). exists h', nt'. split; [exact E|]. split; [exact R'|].
  split; [|split; [exact T|intros a A B; apply O; intros [X|X]; [congruence|contradiction]]].
  rewrite (rp_len _ _ _ _ _ R'), (rp_len _ _ _ _ _ R). unfold insert_at. rewrite app_length. cbn [length]. rewrite <- (firstn_skipn (Z.to_nat pos) ls) at 3. rewrite app_length. lia.
Qed.
Lemma C44_remove_lemma (h : heap) (nt : net) (ls : list cell) (pos : Z) : represents h nt ls -> (2 <= length ls)%nat -> 1 <= pos < Z.of_nat (length ls) ->
  exists h' nt', neural_remove nout h nt pos = Ok (h', nt') /\
    represents h' nt' (firstn (Z.to_nat pos) ls ++ skipn (S (Z.to_nat pos)) ls) /\ n_layers nt' = n_layers nt - 1 /\ n_train nt' = n_train nt /\
    (forall a l, nth_error ls (Z.to_nat pos) = Some (a, l) -> cells h' a = None) /\
    (forall a, ~ In a (locs ls) -> cells h' a = cells h a).
Proof.
  intros R L2 P. destruct (nth_error ls (Z.to_nat pos)) as [(a, la)|] eqn:E; [|apply nth_error_None in E; lia].
  destruct (nth_error_split _ _ E) as (xs & ys & EL & LX). assert (XS : firstn (Z.to_nat pos) ls = xs) by (rewrite EL, <- LX, firstn_app, firstn_all, Nat.sub_diag; cbn; apply app_nil_r).
  assert (YS : skipn (S (Z.to_nat pos)) ls = ys).
  { rewrite EL, <- LX. rewrite skipn_app. rewrite skipn_all2 by lia. replace (S (length xs) - length xs)%nat with 1%nat by lia. reflexivity. }
  rewrite XS, YS. rewrite EL in R.
  assert (NX : xs <> []) by (destruct xs; [cbn in LX; lia|discriminate]).
  destruct (remove_ok nin nout h nt xs a la ys pos R) as (h' & nt' & E' & R' & NI & T & F & C & O); [destruct xs; [contradiction|discriminate]|auto|].
  exists h', nt'. split; [exact E'|].
  assert (EW : with_inputs (first_inputs nin (xs ++ ys)) nt' = nt').
  { assert (X : first_inputs nin (xs ++ ys) = n_inputs nt'); [|rewrite X; destruct nt'; reflexivity]. rewrite NI. destruct xs as [|(x, lx) xs]; [contradiction|]. symmetry. exact (rp_in _ _ _ _ _ R x lx (xs ++ (a, la) :: ys) eq_refl). }
  rewrite EW in R'. split; [exact R'|]. split; [rewrite (rp_len _ _ _ _ _ R'), (rp_len _ _ _ _ _ R), !app_length; cbn [length]; lia|]. split; [exact T|].
  split; [intros b l B; injection B as <- <-; exact C|]. rewrite EL. exact O.
Qed.
Lemma C44_remove_first_lemma (h : heap) (nt : net) (a : nat) (la : L) (ls : list cell) (pos : Z) : represents h nt ((a, la) :: ls) -> ls <> [] -> pos <= 0 ->
  exists h' nt', neural_remove nout h nt pos = Ok (h', nt') /\
    represents h' (mkNet (n_layers nt') (first_inputs nin ls) (n_outputs nt') (n_output nt') (n_head nt') (n_tail nt') (n_train nt')) ls /\
    n_inputs nt' = nin la /\ cells h' a = None.
Proof.
  intros R NE P. destruct (remove_ok nin nout h nt [] a la ls pos R NE) as (h' & nt' & E' & R' & NI & T & F & C & O); [cbn; lia|].
  exists h', nt'. split; [exact E'|]. split; [exact R'|]. split; [|exact C]. rewrite NI. exact (rp_in _ _ _ _ _ R a la ls eq_refl).
Qed.
Lemma C44_rejected_lemma (h : heap) (nt : net) (ls : list cell) (pos : Z) : represents h nt ls ->
  (length ls < 2)%nat \/ Z.of_nat (length ls) <= pos -> neural_remove nout h nt pos = Exit.
Proof.
  intros R [H|H]; [|apply (remove_out nin nout h nt ls); [exact R|lia]].
  destruct ls as [|c [|c' r]]; [apply (remove_out nin nout h nt []); [exact R|cbn; lia]|apply (remove_only nin nout h nt c pos R)|cbn in H; lia].
Qed.
Lemma C44_push_lemma (h : heap) (nt : net) (ls : list cell) (l : L) : represents h nt ls ->
  exists h' nt', neural_push nin nout h nt l = Ok (h', nt') /\ represents h' nt' (ls ++ [(fresh h, l)]) /\ (forall a, a <> fresh h -> ~ In a (locs ls) -> cells h' a = cells h a).
Proof.
  intros R. destruct (push_ok nin nout h nt ls l R) as (h' & nt' & E & R' & _ & _ & O). exists h', nt'. split; [exact E|]. split; [exact R'|]. intros a A B. apply O. intros [X|X]; [congruence|contradiction].
Qed.
Lemma C44_pop_lemma (h : heap) (nt : net) (ls : list cell) (a : nat) (l : L) : represents h nt (ls ++ [(a, l)]) -> ls <> [] ->
  exists h' nt', neural_pop nout h nt = Ok (h', nt') /\ represents h' nt' ls /\ cells h' a = None.
Proof.
  intros R NE. assert (LN : (1 <= length ls)%nat) by (destruct ls; [contradiction|cbn; lia]). unfold neural_pop. rewrite (rp_len _ _ _ _ _ R).
  destruct (C44_remove_lemma h nt (ls ++ [(a, l)]) (Z.of_nat (length (ls ++ [(a, l)])) - 1) R) as (h' & nt' & E & R' & _ & _ & C & _); [rewrite app_length; cbn; lia|rewrite app_length; cbn; lia|].
  exists h', nt'. split; [exact E|]. replace (Z.to_nat (Z.of_nat (length (ls ++ [(a, l)])) - 1)) with (length ls) in * by (rewrite app_length; cbn [length]; lia).
  rewrite firstn_app, firstn_all, Nat.sub_diag in R'. cbn [firstn] in R'. rewrite app_nil_r in R'. rewrite skipn_all2 in R' by (rewrite app_length; cbn; lia). rewrite app_nil_r in R'.
  split; [exact R'|]. apply (C a l). rewrite nth_error_app2 by lia. rewrite Nat.sub_diag. reflexivity.
Qed.
Lemma C44_walk_lemma (h : heap) (nt : net) (ls : list cell) (fuel : nat) : represents h nt ls -> (length ls <= fuel)%nat ->
  forwards fuel h (n_tail nt) = Ok ls /\ backwards fuel h (n_head nt) = Ok (rev ls).
Proof.
  intros R LE. rewrite (rp_tail _ _ _ _ _ R), (rp_head _ _ _ _ _ R). split; [apply (forwards_ok ls h None)|apply (backwards_ok nin nout ls h None)]; auto; apply (rp_seg _ _ _ _ _ R).
Qed.
Lemma C44_copy_lemma (cp : L -> outcome L) (h : heap) (nt : net) (ls : list cell) (fuel : nat) : represents h nt ls -> (length ls <= fuel)%nat ->
  (forall c, In c ls -> exists l, cp (snd c) = Ok l) ->
  exists h' nt' new, neural_copy nin nout cp fuel h nt = Ok (h', nt') /\ represents h' nt' new /\ represents h' nt ls /\
    Forall2 (fun c c' => cp (snd c) = Ok (snd c') /\ (fresh h <= fst c')%nat) ls new /\ (forall a, (a < fresh h)%nat -> cells h' a = cells h a).
Proof.
  intros R LE CP. destruct (copy_loop_ok nin nout cp ls h None neural_init [] fuel) as (h' & nt' & new & E & R' & LN & F2 & T & O).
  - apply (rp_seg _ _ _ _ _ R).
  - apply (rp_fresh _ _ _ _ _ R).
  - apply (rp_nodup _ _ _ _ _ R).
  - intros a _ [].
  - apply init_represents.
  - exact LE.
  - exact CP.
  - exists h', nt', new. unfold neural_copy. rewrite (rp_tail _ _ _ _ _ R). split; [exact E|]. split; [exact R'|].
    split; [|split; [exact F2|intros a A; apply O; auto]]. destruct R as [S N F TL HD LEN RI RO]. constructor; auto.
    + apply (seg_frame h); [|exact S]. intros a A. apply O; auto.
    + intros a A. specialize (F a A). destruct new as [|c new].
      * destruct ls; [contradiction A|discriminate LN].
      * pose proof (rp_fresh _ _ _ _ _ R' (fst c) (or_introl eq_refl)) as X. inversion F2 as [|? ? ? ? (U & V)]; subst. lia.
Qed.
Lemma C44_free_lemma (h : heap) (nt : net) (ls : list cell) (fuel : nat) : represents h nt ls -> (length ls <= fuel)%nat ->
  exists h' nt', neural_free fuel h nt = Ok (h', nt') /\ n_layers nt' = 0 /\ n_tail nt' = None /\
    (forall a, In a (locs ls) -> cells h' a = None) /\ (forall a, ~ In a (locs ls) -> cells h' a = cells h a).
Proof.
  intros R LE. destruct (free_ok ls h nt None fuel (rp_seg _ _ _ _ _ R) (rp_nodup _ _ _ _ _ R) (rp_tail _ _ _ _ _ R) LE) as (h' & E & H1 & H2 & _).
  eexists h', _. split; [exact E|]. cbn. split; [rewrite (rp_len _ _ _ _ _ R); lia|]. auto.
Qed.
Lemma C44_refuted_insert_lemma (h : heap) (nt : net) (ls : list cell) (l : L) (pos : Z) : represents h nt ls -> ls <> [] -> pos <= 0 ->
  neural_insert nin nout h nt l pos = UB NullDeref.
Proof. apply insert_first_fails. Qed.
End Any.

(** Layers given by their numbers of inputs and outputs. *)
Definition shape2 : Type := (Z * Z)%type.
Definition built (ls : list shape2) : outcome (@heap shape2 * net) :=
  fold_left (fun o l => (r <- o ;; neural_push fst snd (fst r) (snd r) l)%out) ls (Ok (mkHeap (fun _ => None) O, neural_init)).
Definition numbers (r : outcome (@heap shape2 * net)) : option (Z * Z * Z * list shape2 * list shape2) :=
  match r with
  | Ok (h, nt) => match forwards 10 h (n_tail nt), backwards 10 h (n_head nt) with
                  | Ok a, Ok b => Some (n_layers nt, n_inputs nt, n_outputs nt, map snd a, map snd b) | _, _ => None end
  | _ => None
  end.
Definition then_ {A B} (r : outcome A) (f : A -> outcome B) : outcome B := obind r f.

Lemma C44_refuted_remove_lemma : exists (h : @heap shape2) (nt : net) (h' : @heap shape2) (nt' : net),
  represents fst snd h nt [(0%nat, (3, 5)); (1%nat, (5, 2))] /\ neural_remove snd h nt 0 = Ok (h', nt') /\ n_inputs nt' = 3 /\
  forwards 1 h' (n_tail nt') = Ok [(1%nat, (5, 2))].
Proof.
  set (h := mkHeap (fun a => match a with 0%nat => Some (mkNode (3, 5) (Some 1%nat) None) | 1%nat => Some (mkNode (5, 2) None (Some 0%nat)) | _ => None end) 2).
  set (nt := mkNet 2 3 2 (Some 1%nat) (Some 1%nat) (Some 0%nat) false).
  assert (R : represents fst snd h nt [(0%nat, (3, 5)); (1%nat, (5, 2))]).
  { constructor; try reflexivity.
    - repeat split; reflexivity.
    - repeat constructor; cbn; intuition discriminate.
    - cbn. intros a [<-|[<-|[]]]; lia.
    - intros a l r E. injection E as <- <- <-. reflexivity.
    - intros a l r E. destruct r as [|x [|y r]]; [discriminate E|injection E as _ <- <-; auto|destruct r; discriminate E]. }
  exists h, nt. assert (E := C44_remove_first_lemma fst snd h nt 0%nat (3, 5) [(1%nat, (5, 2))] 0 R ltac:(discriminate) ltac:(lia)).
  destruct E as (h' & nt' & E & R' & NI & _). exists h', nt'. split; [exact R|]. split; [exact E|]. split; [exact NI|].
  exact (proj1 (C44_walk_lemma fst snd h' _ _ 1 R' ltac:(cbn; lia))).
Qed.
