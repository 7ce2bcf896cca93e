(** * Preservation of the bookkeeping invariant by the elementary heap/set changes. *)
From Coq Require Import ZArith Bool List Reals Lia Permutation.
From Flocq Require Import Core BinarySingleNaN.
From Verif Require Import Outcome F64 F64Facts F64Bounds Rng RngFacts Pop PopSpec.
Import ListNotations.
Open Scope Z_scope.

(** ** Permutations by counting. *)
Lemma perm_count (l1 l2 : list nat) :
  (forall x, count_occ Nat.eq_dec l1 x = count_occ Nat.eq_dec l2 x) -> Permutation l1 l2.
Proof. apply (Permutation_count_occ Nat.eq_dec). Qed.
Ltac perm :=
  apply perm_count; intros ?x; unfold owned; simpl;
  repeat (rewrite ?count_occ_app; simpl);
  repeat match goal with |- context [Nat.eq_dec ?a ?b] => destruct (Nat.eq_dec a b) end; lia.

(** ** Monad rules. *)
Section Rules.
Context {B : Type} (FO : Prop).

Lemma hp_ret {A} (a : A) (s : st B) (Q : A -> st B -> Prop) : Q a s -> hpost FO (mret a s) Q.
Proof. intros H; exact H. Qed.
Lemma hp_bind {A C} (m : M B A) (k : A -> M B C) s (P : A -> st B -> Prop) (Q : C -> st B -> Prop) :
  hpost FO (m s) P -> (forall a s', P a s' -> hpost FO (k a s') Q) -> hpost FO (mbind m k s) Q.
Proof.
  unfold hpost, mbind. intros H1 H2. destruct (m s) as [[a s']| |w|]; try exact H1.
  apply H2. exact H1.
Qed.
Lemma hp_mono {A} (o : outcome (A * st B)) (P Q : A -> st B -> Prop) :
  hpost FO o P -> (forall a s, P a s -> Q a s) -> hpost FO o Q.
Proof. unfold hpost. intros H1 H2. destruct o as [[a s']| |w|]; auto. Qed.
Lemma hp_mod f (s : st B) (Q : unit -> st B -> Prop) : Q tt (f s) -> hpost FO (mmod f s) Q.
Proof. intros H; exact H. Qed.
Lemma hp_get {A} (f : st B -> A) (s : st B) (Q : A -> st B -> Prop) : Q (f s) s -> hpost FO (mget f s) Q.
Proof. intros H; exact H. Qed.
Lemma hp_rand {A} (r : RM A) (s : st B) (P : A -> Prop) (Q : A -> st B -> Prop) :
  rpost FO r P -> (forall a g, P a -> Q a (with_rng g s)) -> hpost FO (mrand r s) Q.
Proof.
  intros H1 H2. unfold mrand, hpost. specialize (H1 (s_rng s)).
  destruct (r (s_rng s)) as [[a g]| |w|]; auto.
Qed.
Lemma hp_bind_get {A C} (f : st B -> A) (k : A -> M B C) s (Q : C -> st B -> Prop) :
  hpost FO (k (f s) s) Q -> hpost FO (mbind (mget f) k s) Q.
Proof. intros H; exact H. Qed.
Lemma hp_bind_mod {C} f (k : unit -> M B C) s (Q : C -> st B -> Prop) :
  hpost FO (k tt (f s)) Q -> hpost FO (mbind (mmod f) k s) Q.
Proof. intros H; exact H. Qed.
Lemma hp_bind_ret {A C} (a : A) (k : A -> M B C) s (Q : C -> st B -> Prop) :
  hpost FO (k a s) Q -> hpost FO (mbind (mret a) k s) Q.
Proof. intros H; exact H. Qed.
Lemma hp_bind_heap {C} (l : loc) c (k : cl B -> M B C) s (Q : C -> st B -> Prop) :
  s_heap s l = Some c -> hpost FO (k c s) Q -> hpost FO (mbind (get l) k s) Q.
Proof. intros H1 H2. unfold mbind, get. rewrite H1. exact H2. Qed.
Lemma hp_bind_put {C} (l : loc) c c' (k : unit -> M B C) s (Q : C -> st B -> Prop) :
  s_heap s l = Some c ->
  hpost FO (k tt (with_heap (upd (s_heap s) l (Some c')) (s_next s) s)) Q ->
  hpost FO (mbind (put l c') k s) Q.
Proof. intros H1 H2. unfold mbind, put. rewrite H1. exact H2. Qed.
Lemma put_eq (l : loc) c c' (s : st B) : s_heap s l = Some c ->
  put l c' s = Ok (tt, with_heap (upd (s_heap s) l (Some c')) (s_next s) s).
Proof. intros H. unfold put. rewrite H. reflexivity. Qed.
Lemma get_eq (l : loc) c (s : st B) : s_heap s l = Some c -> get l s = Ok (c, s).
Proof. intros H. unfold get. rewrite H. reflexivity. Qed.
Lemma modify_eq (l : loc) c f (s : st B) : s_heap s l = Some c ->
  modify l f s = Ok (tt, with_heap (upd (s_heap s) l (Some (f c))) (s_next s) s).
Proof. intros H. unfold modify, mbind. rewrite (get_eq _ _ _ H). apply (put_eq _ _ _ _ H). Qed.

Lemma bind_assoc_m {A C D} (m : M B A) (k : A -> M B C) (k' : C -> M B D) s :
  mbind (mbind m k) k' s = mbind m (fun a => mbind (k a) k') s.
Proof. unfold mbind. destruct (m s) as [[a s']| |w|]; reflexivity. Qed.

(** Reading a list of live rules. *)
Lemma get_all_eq (ls : list loc) (s : st B) cs :
  map (s_heap s) ls = map Some cs -> get_all ls s = Ok (cs, s).
Proof.
  revert cs. induction ls as [|l ls IH]; intros [|c cs] H; try discriminate; [reflexivity|].
  simpl in H. assert (H1 := f_equal (hd None) H). assert (H2 := f_equal (@tl _) H). simpl in H1, H2.
  simpl. unfold mbind. rewrite (get_eq _ _ _ H1). rewrite (IH cs H2). reflexivity.
Qed.
Lemma live_list (h : loc -> option (cl B)) ls : (forall l, In l ls -> h l <> None) ->
  exists cs, map h ls = map Some cs.
Proof.
  induction ls as [|l ls IH]; intros H; [exists []; reflexivity|].
  destruct IH as [cs E]; [intros; apply H; right; assumption|].
  destruct (h l) as [c|] eqn:L; [|exfalso; apply (H l); [left; reflexivity|exact L]].
  exists (c :: cs). simpl. rewrite L, E. reflexivity.
Qed.

Lemma rp_ret {A} (a : A) (P : A -> Prop) : P a -> rpost FO (ret a) P.
Proof. intros H g; exact H. Qed.
Lemma rp_bind {A C} (m : RM A) (k : A -> RM C) (P : A -> Prop) (Q : C -> Prop) :
  rpost FO m P -> (forall a, P a -> rpost FO (k a) Q) -> rpost FO (bind m k) Q.
Proof.
  intros H1 H2 g. unfold bind. specialize (H1 g). destruct (m g) as [[a g']| |w|]; auto.
  apply H2. exact H1.
Qed.
Lemma rp_mono {A} (m : RM A) (P Q : A -> Prop) : rpost FO m P -> (forall a, P a -> Q a) -> rpost FO m Q.
Proof. intros H1 H2 g. specialize (H1 g). destruct (m g) as [[a g']| |w|]; auto. Qed.
Lemma rp_rout {A} (m : RM A) (P : A -> Prop) : rpost FO m P -> rpost FO m (fun a => P a /\ rout m a).
Proof.
  intros H g. specialize (H g). destruct (m g) as [[a g']| |w|] eqn:E; auto. split; [exact H|]. exists g, g'. exact E.
Qed.
Lemma rp_bind_assoc {A C D} (m : RM A) (k : A -> RM C) (k' : C -> RM D) Q :
  rpost FO (bind m (fun a => bind (k a) k')) Q -> rpost FO (bind (bind m k) k') Q.
Proof. intros H g. specialize (H g). unfold bind in *. destruct (m g) as [[a g']| |w|]; auto. Qed.
End Rules.

(** ** Heap updates. *)
Section Heap.
Context {B : Type}.
Implicit Types h : loc -> option (cl B).

Lemma upd_eq {T} (h : loc -> T) l v : upd h l v l = v.
Proof. unfold upd. rewrite Nat.eqb_refl. reflexivity. Qed.
Lemma upd_ne {T} (h : loc -> T) l l' v : l' <> l -> upd h l v l' = h l'.
Proof. intros H. unfold upd. apply Nat.eqb_neq in H. rewrite H. reflexivity. Qed.

Lemma num_upd_eq h l c : num_of (upd h l (Some c)) l = c_num c.
Proof. unfold num_of. rewrite upd_eq. reflexivity. Qed.
Lemma num_upd_ne h l l' v : l' <> l -> num_of (upd h l v) l' = num_of h l'.
Proof. intros H. unfold num_of. rewrite upd_ne by exact H. reflexivity. Qed.
Lemma num_of_some h l c : h l = Some c -> num_of h l = c_num c.
Proof. intros H. unfold num_of. rewrite H. reflexivity. Qed.

Lemma sum_nums_app h l1 l2 : sum_nums h (l1 ++ l2) = sum_nums h l1 + sum_nums h l2.
Proof. induction l1; simpl; lia. Qed.
Lemma sum_nums_ext h h' ls : (forall l, In l ls -> num_of h' l = num_of h l) ->
  sum_nums h' ls = sum_nums h ls.
Proof.
  induction ls as [|l ls IH]; intros H; [reflexivity|]. simpl.
  rewrite IH by (intros; apply H; right; assumption). rewrite H by (left; reflexivity). reflexivity.
Qed.
Lemma sum_nums_perm h l1 l2 : Permutation l1 l2 -> sum_nums h l1 = sum_nums h l2.
Proof. induction 1; simpl; lia. Qed.
Lemma sum_nums_notin h l v ls : ~ In l ls -> sum_nums (upd h l v) ls = sum_nums h ls.
Proof. intros H. apply sum_nums_ext. intros l' I. apply num_upd_ne. intros ->. contradiction. Qed.
Lemma sum_nums_upd h l c c' ls : NoDup ls -> In l ls -> h l = Some c ->
  sum_nums (upd h l (Some c')) ls = sum_nums h ls + c_num c' - c_num c.
Proof.
  intros N I E. induction ls as [|x ls IH]; [contradiction|]. inversion N; subst. simpl.
  destruct I as [-> |I].
  - rewrite num_upd_eq, sum_nums_notin by assumption. rewrite (num_of_some _ _ _ E). lia.
  - rewrite num_upd_ne by (intros ->; contradiction). rewrite IH by assumption. lia.
Qed.
Lemma sum_nums_ge h ls l : (forall x, In x ls -> 0 <= num_of h x) -> In l ls ->
  num_of h l <= sum_nums h ls.
Proof.
  intros H I. induction ls as [|x ls IH]; [contradiction|]. simpl.
  assert (0 <= sum_nums h ls).
  { clear -H. assert (H' : forall x, In x ls -> 0 <= num_of h x) by (intros; apply H; right; assumption).
    clear H. induction ls as [|y ls IH]; simpl; [lia|].
    pose proof (H' y (or_introl eq_refl)). assert (0 <= sum_nums h ls) by (apply IH; intros; apply H'; right; assumption). lia. }
  pose proof (H x (or_introl eq_refl)).
  destruct I as [-> |I]; [lia|]. assert (num_of h l <= sum_nums h ls) by (apply IH; [intros; apply H; right; assumption|exact I]). lia.
Qed.
Lemma sum_nums_len h ls : (forall x, In x ls -> 1 <= num_of h x) -> Z.of_nat (length ls) <= sum_nums h ls.
Proof.
  induction ls as [|x ls IH]; intros H; [simpl; lia|]. cbn [length sum_nums].
  pose proof (H x (or_introl eq_refl)). assert (Z.of_nat (length ls) <= sum_nums h ls) by (apply IH; intros; apply H; right; assumption). lia.
Qed.
Lemma sum_nums_incl h l1 l2 : NoDup l1 -> (forall x, In x l1 -> In x l2) ->
  (forall x, In x l2 -> 0 <= num_of h x) -> sum_nums h l1 <= sum_nums h l2.
Proof.
  revert l2. induction l1 as [|x l1 IH]; intros l2 N I H.
  - simpl. clear -H. induction l2 as [|y l2 IH]; simpl; [lia|].
    pose proof (H y (or_introl eq_refl)). assert (0 <= sum_nums h l2) by (apply IH; intros; apply H; right; assumption). lia.
  - inversion N; subst. destruct (in_split x l2 (I x (or_introl eq_refl))) as (a & b & ->).
    rewrite sum_nums_app. simpl. assert (sum_nums h l1 <= sum_nums h (a ++ b)).
    { apply IH; [assumption| |].
      - intros y Hy. assert (In y (a ++ x :: b)) by (apply I; right; exact Hy).
        apply in_app_iff in H0. apply in_app_iff. destruct H0 as [?|[->|?]]; auto. contradiction.
      - intros y Hy. apply H. apply in_app_iff in Hy. apply in_app_iff. destruct Hy; [left|right; right]; assumption. }
    rewrite sum_nums_app in H0. lia.
Qed.
End Heap.

(** ** The invariant. *)
Section Inv.
Context {B : Type} (K : cfg) (kf Nx : Z) (wf : B -> Prop).
Notation inv := (inv K kf Nx wf).
Notation rule_ok := (rule_ok K kf Nx wf).
Implicit Types h : loc -> option (cl B).

Lemma set_ok_ext h h' S : (forall l, In l (set_list S) -> num_of h' l = num_of h l) ->
  set_ok h S -> set_ok h' S.
Proof.
  intros H [H1 H2 H3]. constructor; [exact H1| |].
  - rewrite H2. symmetry. apply sum_nums_ext. exact H.
  - intros l I. rewrite H by exact I. apply H3, I.
Qed.

Lemma in_owned (l : loc) P Kl Q ex : In l (owned P Kl Q ex) <->
  In l (set_list P) \/ In l (set_list Kl) \/ In l (set_list Q) \/ In l ex.
Proof. unfold owned. rewrite !in_app_iff. tauto. Qed.

Lemma owned_disj P Kl Q ex : NoDup (owned P Kl Q ex) ->
  NoDup (set_list P) /\ NoDup (set_list Kl) /\ NoDup (set_list Q) /\ NoDup ex /\
  (forall l, In l (set_list P) -> ~ In l (set_list Kl) /\ ~ In l (set_list Q) /\ ~ In l ex) /\
  (forall l, In l (set_list Kl) -> ~ In l (set_list Q) /\ ~ In l ex) /\
  (forall l, In l (set_list Q) -> ~ In l ex).
Proof.
  unfold owned. intros N. assert (A : forall (T : Type) (a b : list T), NoDup (a ++ b) -> NoDup a /\ NoDup b /\ forall x, In x a -> ~ In x b).
  { intros T a b. induction a as [|x a IH]; simpl; intros H; [repeat split; auto; constructor|].
    inversion H; subst. destruct (IH H3) as (N1 & N2 & D). repeat split; auto.
    - constructor; [|exact N1]. intros I. apply H2. apply in_app_iff. left; exact I.
    - intros y [-> |I]; [intros I2; apply H2, in_app_iff; right; exact I2|apply D, I]. }
  apply A in N. destruct N as (N1 & N & D1). apply A in N. destruct N as (N2 & N & D2).
  apply A in N. destruct N as (N3 & N4 & D3).
  repeat split; auto; try (intros I; apply (D1 l H); rewrite !in_app_iff; tauto);
    try (intros I; apply (D2 l H); rewrite !in_app_iff; tauto).
Qed.

(** Changing a rule without touching its numerosity. *)
Lemma inv_put h n P Kl Q ex l c c' : inv h n P Kl Q ex -> h l = Some c -> rule_ok c' ->
  c_num c' = c_num c -> inv (upd h l (Some c')) n P Kl Q ex.
Proof.
  intros I E R EN. destruct I as [i_nodup i_live i_next i_ok i_p i_k i_q i_ex].
  assert (Num : forall l', num_of (upd h l (Some c')) l' = num_of h l').
  { intros l'. destruct (Nat.eq_dec l' l) as [-> |D].
    - rewrite num_upd_eq, (num_of_some _ _ _ E). exact EN.
    - apply num_upd_ne, D. }
  constructor; try assumption.
  - intros l'. rewrite <- i_live. destruct (Nat.eq_dec l' l) as [-> |D].
    + rewrite upd_eq, E. split; intros _; discriminate.
    + rewrite upd_ne by exact D. reflexivity.
  - intros l' H. apply i_next. destruct (Nat.eq_dec l' l) as [-> |D]; [rewrite E; discriminate|].
    rewrite upd_ne in H by exact D. exact H.
  - intros l' c0 H. destruct (Nat.eq_dec l' l) as [-> |D].
    + rewrite upd_eq in H. assert (c' = c0) by congruence. subst. exact R.
    + rewrite upd_ne in H by exact D. apply (i_ok _ _ H).
  - apply (set_ok_ext h); [intros; apply Num|assumption].
  - destruct i_k as (A1 & A2 & A3). repeat split; try assumption. intros l' I. rewrite Num. apply A3, I.
  - apply (set_ok_ext h); [intros; apply Num|assumption].
  - intros l' I. rewrite Num. apply i_ex, I.
Qed.

(** Allocating a fresh rule of numerosity 1. *)
Lemma inv_alloc h n P Kl Q ex c : inv h n P Kl Q ex -> rule_ok c -> c_num c = 1 ->
  inv (upd h n (Some c)) (S n) P Kl Q (n :: ex).
Proof.
  intros I R EN. destruct I as [i_nodup i_live i_next i_ok i_p i_k i_q i_ex].
  assert (Fr : ~ In n (owned P Kl Q ex)).
  { intros H. apply i_live in H. apply i_next in H. lia. }
  assert (Num : forall l', In l' (owned P Kl Q ex) -> num_of (upd h n (Some c)) l' = num_of h l').
  { intros l' H. apply num_upd_ne. intros ->. contradiction. }
  assert (Pm : Permutation (n :: owned P Kl Q ex) (owned P Kl Q (n :: ex))) by perm.
  constructor.
  - apply (Permutation_NoDup Pm). constructor; assumption.
  - intros l'. rewrite <- (Permutation_in' (eq_refl l') Pm). simpl. rewrite <- i_live.
    destruct (Nat.eq_dec l' n) as [-> |D].
    + rewrite upd_eq. split; [intros _; left; reflexivity|discriminate].
    + rewrite upd_ne by exact D. split; [intros; right; assumption|intros [?|?]; congruence].
  - intros l' H. destruct (Nat.eq_dec l' n) as [-> |D]; [lia|].
    rewrite upd_ne in H by exact D. apply i_next in H. lia.
  - intros l' c0 H. destruct (Nat.eq_dec l' n) as [-> |D].
    + rewrite upd_eq in H. assert (c = c0) by congruence. subst. exact R.
    + rewrite upd_ne in H by exact D. apply (i_ok _ _ H).
  - apply (set_ok_ext h); [|assumption]. intros l' I. apply Num, in_owned. tauto.
  - destruct i_k as (A1 & A2 & A3). repeat split; try assumption. intros l' I.
    rewrite Num by (apply in_owned; tauto). apply A3, I.
  - apply (set_ok_ext h); [|assumption]. intros l' I. apply Num, in_owned. tauto.
  - intros l' [-> |I]; [rewrite num_upd_eq; exact EN|]. rewrite Num by (apply in_owned; tauto). apply i_ex, I.
Qed.

(** Moving an allocated rule into the population. *)
Lemma inv_add h n P Kl Q ex l : inv h n P Kl Q (l :: ex) ->
  inv h n (mkSet (l :: set_list P) (set_sz P + 1) (set_nm P + num_of h l)) Kl Q ex.
Proof.
  intros I. destruct I as [i_nodup i_live i_next i_ok i_p i_k i_q i_ex].
  assert (Pm : Permutation (owned P Kl Q (l :: ex))
                 (owned (mkSet (l :: set_list P) (set_sz P + 1) (set_nm P + num_of h l)) Kl Q ex)) by perm.
  constructor; try assumption.
  - apply (Permutation_NoDup Pm). assumption.
  - intros l'. rewrite <- (Permutation_in' (eq_refl l') Pm). apply i_live.
  - destruct i_p. constructor; simpl.
    + lia.
    + lia.
    + intros l' [-> |H]; [rewrite i_ex by (left; reflexivity); lia|apply so_pos, H].
  - intros l' H. apply i_ex. right; exact H.
Qed.

(** Freeing an allocated rule. *)
Lemma inv_free_ex h n P Kl Q ex l : inv h n P Kl Q (l :: ex) -> inv (upd h l None) n P Kl Q ex.
Proof.
  intros I. destruct I as [i_nodup i_live i_next i_ok i_p i_k i_q i_ex].
  assert (Pm : Permutation (owned P Kl Q (l :: ex)) (l :: owned P Kl Q ex)) by perm.
  assert (N : NoDup (l :: owned P Kl Q ex)) by (apply (Permutation_NoDup Pm); assumption).
  inversion N as [|? ? Fr N2]; subst.
  assert (Num : forall l', In l' (owned P Kl Q ex) -> num_of (upd h l None) l' = num_of h l').
  { intros l' H. apply num_upd_ne. intros ->. contradiction. }
  constructor; try assumption.
  - intros l'. destruct (Nat.eq_dec l' l) as [-> |D].
    + rewrite upd_eq. split; [congruence|contradiction].
    + rewrite upd_ne by exact D. rewrite i_live, (Permutation_in' (eq_refl l') Pm). simpl.
      split; [intros [?|?]; [congruence|assumption]|tauto].
  - intros l' H. apply i_next. destruct (Nat.eq_dec l' l) as [-> |D]; [rewrite upd_eq in H; congruence|].
    rewrite upd_ne in H by exact D. exact H.
  - intros l' c0 H. destruct (Nat.eq_dec l' l) as [-> |D]; [rewrite upd_eq in H; discriminate|].
    rewrite upd_ne in H by exact D. apply (i_ok _ _ H).
  - apply (set_ok_ext h); [|assumption]. intros l' I. apply Num, in_owned. tauto.
  - destruct i_k as (A1 & A2 & A3). repeat split; try assumption. intros l' I.
    rewrite Num by (apply in_owned; tauto). apply A3, I.
  - apply (set_ok_ext h); [|assumption]. intros l' I. apply Num, in_owned. tauto.
  - intros l' I. rewrite Num by (apply in_owned; tauto). apply i_ex. right; exact I.
Qed.

Lemma inv_num_pos h n P Kl Q ex l : inv h n P Kl Q ex -> In l (set_list P) -> 1 <= num_of h l.
Proof. intros I. apply (so_pos (i_p I)). Qed.
Lemma inv_live_P h n P Kl Q ex l : inv h n P Kl Q ex -> In l (set_list P) -> h l <> None.
Proof. intros I H. apply (i_live I). apply in_owned. tauto. Qed.
Lemma inv_live_K h n P Kl Q ex l : inv h n P Kl Q ex -> In l (set_list Kl) -> h l <> None.
Proof. intros I H. apply (i_live I). apply in_owned. tauto. Qed.
Lemma inv_live_Q h n P Kl Q ex l : inv h n P Kl Q ex -> In l (set_list Q) -> h l <> None.
Proof. intros I H. apply (i_live I). apply in_owned. tauto. Qed.
Lemma inv_live_ex h n P Kl Q ex l : inv h n P Kl Q ex -> In l ex -> h l <> None.
Proof. intros I H. apply (i_live I). apply in_owned. tauto. Qed.

(** Changing the numerosity of a population member to a positive value. *)
Lemma inv_renum h n P Kl Q ex l c c' : inv h n P Kl Q ex -> In l (set_list P) -> h l = Some c ->
  rule_ok c' -> 1 <= c_num c' ->
  inv (upd h l (Some c')) n
      (mkSet (set_list P) (set_sz P) (set_nm P + c_num c' - c_num c)) Kl Q ex.
Proof.
  intros I IP E R EN. destruct I as [i_nodup i_live i_next i_ok i_p i_k i_q i_ex].
  destruct (owned_disj _ _ _ _ i_nodup) as (N1 & N2 & N3 & N4 & D1 & D2 & D3).
  destruct (D1 l IP) as (DK & DQ & DE).
  constructor; try assumption.
  - intros l'. rewrite i_live || idtac. destruct (Nat.eq_dec l' l) as [-> |D].
    + rewrite upd_eq. split; [intros _; apply in_owned; simpl; tauto|discriminate].
    + rewrite upd_ne by exact D. rewrite i_live. reflexivity.
  - intros l' H. apply i_next. destruct (Nat.eq_dec l' l) as [-> |D]; [rewrite E; discriminate|].
    rewrite upd_ne in H by exact D. exact H.
  - intros l' c0 H. destruct (Nat.eq_dec l' l) as [-> |D].
    + rewrite upd_eq in H. assert (c' = c0) by congruence. subst. exact R.
    + rewrite upd_ne in H by exact D. apply (i_ok _ _ H).
  - destruct i_p. constructor; simpl.
    + assumption.
    + rewrite (sum_nums_upd h l c c') by assumption. lia.
    + intros l' H. destruct (Nat.eq_dec l' l) as [-> |D]; [rewrite num_upd_eq; exact EN|].
      rewrite num_upd_ne by exact D. apply so_pos, H.
  - destruct i_k as (A1 & A2 & A3). repeat split; try assumption. intros l' I.
    rewrite num_upd_ne by (intros ->; contradiction). apply A3, I.
  - apply (set_ok_ext h); [|assumption]. intros l' I. apply num_upd_ne. intros ->. contradiction.
  - intros l' I. rewrite num_upd_ne by (intros ->; contradiction). apply i_ex, I.
Qed.

(** Removing the i-th member of the population list into the kill set. *)
Lemma remove_nth_perm {T} i (l : list T) x : nth_error l i = Some x ->
  Permutation l (x :: remove_nth i l).
Proof.
  revert i. induction l as [|y l IH]; intros [|i] H; try discriminate; simpl in H.
  - assert (y = x) by congruence. subst. simpl. reflexivity.
  - simpl. rewrite perm_swap. constructor. apply IH, H.
Qed.
Lemma inv_kill1 h n P Kl Q ex i l c : inv h n P Kl Q ex -> nth_error (set_list P) i = Some l ->
  h l = Some c ->
  inv (upd h l (Some (set_num 0 c))) n
      (mkSet (remove_nth i (set_list P)) (set_sz P - 1) (set_nm P - c_num c))
      (mkSet (l :: set_list Kl) (set_sz Kl + 1) (set_nm Kl + 0)) Q ex.
Proof.
  intros I NE E. pose proof (remove_nth_perm _ _ _ NE) as PP.
  assert (IP : In l (set_list P)) by (eapply nth_error_In; exact NE).
  destruct I as [i_nodup i_live i_next i_ok i_p i_k i_q i_ex].
  destruct (owned_disj _ _ _ _ i_nodup) as (N1 & N2 & N3 & N4 & D1 & D2 & D3).
  destruct (D1 l IP) as (DK & DQ & DE).
  set (P' := mkSet (remove_nth i (set_list P)) (set_sz P - 1) (set_nm P - c_num c)).
  set (K' := mkSet (l :: set_list Kl) (set_sz Kl + 1) (set_nm Kl + 0)).
  assert (Pm : Permutation (owned P Kl Q ex) (owned P' K' Q ex)).
  { unfold owned, P', K'; simpl. rewrite PP at 1. simpl.
    rewrite <- Permutation_middle. reflexivity. }
  assert (NP : NoDup (l :: remove_nth i (set_list P))) by (apply (Permutation_NoDup PP N1)).
  inversion NP as [|? ? NI NR]; subst.
  constructor.
  - apply (Permutation_NoDup Pm). assumption.
  - intros l'. rewrite <- (Permutation_in' (eq_refl l') Pm). rewrite <- i_live.
    destruct (Nat.eq_dec l' l) as [-> |D].
    + rewrite upd_eq, E. split; intros _; discriminate.
    + rewrite upd_ne by exact D. reflexivity.
  - intros l' H. apply i_next. destruct (Nat.eq_dec l' l) as [-> |D]; [rewrite E; discriminate|].
    rewrite upd_ne in H by exact D. exact H.
  - intros l' c0 H. destruct (Nat.eq_dec l' l) as [-> |D].
    + rewrite upd_eq in H. assert (set_num 0 c = c0) by congruence. subst.
      destruct (i_ok _ _ E). constructor; assumption.
    + rewrite upd_ne in H by exact D. apply (i_ok _ _ H).
  - destruct i_p. constructor; simpl.
    + rewrite so_size. rewrite (Permutation_length PP). simpl length. lia.
    + rewrite sum_nums_notin by exact NI. rewrite so_num, (sum_nums_perm _ _ _ PP). simpl.
      rewrite (num_of_some _ _ _ E). lia.
    + intros l' H. rewrite num_upd_ne by (intros ->; contradiction). apply so_pos.
      apply (Permutation_in l' (Permutation_sym PP)). right; exact H.
  - destruct i_k as (A1 & A2 & A3). simpl. repeat split; try lia.
    intros l' [-> |H]; [rewrite num_upd_eq; reflexivity|].
    rewrite num_upd_ne by (intros ->; contradiction). apply A3, H.
  - apply (set_ok_ext h); [|assumption]. intros l' I. apply num_upd_ne. intros ->. contradiction.
  - intros l' I. rewrite num_upd_ne by (intros ->; contradiction). apply i_ex, I.
Qed.
End Inv.
Arguments inv_num_pos {B K kf Nx wf h n P Kl Q ex l} _ _.
Arguments inv_put {B K kf Nx wf h n P Kl Q ex l c} c' _ _ _ _.
Arguments inv_alloc {B K kf Nx wf h n P Kl Q ex} c _ _ _.
Arguments inv_add {B K kf Nx wf h n P Kl Q ex l} _.
Arguments inv_free_ex {B K kf Nx wf h n P Kl Q ex l} _.
Arguments inv_live_P {B K kf Nx wf h n P Kl Q ex l} _ _.
Arguments inv_live_K {B K kf Nx wf h n P Kl Q ex l} _ _.
Arguments inv_live_Q {B K kf Nx wf h n P Kl Q ex l} _ _.
Arguments inv_live_ex {B K kf Nx wf h n P Kl Q ex l} _ _.
Arguments inv_renum {B K kf Nx wf h n P Kl Q ex l c} c' _ _ _ _ _.
Arguments inv_kill1 {B K kf Nx wf h n P Kl Q ex i l c} _ _ _.
