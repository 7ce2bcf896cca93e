(** * Array accesses, loops and total random computations. *)
From Coq Require Import ZArith Bool List Lia Reals.
From Flocq Require Import Core BinarySingleNaN.
From Verif Require Import Outcome F64 F64Facts F64Bounds Rng RngFacts Pop PopSpec Arr.
Import ListNotations.
Open Scope Z_scope.

(** Element [i] of an array. *)
Definition at_ {A} (d : A) (l : list A) (i : Z) : A := nth (Z.to_nat i) l d.
Definition len {A} (l : list A) : Z := Z.of_nat (length l).
Arguments at_ : simpl never.
Arguments len : simpl never.

Lemma len_nonneg {A} (l : list A) : 0 <= len l. Proof. unfold len. lia. Qed.
Lemma len_repeat {A} (a : A) n : 0 <= n -> len (repeat a (Z.to_nat n)) = n.
Proof. intros H. unfold len. rewrite repeat_length. lia. Qed.

Lemma rd_ok {A} (d : A) l i : 0 <= i < len l -> rd l i = Ok (at_ d l i).
Proof.
  intros (H1 & H2). unfold rd, len in *. destruct (Z.ltb_spec i 0); [lia|].
  rewrite (nth_error_nth' l d) by lia. reflexivity.
Qed.
Lemma rd_out {A} (l : list A) i : ~ 0 <= i < len l -> rd l i = UB OutOfBounds.
Proof.
  intros H. unfold rd, len in *. destruct (Z.ltb_spec i 0); [reflexivity|].
  assert (E : nth_error l (Z.to_nat i) = None) by (apply nth_error_None; lia). now rewrite E.
Qed.
Lemma len_set_nth {A} (l : list A) i v : length (set_nth l i v) = length l.
Proof. revert i. induction l as [|a l IH]; intros [|i]; cbn; auto. Qed.
Lemma nth_set_eq {A} (d : A) l i v : (i < length l)%nat -> nth i (set_nth l i v) d = v.
Proof. revert i. induction l as [|a l IH]; intros [|i] H; cbn in *; try lia; auto. apply IH. lia. Qed.
Lemma nth_set_ne {A} (d : A) l i j v : i <> j -> nth j (set_nth l i v) d = nth j l d.
Proof. revert i j. induction l as [|a l IH]; intros [|i] [|j] H; cbn; try reflexivity; try congruence. apply IH. congruence. Qed.
Lemma set_nth_in {A} (P : A -> Prop) l i v : Forall P l -> P v -> Forall P (set_nth l i v).
Proof. intros H V. revert i. induction H as [|a l Ha Hl IH]; intros [|i]; cbn; auto. Qed.

(** The result of a successful write. *)
Definition wrote {A} (l l' : list A) (i : Z) (v : A) : Prop :=
  len l' = len l /\ (forall d, at_ d l' i = v) /\ (forall d j, 0 <= j -> j <> i -> at_ d l' j = at_ d l j) /\
  (forall P : A -> Prop, Forall P l -> P v -> Forall P l').
Lemma wr_ok {A} (l : list A) i v : 0 <= i < len l -> exists l', wr l i v = Ok l' /\ wrote l l' i v.
Proof.
  intros (H1 & H2). unfold len in *. unfold wr.
  destruct (Z.ltb_spec i 0); [lia|]. destruct (Z.leb_spec (Z.of_nat (length l)) i); [lia|]. cbn [orb].
  eexists. split; [reflexivity|]. unfold wrote, len, at_. rewrite len_set_nth.
  split; [reflexivity|]. split; [intros d; apply nth_set_eq; lia|]. split.
  - intros d j J1 J2. apply nth_set_ne. lia.
  - intros P HP HV. now apply set_nth_in.
Qed.
Lemma wr_out {A} (l : list A) i v : ~ 0 <= i < len l -> wr l i v = UB OutOfBounds.
Proof.
  intros H. unfold wr, len in *. destruct (Z.ltb_spec i 0); [reflexivity|].
  destruct (Z.leb_spec (Z.of_nat (length l)) i); [reflexivity|lia].
Qed.

Lemma list_ext {A} (d : A) (l l' : list A) : len l = len l' -> (forall i, 0 <= i < len l -> at_ d l i = at_ d l' i) -> l = l'.
Proof.
  intros E H. apply nth_ext with (d := d) (d' := d); [unfold len in *; lia|].
  intros n Hn. specialize (H (Z.of_nat n)). unfold at_, len in H. rewrite Nat2Z.id in H. apply H. lia.
Qed.
Lemma Forall_at {A} (P : A -> Prop) d l : Forall P l <-> forall i, 0 <= i < len l -> P (at_ d l i).
Proof.
  rewrite Forall_forall. split.
  - intros H i Hi. apply H. apply nth_In. unfold len in Hi. lia.
  - intros H a Ha. destruct (In_nth l a d Ha) as (n & Hn & <-).
    specialize (H (Z.of_nat n)). unfold at_, len in H. rewrite Nat2Z.id in H. apply H. lia.
Qed.

(** Loops by invariant. *)
Lemma oloop_ind {S} (I : Z -> S -> Prop) (f : Z -> S -> outcome S) (n : nat) : forall i s,
  (forall j s, i <= j < i + Z.of_nat n -> I j s -> exists s', f j s = Ok s' /\ I (j + 1) s') ->
  I i s -> exists s', oloop n i f s = Ok s' /\ I (i + Z.of_nat n) s'.
Proof.
  induction n as [|n IH]; intros i s HF HI.
  - exists s. rewrite Z.add_0_r. auto.
  - destruct (HF i s ltac:(lia) HI) as (s1 & E1 & I1). cbn [oloop]. rewrite E1. cbn [obind].
    destruct (IH (i + 1) s1) as (s2 & E2 & I2); [intros j s' Hj; apply HF; lia|exact I1|].
    exists s2. split; [exact E2|]. replace (i + Z.of_nat (Datatypes.S n)) with (i + 1 + Z.of_nat n) by lia. exact I2.
Qed.
Lemma ofor_ind {S} (I : Z -> S -> Prop) (f : Z -> S -> outcome S) n s :
  0 <= n -> I 0 s ->
  (forall i s, 0 <= i < n -> I i s -> exists s', f i s = Ok s' /\ I (i + 1) s') ->
  exists s', ofor n f s = Ok s' /\ I n s'.
Proof.
  intros Hn H0 HF. unfold ofor. destruct (oloop_ind I f (Z.to_nat n) 0 s) as (s' & E & H).
  - intros j s1 Hj. apply HF. lia.
  - exact H0.
  - exists s'. split; [exact E|]. replace (0 + Z.of_nat (Z.to_nat n)) with n in H by lia. exact H.
Qed.
Lemma oall_loop_ok (p : Z -> bool) f n : forall i, (forall j, i <= j < i + Z.of_nat n -> f j = Ok (p j)) ->
  exists b, oall_loop n i f = Ok b /\ (b = true <-> forall j, i <= j < i + Z.of_nat n -> p j = true).
Proof.
  induction n as [|n IH]; intros i H.
  - exists true. split; [reflexivity|]. split; [intros _ j Hj; lia|reflexivity].
  - cbn [oall_loop]. rewrite H by lia. cbn [obind]. destruct (p i) eqn:E.
    + destruct (IH (i + 1)) as (b & Eb & Hb); [intros j Hj; apply H; lia|]. exists b. split; [exact Eb|].
      rewrite Hb. split; intros HH j Hj.
      * destruct (Z.eq_dec j i) as [->|]; [exact E|apply HH; lia].
      * apply HH. lia.
    + exists false. split; [reflexivity|]. split; [discriminate|]. intros HH. rewrite HH in E by lia. discriminate.
Qed.
Lemma oall_ok (p : Z -> bool) f n : 0 <= n -> (forall i, 0 <= i < n -> f i = Ok (p i)) ->
  exists b, oall n f = Ok b /\ (b = true <-> forall i, 0 <= i < n -> p i = true).
Proof.
  intros Hn H. unfold oall. destruct (oall_loop_ok p f (Z.to_nat n) 0) as (b & E & Hb).
  - intros j Hj. apply H. lia.
  - exists b. split; [exact E|]. rewrite Hb. replace (0 + Z.of_nat (Z.to_nat n)) with n by lia. reflexivity.
Qed.

(** 0, 1, ..., n-1. *)
Definition iota (n : Z) : list Z := map Z.of_nat (seq 0 (Z.to_nat n)).
Lemma oloop_fold {S} (f : Z -> S -> outcome S) (h : Z -> S -> S) n : forall k s,
  (forall j s, Z.of_nat k <= j < Z.of_nat k + Z.of_nat n -> f j s = Ok (h j s)) ->
  oloop n (Z.of_nat k) f s = Ok (fold_left (fun s i => h i s) (map Z.of_nat (seq k n)) s).
Proof.
  induction n as [|n IH]; intros k s H; cbn [oloop seq map fold_left]; [reflexivity|].
  rewrite H by lia. cbn [obind]. replace (Z.of_nat k + 1) with (Z.of_nat (Datatypes.S k)) by lia. apply IH.
  intros j s' Hj. apply H. lia.
Qed.
Lemma ofor_fold {S} (f : Z -> S -> outcome S) (h : Z -> S -> S) n s : 0 <= n ->
  (forall j s, 0 <= j < n -> f j s = Ok (h j s)) -> ofor n f s = Ok (fold_left (fun s i => h i s) (iota n) s).
Proof. intros Hn H. unfold ofor, iota. apply (oloop_fold f h (Z.to_nat n) 0 s). intros j s' Hj. apply H. lia. Qed.
Lemma in_iota n i : In i (iota n) <-> 0 <= i < n.
Proof.
  unfold iota. rewrite in_map_iff. split.
  - intros (k & <- & Hk). apply in_seq in Hk. lia.
  - intros H. exists (Z.to_nat i). split; [lia|]. apply in_seq. lia.
Qed.

Lemma iota_S n : 0 <= n -> iota (n + 1) = iota n ++ [n].
Proof.
  intros H. unfold iota. replace (Z.to_nat (n + 1)) with (Datatypes.S (Z.to_nat n)) by lia. rewrite seq_S, map_app. cbn [map].
  rewrite Nat.add_0_l, Z2Nat.id by exact H. reflexivity.
Qed.

(** ** Computations that draw random numbers and always return.

    [J] is a condition on the cached normal variate of the generator, kept by every draw;
    [Zok] is what is known of a standard normal variate. *)
Record src (lm : libm) (J : rng -> Prop) (Zok : f64 -> Prop) : Prop := {
  src_draw : forall t p ge z, J (mkRng t p ge z) -> J (mkRng t (S p) ge z);
  src_normal : forall mu sigma g, J g -> exists z g', J g' /\ Zok z /\
    rand_normal lm mu sigma g = Ok (fadd (fmul z sigma) mu, g')
}.

(** With no assumption on the generator and libm. *)
Lemma src_any lm : src lm (fun _ => True) (fun _ => True).
Proof.
  split; [auto|]. intros mu sigma g _. unfold rand_normal. destruct (r_generate g); [eauto|].
  unfold bind, genrand. eauto 6.
Qed.

Section RT.
Context (J : rng -> Prop).
Definition rt {A} (m : RM A) (Q : A -> Prop) : Prop :=
  forall g, J g -> exists a g', m g = Ok (a, g') /\ J g' /\ Q a.

Lemma rt_ret {A} (a : A) (Q : A -> Prop) : Q a -> rt (ret a) Q.
Proof. intros H g G. exists a, g. auto. Qed.
Lemma rt_bind {A C} (m : RM A) (k : A -> RM C) (P : A -> Prop) (Q : C -> Prop) :
  rt m P -> (forall a, P a -> rt (k a) Q) -> rt (bind m k) Q.
Proof.
  intros Hm Hk g G. destruct (Hm g G) as (a & g1 & E & G1 & Pa). unfold bind. rewrite E. apply (Hk a Pa g1 G1).
Qed.
Lemma rt_mono {A} (m : RM A) (P Q : A -> Prop) : rt m P -> (forall a, P a -> Q a) -> rt m Q.
Proof. intros H HQ g G. destruct (H g G) as (a & g1 & E & G1 & Pa). exists a, g1. auto. Qed.
Lemma rt_lift {A} (o : outcome A) (Q : A -> Prop) a : o = Ok a -> Q a -> rt (lift o) Q.
Proof. intros -> H g G. exists a, g. auto. Qed.
Lemma rt_bind_lift {A C} (o : outcome A) (k : A -> RM C) (Q : C -> Prop) a : o = Ok a -> rt (k a) Q -> rt (bind (lift o) k) Q.
Proof. intros -> H g G. unfold bind, lift. apply (H g G). Qed.
Lemma rt_loop {S} (I : Z -> S -> Prop) (f : Z -> S -> RM S) (n : nat) : forall i s,
  (forall j s, i <= j < i + Z.of_nat n -> I j s -> rt (f j s) (I (j + 1))) ->
  I i s -> rt (rloop n i f s) (I (i + Z.of_nat n)).
Proof.
  induction n as [|n IH]; intros i s HF HI.
  - rewrite Z.add_0_r. apply rt_ret. exact HI.
  - cbn [rloop]. eapply rt_bind; [apply HF; [lia|exact HI]|]. intros s1 I1.
    replace (i + Z.of_nat (Datatypes.S n)) with (i + 1 + Z.of_nat n) by lia. apply IH; [|exact I1].
    intros j s' Hj. apply HF. lia.
Qed.
Lemma rt_for {S} (I : Z -> S -> Prop) (f : Z -> S -> RM S) n s :
  0 <= n -> I 0 s -> (forall i s, 0 <= i < n -> I i s -> rt (f i s) (I (i + 1))) -> rt (rfor n f s) (I n).
Proof.
  intros Hn H0 HF. unfold rfor. replace n with (0 + Z.of_nat (Z.to_nat n)) at 2 by lia. apply rt_loop; [|exact H0].
  intros j s1 Hj. apply HF. lia.
Qed.
Lemma rt_for_mono {S} (I : Z -> S -> Prop) (Q : S -> Prop) (f : Z -> S -> RM S) n s :
  0 <= n -> I 0 s -> (forall i s, 0 <= i < n -> I i s -> rt (f i s) (I (i + 1))) ->
  (forall s, I n s -> Q s) -> rt (rfor n f s) Q.
Proof. intros H1 H2 H3 H4. eapply rt_mono; [apply rt_for; eassumption|exact H4]. Qed.

Context (lm : libm) (Zok : f64 -> Prop) (SR : src lm J Zok).

Lemma rt_genrand : rt genrand (fun u => exists m, u = draw_value m).
Proof.
  intros g G. unfold genrand. eexists _, _. split; [reflexivity|]. split; [|eexists; reflexivity].
  destruct g. apply (src_draw _ _ _ SR). exact G.
Qed.
Lemma rt_uniform lo hi : rt (rand_uniform lo hi) (fun r => exists m, r = fadd lo (fmul (draw_value m) (fsub hi lo))).
Proof. eapply rt_bind; [apply rt_genrand|]. intros u (m & ->). apply rt_ret. eauto. Qed.
Lemma rt_normal mu sigma : rt (rand_normal lm mu sigma) (fun r => exists z, Zok z /\ r = fadd (fmul z sigma) mu).
Proof. intros g G. destruct (src_normal _ _ _ SR mu sigma g G) as (z & g' & G' & Z' & E). exists (fadd (fmul z sigma) mu), g'. eauto. Qed.
Lemma rt_uniform_int n : 0 < n <= int_max -> rt (rand_uniform_int 0 n) (fun i => 0 <= i < n).
Proof.
  intros Hn g G. pose proof (rand_uniform_int_0 n g Hn) as T.
  destruct (rand_uniform_int 0 n g) as [[i g']| | |]; try contradiction. destruct T as (Hi & ->).
  exists i, (advance g). split; [reflexivity|]. split; [|exact Hi]. destruct g. apply (src_draw _ _ _ SR). exact G.
Qed.
End RT.

(** Always returning, whatever the generator: the post-condition holds whether or not fuel
    may run out. *)
Lemma rt_rpost FO {A} (m : RM A) (Q : A -> Prop) : rt (fun _ => True) m Q -> rpost FO m Q.
Proof. intros H g. destruct (H g I) as (a & g' & E & _ & Qa). rewrite E. exact Qa. Qed.
