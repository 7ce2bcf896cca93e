(** * Mutation of layers: connectivity, numbers of neurons, weights. *)
From Coq Require Import ZArith Bool List Lia.
From Flocq Require Import BinarySingleNaN.
From Verif Require Import Outcome F64 Rng Sam Pop PopSpec Arr ArrFacts Blas Clock Dgp Act Image Layer LayerFacts.
Import ListNotations.
Open Scope Z_scope.

(** ** Active weights *)

(** The number of [true]s. *)
Definition actives (a : list bool) : Z := Z.of_nat (count_occ Bool.bool_dec a true).

Lemma count_set a i v : (i < length a)%nat ->
  Z.of_nat (count_occ Bool.bool_dec (set_nth a i v) true) =
  Z.of_nat (count_occ Bool.bool_dec a true) + (if v : bool then 1 else 0) - (if nth i a false then 1 else 0).
Proof.
  revert i. induction a as [|x a IH]; intros [|i] H; cbn in H; try lia.
  - cbn [set_nth nth count_occ]. destruct (Bool.bool_dec v true), (Bool.bool_dec x true), v, x; try congruence; lia.
  - cbn [set_nth nth count_occ]. specialize (IH i ltac:(lia)). destruct (Bool.bool_dec x true); lia.
Qed.
Lemma wr_active a i v : 0 <= i < len a -> exists a', wr a i v = Ok a' /\ wrote a a' i v /\
  actives a' = actives a + (if v : bool then 1 else 0) - (if at_ false a i then 1 else 0).
Proof.
  intros H. destruct (wr_ok a i v H) as (a' & E & W). exists a'. split; [exact E|]. split; [exact W|].
  unfold wr in E. destruct ((i <? 0) || (Z.of_nat (length a) <=? i)); [discriminate|]. injection E as <-.
  unfold actives, at_. apply count_set. unfold len in H. lia.
Qed.
Lemma count_firstn_S a n : (n < length a)%nat ->
  Z.of_nat (count_occ Bool.bool_dec (firstn (S n) a) true) = Z.of_nat (count_occ Bool.bool_dec (firstn n a) true) + (if nth n a false then 1 else 0).
Proof.
  revert n. induction a as [|x a IH]; intros n H; cbn in H; [lia|]. destruct n as [|n].
  - cbn. destruct (Bool.bool_dec x true), x; try congruence; reflexivity.
  - specialize (IH n ltac:(lia)). change (firstn (S (S n)) (x :: a)) with (x :: firstn (S n) a). change (firstn (S n) (x :: a)) with (x :: firstn n a).
    cbn [count_occ nth]. destruct (Bool.bool_dec x true); lia.
Qed.
Lemma count_active_ok n a : n = len a -> count_active n a = Ok (actives a).
Proof.
  intros ->. unfold count_active.
  destruct (ofor_ind (fun i c => c = Z.of_nat (count_occ Bool.bool_dec (firstn (Z.to_nat i) a) true))
    (fun i c => obind (rd a i) (fun x => Ok (if x : bool then c + 1 else c))) (len a) 0) as (c & E & H).
  - apply len_nonneg.
  - reflexivity.
  - intros i c I ->. rewrite (rd_ok false) by lia. cbn [obind]. eexists. split; [reflexivity|].
    replace (Z.to_nat (i + 1)) with (S (Z.to_nat i)) by lia. rewrite count_firstn_S by (unfold len in I; lia).
    unfold at_. destruct (nth (Z.to_nat i) a false); lia.
  - rewrite E, H. f_equal. unfold actives. rewrite firstn_all2; [reflexivity|unfold len; lia].
Qed.

(** The counting loops of layer_ensure_input_represention. *)
Lemma count_some (a : list bool) n (f : Z -> Z) : 0 <= n -> (forall j, 0 <= j < n -> 0 <= f j < len a) ->
  exists c, ofor n (fun j c => obind (rd a (f j)) (fun x => Ok (if x : bool then c + 1 else c))) 0 = Ok c /\
    ((c <? 1) = true -> forall j, 0 <= j < n -> at_ false a (f j) = false) /\
    ((c <? 1) = false -> exists j, 0 <= j < n /\ at_ false a (f j) = true).
Proof.
  intros N F.
  destruct (ofor_ind (fun i c => 0 <= c /\ (c = 0 -> forall j, 0 <= j < i -> at_ false a (f j) = false) /\
      (0 < c -> exists j, 0 <= j < i /\ at_ false a (f j) = true))
    (fun j c => obind (rd a (f j)) (fun x => Ok (if x : bool then c + 1 else c))) n 0) as (c & E & C0 & C1 & C2).
  - exact N.
  - split; [lia|]. split; [intros; lia|intros; lia].
  - intros i c I (C0 & C1 & C2). rewrite (rd_ok false) by (apply F; lia). cbn [obind]. eexists. split; [reflexivity|].
    destruct (at_ false a (f i)) eqn:E.
    + split; [lia|]. split; [lia|]. intros _. exists i. split; [lia|exact E].
    + split; [lia|]. split.
      * intros Z j J. destruct (Z.eq_dec j i) as [->|]; [exact E|apply C1; [exact Z|lia]].
      * intros P. destruct (C2 P) as (j & J & H). exists j. split; [lia|exact H].
  - exists c. split; [exact E|]. split; intros H; [apply C1|apply C2]; lia.
Qed.

(** ** What is changed *)

(** Connections and weights replaced. *)
Definition rewire (a : list bool) (w : list f64) (n : Z) (l : layer f64) : layer f64 := set_active a (set_weights w (set_n_active n l)).

(** Inactive weights are zero and the active ones are counted. *)
Definition tidy (l : layer f64) : Prop :=
  (forall k, 0 <= k < l_n_weights l -> at_ false (l_active l) k = false -> at_ fnan (l_weights l) k = f0) /\
  l_n_active l = actives (l_active l).
(** Neuron [o] is connected to input [i]. *)
Definition connected (l : layer f64) (o i : Z) : Prop := at_ false (l_active l) (l_n_inputs l * o + i) = true.
(** Every neuron has an input and every input has a neuron. *)
Definition wired (l : layer f64) : Prop :=
  (forall o, 0 <= o < l_n_outputs l -> exists i, 0 <= i < l_n_inputs l /\ connected l o i) /\
  (forall i, 0 <= i < l_n_inputs l -> exists o, 0 <= o < l_n_outputs l /\ connected l o i).

(** Pieces of a layer the connectivity functions work on. *)
Definition links (nw : Z) (a : list bool) (w : list f64) (n : Z) : Prop :=
  len a = nw /\ len w = nw /\ (forall k, 0 <= k < nw -> at_ false a k = false -> at_ fnan w k = f0) /\ n = actives a.

(** The weights and biases have the sizes the fields say. *)
Definition wfit (l : layer f64) : Prop :=
  len (l_weights l) = l_n_weights l /\ len (l_active l) = l_n_weights l /\ len (l_biases l) = l_n_biases l.
Lemma conn_wfit l : conn_shape l -> wfit l.
Proof. intros C. split; [apply C|]. split; [apply C|]. rewrite (cs_b _ C). apply C. Qed.
Lemma wfit_links l : wfit l -> tidy l -> links (l_n_weights l) (l_active l) (l_weights l) (l_n_active l).
Proof. intros (W & A & _) (T1 & T2). split; [exact A|]. split; [exact W|]. auto. Qed.
Lemma rewire_id l : rewire (l_active l) (l_weights l) (l_n_active l) l = l.
Proof. destruct l. reflexivity. Qed.
Lemma conn_links l : conn_shape l -> tidy l -> links (l_n_weights l) (l_active l) (l_weights l) (l_n_active l).
Proof. intros C (T1 & T2). split; [apply C|]. split; [apply C|]. auto. Qed.
Lemma rewire_shape l a w n : conn_shape l -> len a = l_n_weights l -> len w = l_n_weights l -> conn_shape (rewire a w n l).
Proof. intros C A W. destruct C. constructor; assumption. Qed.
Lemma rewire_tidy l a w n : links (l_n_weights l) a w n -> tidy (rewire a w n l).
Proof. intros (A & W & T & N). split; [exact T|exact N]. Qed.

(** A connection written with its weight. *)
Lemma links_on nw a w n k x : links nw a w n -> 0 <= k < nw -> at_ false a k = false ->
  exists a' w', wr a k true = Ok a' /\ wr w k x = Ok w' /\ links nw a' w' (n + 1) /\
    wrote a a' k true /\ wrote w w' k x.
Proof.
  intros (A & W & T & N) K O. destruct (wr_active a k true ltac:(lia)) as (a' & Ea & Wa & C).
  destruct (wr_ok w k x ltac:(lia)) as (w' & Ew & Ww). exists a', w'. split; [exact Ea|]. split; [exact Ew|]. split; [|split; assumption].
  destruct Wa as (A1 & A2 & A3 & _), Ww as (W1 & W2 & W3 & _). rewrite O in C.
  split; [lia|]. split; [lia|]. split; [|lia]. intros j J F. destruct (Z.eq_dec j k) as [->|NE].
  - rewrite A2 in F. discriminate.
  - rewrite A3 in F by lia. rewrite W3 by lia. apply T; assumption.
Qed.
Lemma links_off nw a w n k : links nw a w n -> 0 <= k < nw -> at_ false a k = true ->
  exists a' w', wr a k false = Ok a' /\ wr w k f0 = Ok w' /\ links nw a' w' (n - 1) /\
    wrote a a' k false /\ wrote w w' k f0.
Proof.
  intros (A & W & T & N) K O. destruct (wr_active a k false ltac:(lia)) as (a' & Ea & Wa & C).
  destruct (wr_ok w k f0 ltac:(lia)) as (w' & Ew & Ww). exists a', w'. split; [exact Ea|]. split; [exact Ew|]. split; [|split; assumption].
  destruct Wa as (A1 & A2 & A3 & _), Ww as (W1 & W2 & W3 & _). rewrite O in C.
  split; [lia|]. split; [lia|]. split; [|lia]. intros j J F. destruct (Z.eq_dec j k) as [->|NE].
  - apply W2.
  - rewrite A3 in F by lia. rewrite W3 by lia. apply T; assumption.
Qed.

Section Draws.
Context (J : rng -> Prop) (lm : libm) (Zok : f64 -> Prop) (SR : src lm J Zok).
Notation rt := (rt J).

(** A weight of [l] whose connection is as before keeps its value. *)
Definition kept_same (l : layer f64) (a : list bool) (w : list f64) : Prop :=
  forall k, 0 <= k < l_n_weights l -> at_ false a k = at_ false (l_active l) k -> at_ fnan w k = at_ fnan (l_weights l) k.

Lemma mutate_connectivity_ok l en dis : wfit l -> tidy l ->
  rt (layer_mutate_connectivity lm l en dis) (fun r => exists a w n, fst r = rewire a w n l /\ links (l_n_weights l) a w n /\
    kept_same l a w /\ (snd r = false -> fst r = l) /\
    (snd r = true -> 1 < l_n_inputs l /\ 1 < l_n_outputs l /\ exists k, 0 <= k < l_n_weights l /\ at_ false a k <> at_ false (l_active l) k)).
Proof.
  intros C T. unfold layer_mutate_connectivity.
  assert (ST : exists a w n, l = rewire a w n l /\ links (l_n_weights l) a w n /\ kept_same l a w).
  { exists (l_active l), (l_weights l), (l_n_active l). split; [symmetry; apply rewire_id|]. split; [now apply wfit_links|]. intros k _ _. reflexivity. }
  destruct ((1 <? l_n_inputs l) && (1 <? l_n_outputs l)) eqn:G.
  2:{ apply rt_ret. destruct ST as (a & w & n & H1 & H2 & H3). exists a, w, n. cbn [fst snd]. split; [exact H1|]. split; [exact H2|]. split; [exact H3|].
      split; [reflexivity|discriminate]. }
  apply andb_prop in G. destruct G as (G1 & G2). apply Z.ltb_lt in G1. apply Z.ltb_lt in G2.
  assert (NW : 0 <= l_n_weights l) by (rewrite <- (proj1 C); apply len_nonneg).
  eapply rt_bind with (P := fun r => exists a w n, fst r = rewire a w n l /\ links (l_n_weights l) a w n /\
    (forall k, 0 <= k < l_n_weights l -> at_ false a k = at_ false (l_active l) k -> at_ fnan w k = at_ fnan (l_weights l) k) /\ (snd r = false -> fst r = l) /\
    (snd r = true -> exists k, 0 <= k < l_n_weights l /\ at_ false a k <> at_ false (l_active l) k)).
  - eapply rt_for_mono with (I := fun i (r : layer f64 * bool) => exists a w n, fst r = rewire a w n l /\ links (l_n_weights l) a w n /\
      kept_same l a w /\ (forall k, i <= k -> at_ false a k = at_ false (l_active l) k) /\ (snd r = false -> fst r = l) /\
      (snd r = true -> exists k, 0 <= k < i /\ at_ false a k <> at_ false (l_active l) k)).
    + exact NW.
    + exists (l_active l), (l_weights l), (l_n_active l). cbn [fst snd]. split; [symmetry; apply rewire_id|]. split; [now apply wfit_links|].
      split; [intros k _ _; reflexivity|]. split; [reflexivity|]. split; [reflexivity|discriminate].
    + intros i (l1, b) I (a & w & n & E & L & KS & OLD & S0 & S1). cbn [fst snd] in *. subst l1.
      change (l_active (rewire a w n l)) with a. change (l_weights (rewire a w n l)) with w. change (l_n_active (rewire a w n l)) with n.
      assert (LA : len a = l_n_weights l) by apply L.
      eapply rt_bind_lift; [apply (rd_ok false); lia|]. eapply rt_bind; [apply (rt_uniform J lm Zok SR)|]. intros u _.
      assert (SAME : exists a0 w0 n0, rewire a w n l = rewire a0 w0 n0 l /\ links (l_n_weights l) a0 w0 n0 /\
        kept_same l a0 w0 /\ (forall k, i + 1 <= k -> at_ false a0 k = at_ false (l_active l) k) /\ (b = false -> rewire a w n l = l) /\
        (b = true -> exists k, 0 <= k < i + 1 /\ at_ false a0 k <> at_ false (l_active l) k)).
      { exists a, w, n. split; [reflexivity|]. split; [exact L|]. split; [exact KS|]. split; [intros k K; apply OLD; lia|]. split; [exact S0|].
        intros B. destruct (S1 B) as (k & K & H). exists k. split; [lia|exact H]. }
      destruct (at_ false a i) eqn:O; cbn [negb].
      * destruct (flt u dis); [|apply rt_ret; exact SAME].
        destruct (links_off _ _ _ _ i L I O) as (a' & w' & Ea & Ew & L' & (A1 & A2 & A3 & _) & (W1 & W2 & W3 & _)).
        eapply rt_bind_lift; [exact Ea|]. eapply rt_bind_lift; [exact Ew|]. apply rt_ret. exists a', w', (n - 1).
        assert (OO : at_ false (l_active l) i = true) by (rewrite <- OLD by lia; exact O).
        split; [reflexivity|]. split; [exact L'|]. split; [|split; [|split]].
        -- intros k K H. destruct (Z.eq_dec k i) as [->|NE]; [rewrite A2, OO in H; discriminate|]. rewrite W3 by lia. apply KS; [exact K|]. rewrite <- H, A3 by lia. reflexivity.
        -- intros k K. rewrite A3 by lia. apply OLD. lia.
        -- discriminate.
        -- intros _. exists i. split; [lia|]. rewrite A2, OO. discriminate.
      * destruct (flt u en); [|apply rt_ret; exact SAME].
        assert (OO : at_ false (l_active l) i = false) by (rewrite <- OLD by lia; exact O).
        destruct (links_on _ _ _ _ i f0 L I O) as (a' & _ & Ea & _).
        eapply rt_bind_lift; [exact Ea|]. eapply rt_bind; [apply (rt_normal J lm Zok SR)|]. intros x _.
        destruct (links_on _ _ _ _ i x L I O) as (a'' & w' & Ea2 & Ew & L' & (A1 & A2 & A3 & _) & (W1 & W2 & W3 & _)).
        rewrite Ea in Ea2. injection Ea2 as <-.
        eapply rt_bind_lift; [exact Ew|]. apply rt_ret. exists a', w', (n + 1).
        split; [reflexivity|]. split; [exact L'|]. split; [|split; [|split]].
        -- intros k K H. destruct (Z.eq_dec k i) as [->|NE]; [rewrite A2, OO in H; discriminate|]. rewrite W3 by lia. apply KS; [exact K|]. rewrite <- H, A3 by lia. reflexivity.
        -- intros k K. rewrite A3 by lia. apply OLD. lia.
        -- discriminate.
        -- intros _. exists i. split; [lia|]. rewrite A2, OO. discriminate.
    + intros r (a & w & n & H1 & H2 & H3 & _ & H5 & H6). exists a, w, n. auto.
  - intros r (a & w & n & H1 & H2 & H3 & H4 & H5). apply rt_ret. exists a, w, n. split; [exact H1|]. split; [exact H2|]. split; [exact H3|]. split; [exact H4|].
    intros B. split; [exact G1|]. split; [exact G2|]. exact (H5 B).
Qed.

(** The repair: no connection is lost, no weight of an existing connection changes. *)
Definition extended (nw : Z) (a : list bool) (w : list f64) (a' : list bool) (w' : list f64) : Prop :=
  forall k, 0 <= k < nw -> at_ false a k = true -> at_ false a' k = true /\ at_ fnan w' k = at_ fnan w k.

Lemma idx_bound ni no o i : 0 <= o < no -> 0 <= i < ni -> 0 <= ni * o + i < ni * no.
Proof. nia. Qed.

Lemma ensure_ok fuel l : conn_shape l -> tidy l -> 1 <= l_n_inputs l <= int_max -> 1 <= l_n_outputs l <= int_max -> (1 <= fuel)%nat ->
  rt (layer_ensure_input_representation lm fuel l) (fun l' => exists a w n, l' = rewire a w n l /\ links (l_n_weights l) a w n /\
    extended (l_n_weights l) (l_active l) (l_weights l) a w /\ wired l').
Proof.
  intros C T NI NO FU. unfold layer_ensure_input_representation. pose proof (cs_w _ C) as CW.
  eapply rt_bind with (P := fun l' => exists a w n, l' = rewire a w n l /\ links (l_n_weights l) a w n /\
    extended (l_n_weights l) (l_active l) (l_weights l) a w /\
    (forall o, 0 <= o < l_n_outputs l -> exists i, 0 <= i < l_n_inputs l /\ at_ false a (l_n_inputs l * o + i) = true)).
  - eapply rt_for with (I := fun o' l' => exists a w n, l' = rewire a w n l /\ links (l_n_weights l) a w n /\
      extended (l_n_weights l) (l_active l) (l_weights l) a w /\
      (forall o, 0 <= o < o' -> exists i, 0 <= i < l_n_inputs l /\ at_ false a (l_n_inputs l * o + i) = true)).
    + lia.
    + exists (l_active l), (l_weights l), (l_n_active l). split; [symmetry; apply rewire_id|]. split; [now apply conn_links|]. split; [intros k _ H; auto|]. intros; lia.
    + intros o l1 O (a & w & n & -> & L & EX & R). cbv zeta.
      change (l_active (rewire a w n l)) with a. change (l_weights (rewire a w n l)) with w. change (l_n_active (rewire a w n l)) with n.
      change (l_n_inputs (rewire a w n l)) with (l_n_inputs l).
      assert (LA : len a = l_n_weights l) by apply L.
      destruct (count_some a (l_n_inputs l) (fun j => l_n_inputs l * o + j) ltac:(lia)) as (c & EC & C0 & C1).
      { intros j Hj. rewrite LA, CW. apply idx_bound; lia. }
      eapply rt_bind_lift; [exact EC|]. destruct (c <? 1) eqn:B.
      * eapply rt_bind; [apply (rt_uniform_int J lm Zok SR); lia|]. intros i I. cbv beta in I. eapply rt_bind; [apply (rt_normal J lm Zok SR)|]. intros x _.
        assert (K : 0 <= l_n_inputs l * o + i < l_n_weights l) by (rewrite CW; apply idx_bound; lia).
        destruct (links_on _ _ _ _ _ x L K (C0 eq_refl i I)) as (a' & w' & Ea & Ew & L' & (A1 & A2 & A3 & _) & (W1 & W2 & W3 & _)).
        eapply rt_bind_lift; [exact Ew|]. eapply rt_bind_lift; [exact Ea|]. apply rt_ret. exists a', w', (n + 1). split; [reflexivity|]. split; [exact L'|]. split.
        -- intros k Hk H. destruct (EX k Hk H) as (X1 & X2). destruct (Z.eq_dec k (l_n_inputs l * o + i)) as [->|NE].
           ++ rewrite (C0 eq_refl i I) in X1. discriminate.
           ++ rewrite A3, W3 by lia. auto.
        -- intros o1 O1. destruct (Z.eq_dec o1 o) as [->|NE]; [exists i; split; [exact I|apply A2]|].
           destruct (R o1 ltac:(lia)) as (i1 & I1 & H). exists i1. split; [exact I1|].
           assert (K1 : 0 <= l_n_inputs l * o1 + i1) by nia. destruct (Z.eq_dec (l_n_inputs l * o1 + i1) (l_n_inputs l * o + i)) as [E|NE2]; [rewrite E; apply A2|]. rewrite A3 by lia. exact H.
      * apply rt_ret. exists a, w, n. split; [reflexivity|]. split; [exact L|]. split; [exact EX|].
        intros o1 O1. destruct (Z.eq_dec o1 o) as [->|NE]; [exact (C1 eq_refl)|]. apply R. lia.
  - intros l1 (a & w & n & -> & L & EX & R). change (l_n_inputs (rewire a w n l)) with (l_n_inputs l).
    eapply rt_for_mono with (I := fun i' l' => exists a' w' n', l' = rewire a' w' n' l /\ links (l_n_weights l) a' w' n' /\
      extended (l_n_weights l) (l_active l) (l_weights l) a' w' /\
      (forall o, 0 <= o < l_n_outputs l -> exists i, 0 <= i < l_n_inputs l /\ at_ false a' (l_n_inputs l * o + i) = true) /\
      (forall i, 0 <= i < i' -> exists o, 0 <= o < l_n_outputs l /\ at_ false a' (l_n_inputs l * o + i) = true)).
    + lia.
    + exists a, w, n. split; [reflexivity|]. split; [exact L|]. split; [exact EX|]. split; [exact R|intros; lia].
    + clear a w n L EX R. intros i l1 I (a & w & n & -> & L & EX & R & CO).
      change (l_active (rewire a w n l)) with a. change (l_n_inputs (rewire a w n l)) with (l_n_inputs l). change (l_n_outputs (rewire a w n l)) with (l_n_outputs l).
      assert (LA : len a = l_n_weights l) by apply L.
      destruct (count_some a (l_n_outputs l) (fun j => l_n_inputs l * j + i) ltac:(lia)) as (c & EC & C0 & C1).
      { intros j Hj. rewrite LA, CW. apply idx_bound; lia. }
      eapply rt_bind_lift; [exact EC|]. destruct (c <? 1) eqn:B.
      * destruct fuel as [|f]; [lia|]. cbn [connect_input]. change (l_n_outputs (rewire a w n l)) with (l_n_outputs l). change (l_n_inputs (rewire a w n l)) with (l_n_inputs l).
        change (l_active (rewire a w n l)) with a. change (l_weights (rewire a w n l)) with w. change (l_n_active (rewire a w n l)) with n.
        eapply rt_bind; [apply (rt_uniform_int J lm Zok SR); lia|]. intros o O. cbv beta in O. cbv zeta.
        assert (K : 0 <= l_n_inputs l * o + i < l_n_weights l) by (rewrite CW; apply idx_bound; lia).
        pose proof (C0 eq_refl o O) as OFF. cbv beta in OFF.
        eapply rt_bind_lift; [apply (rd_ok false); lia|]. rewrite OFF. cbn [negb].
        eapply rt_bind; [apply (rt_normal J lm Zok SR)|]. intros x _.
        destruct (links_on _ _ _ _ _ x L K OFF) as (a' & w' & Ea & Ew & L' & (A1 & A2 & A3 & _) & (W1 & W2 & W3 & _)).
        eapply rt_bind_lift; [exact Ew|]. eapply rt_bind_lift; [exact Ea|]. apply rt_ret. exists a', w', (n + 1). split; [reflexivity|]. split; [exact L'|].
        assert (UP : forall k, 0 <= k -> at_ false a k = true -> at_ false a' k = true).
        { intros k Hk H. destruct (Z.eq_dec k (l_n_inputs l * o + i)) as [->|NE]; [apply A2|]. rewrite A3 by lia. exact H. }
        split; [|split].
        -- intros k Hk H. destruct (EX k Hk H) as (X1 & X2). destruct (Z.eq_dec k (l_n_inputs l * o + i)) as [->|NE].
           ++ rewrite OFF in X1. discriminate.
           ++ rewrite A3, W3 by lia. auto.
        -- intros o1 O1. destruct (R o1 O1) as (i1 & I1 & H). exists i1. split; [exact I1|]. apply UP; [nia|exact H].
        -- intros i1 I1. destruct (Z.eq_dec i1 i) as [->|NE]; [exists o; split; [exact O|apply A2]|].
           destruct (CO i1 ltac:(lia)) as (o1 & O1 & H). exists o1. split; [exact O1|]. apply UP; [nia|exact H].
      * apply rt_ret. exists a, w, n. split; [reflexivity|]. split; [exact L|]. split; [exact EX|]. split; [exact R|].
        intros i1 I1. destruct (Z.eq_dec i1 i) as [->|NE]; [exact (C1 eq_refl)|]. apply CO. lia.
    + clear a w n L EX R. intros l1 (a & w & n & -> & L & EX & R & CO). exists a, w, n. split; [reflexivity|]. split; [exact L|]. split; [exact EX|].
      split; [exact R|exact CO].
Qed.

(** ** Weights, functions and rates *)

(** Only elements [sel] selects change. *)
Lemma mutate_one_ok mu i wm : 0 <= i < len (fst wm) ->
  rt (mutate_one lm mu i wm) (fun r => len (fst r) = len (fst wm) /\ (forall j, 0 <= j -> j <> i -> at_ fnan (fst r) j = at_ fnan (fst wm) j) /\
    (exists z, Zok z /\ at_ fnan (fst r) i = clamp (fadd (at_ fnan (fst wm) i) (fadd (fmul z mu) f0)) (of_Z WEIGHT_MIN) (of_Z WEIGHT_MAX))).
Proof.
  intros I. unfold mutate_one. eapply rt_bind_lift; [apply (rd_ok fnan), I|]. eapply rt_bind; [apply (rt_normal J lm Zok SR)|]. intros x (z & Hz & ->). cbv zeta.
  destruct (wr_ok (fst wm) i (clamp (fadd (at_ fnan (fst wm) i) (fadd (fmul z mu) f0)) (of_Z WEIGHT_MIN) (of_Z WEIGHT_MAX)) I) as (w & E & W1 & W2 & W3 & _).
  eapply rt_bind_lift; [exact E|]. apply rt_ret. cbn [fst]. split; [exact W1|]. split; [intros j J0 J1; now apply W3|]. exists z. split; [exact Hz|]. apply W2.
Qed.
Lemma mutate_weights_ok l mu : wfit l ->
  rt (layer_mutate_weights lm l mu) (fun r => exists w b, fst r = set_weights w (set_biases b l) /\ len w = l_n_weights l /\ len b = l_n_biases l /\
    (forall k, 0 <= k < l_n_weights l -> at_ false (l_active l) k = false -> at_ fnan w k = at_ fnan (l_weights l) k) /\
    (forall k, 0 <= k < l_n_weights l -> at_ false (l_active l) k = true ->
       exists z, Zok z /\ at_ fnan w k = clamp (fadd (at_ fnan (l_weights l) k) (fadd (fmul z mu) f0)) (of_Z WEIGHT_MIN) (of_Z WEIGHT_MAX)) /\
    (forall k, 0 <= k < l_n_biases l ->
       exists z, Zok z /\ at_ fnan b k = clamp (fadd (at_ fnan (l_biases l) k) (fadd (fmul z mu) f0)) (of_Z WEIGHT_MIN) (of_Z WEIGHT_MAX))).
Proof.
  intros (P6 & P7 & P5). assert (NW : 0 <= l_n_weights l) by (rewrite <- P6; apply len_nonneg). assert (NB : 0 <= l_n_biases l) by (rewrite <- P5; apply len_nonneg).
  unfold layer_mutate_weights.
  eapply rt_bind with (P := fun wm => len (fst wm) = l_n_weights l /\
    (forall k, 0 <= k < l_n_weights l -> at_ false (l_active l) k = false -> at_ fnan (fst wm) k = at_ fnan (l_weights l) k) /\
    (forall k, 0 <= k < l_n_weights l -> at_ false (l_active l) k = true ->
       exists z, Zok z /\ at_ fnan (fst wm) k = clamp (fadd (at_ fnan (l_weights l) k) (fadd (fmul z mu) f0)) (of_Z WEIGHT_MIN) (of_Z WEIGHT_MAX))).
  - eapply rt_for_mono with (I := fun i wm => len (fst wm) = l_n_weights l /\
      (forall k, 0 <= k < l_n_weights l -> at_ false (l_active l) k = false -> at_ fnan (fst wm) k = at_ fnan (l_weights l) k) /\
      (forall k, i <= k < l_n_weights l -> at_ fnan (fst wm) k = at_ fnan (l_weights l) k) /\
      (forall k, 0 <= k < i -> at_ false (l_active l) k = true ->
         exists z, Zok z /\ at_ fnan (fst wm) k = clamp (fadd (at_ fnan (l_weights l) k) (fadd (fmul z mu) f0)) (of_Z WEIGHT_MIN) (of_Z WEIGHT_MAX))).
    + exact NW.
    + cbn [fst]. split; [lia|]. split; [auto|]. split; [auto|intros; lia].
    + intros i wm I (L & H1 & H2 & H3). eapply rt_bind_lift; [apply (rd_ok false); lia|]. destruct (at_ false (l_active l) i) eqn:AI.
      * eapply rt_mono; [apply mutate_one_ok; lia|]. intros r (R1 & R2 & z & Hz & R3). split; [lia|]. split; [|split].
        -- intros k K O. destruct (Z.eq_dec k i) as [->|NE]; [congruence|]. rewrite R2 by lia. now apply H1.
        -- intros k K. rewrite R2 by lia. apply H2. lia.
        -- intros k K O. destruct (Z.eq_dec k i) as [->|NE]; [exists z; split; [exact Hz|]; rewrite R3, H2 by lia; reflexivity|]. rewrite R2 by lia. apply H3; [lia|exact O].
      * apply rt_ret. split; [exact L|]. split; [exact H1|]. split; [intros k K; apply H2; lia|]. intros k K O. destruct (Z.eq_dec k i) as [->|NE]; [congruence|]. apply H3; [lia|exact O].
    + intros wm (L & H1 & _ & H3). auto.
  - intros wm (L & H1 & H3).
    eapply rt_bind with (P := fun bm => len (fst bm) = l_n_biases l /\
      (forall k, 0 <= k < l_n_biases l ->
         exists z, Zok z /\ at_ fnan (fst bm) k = clamp (fadd (at_ fnan (l_biases l) k) (fadd (fmul z mu) f0)) (of_Z WEIGHT_MIN) (of_Z WEIGHT_MAX))).
    + eapply rt_for_mono with (I := fun i bm => len (fst bm) = l_n_biases l /\ (forall k, i <= k < l_n_biases l -> at_ fnan (fst bm) k = at_ fnan (l_biases l) k) /\
        (forall k, 0 <= k < i -> exists z, Zok z /\ at_ fnan (fst bm) k = clamp (fadd (at_ fnan (l_biases l) k) (fadd (fmul z mu) f0)) (of_Z WEIGHT_MIN) (of_Z WEIGHT_MAX))).
      * lia.
      * cbn [fst]. split; [lia|]. split; [auto|intros; lia].
      * intros i bm I (LB & B1 & B2). eapply rt_mono; [apply mutate_one_ok; lia|]. intros r (R1 & R2 & z & Hz & R3). split; [lia|]. split.
        -- intros k K. rewrite R2 by lia. apply B1. lia.
        -- intros k K. destruct (Z.eq_dec k i) as [->|NE]; [exists z; split; [exact Hz|]; rewrite R3, B1 by lia; reflexivity|]. rewrite R2 by lia. apply B2. lia.
      * intros bm (LB & _ & B2). auto.
    + intros bm (LB & B2). apply rt_ret. exists (fst wm), (fst bm). cbn [fst]. split; [reflexivity|]. auto.
Qed.
Lemma mutate_functions_ok l mu : rt (layer_mutate_functions l mu) (fun r => exists f, fst r = set_function f l /\ (f = l_function l \/ 0 <= f < NUM_ACTIVATIONS) /\ (snd r = false -> fst r = l)).
Proof.
  assert (ID : set_function (l_function l) l = l) by (destruct l; reflexivity).
  unfold layer_mutate_functions. eapply rt_bind; [apply (rt_uniform J lm Zok SR)|]. intros u _. destruct (flt u mu).
  - eapply rt_bind; [apply (rt_uniform_int J lm Zok SR); unfold NUM_ACTIVATIONS, int_max; lia|]. intros f F. apply rt_ret. exists f. cbn [fst snd]. split; [reflexivity|]. split; [auto|].
    intros B. apply negb_false_iff, Z.eqb_eq in B. now rewrite B, ID.
  - apply rt_ret. exists (l_function l). cbn [fst]. auto.
Qed.
Lemma mutate_eta_ok l mu : rt (layer_mutate_eta lm l mu) (fun r => exists e, fst r = set_eta e l /\
   exists z, Zok z /\ e = clamp (fadd (l_eta l) (fadd (fmul z mu) f0)) (l_eta_min l) (l_eta_max l)).
Proof.
  unfold layer_mutate_eta. eapply rt_bind; [apply (rt_normal J lm Zok SR)|]. intros x (z & Hz & ->). cbv zeta. apply rt_ret. eexists. split; [reflexivity|]. eauto.
Qed.

(** ** Numbers of neurons *)
Lemma ofor_neg {S} n (f : Z -> S -> outcome S) s : n <= 0 -> ofor n f s = Ok s.
Proof. intros N. unfold ofor. replace (Z.to_nat n) with O by lia. reflexivity. Qed.
Lemma rt_for_max {S} (I : Z -> S -> Prop) (Q : S -> Prop) (f : Z -> S -> RM S) n s :
  I 0 s -> (forall i s, 0 <= i < n -> I i s -> rt (f i s) (I (i + 1))) -> (forall s, I (Z.max 0 n) s -> Q s) -> rt (rfor n f s) Q.
Proof.
  intros H0 HS HQ. destruct (Z_le_gt_dec n 0) as [N|N].
  - unfold rfor. replace (Z.to_nat n) with O by lia. apply rt_ret, HQ. rewrite Z.max_l by lia. exact H0.
  - eapply rt_for_mono; [lia|exact H0|exact HS|]. intros s' H. apply HQ. rewrite Z.max_r by lia. exact H.
Qed.

(** The first elements are kept, the others are [v]. *)
Definition resized {A} (d v : A) (old new : Z) (a a' : list A) : Prop :=
  len a' = new /\ (forall i, 0 <= i < new -> i < old -> at_ d a' i = at_ d a i) /\ (forall i, old <= i < new -> at_ d a' i = v).
Lemma zero_new_ok a old new : len a = old -> 0 <= new ->
  exists a', ofor (new - old) (fun i a => wr a (old + i) f0) (realloc fnan new a) = Ok a' /\ resized fnan f0 old new a a'.
Proof.
  intros L N. destruct (Z_le_gt_dec new old) as [D|D].
  - rewrite ofor_neg by lia. eexists. split; [reflexivity|]. split; [apply len_realloc, N|]. split; [intros i I1 I2; apply at_realloc; lia|intros; lia].
  - assert (P : 0 <= old) by (rewrite <- L; apply len_nonneg).
    destruct (ofor_ind (fun i (a' : list f64) => len a' = new /\ (forall k, 0 <= k < old -> at_ fnan a' k = at_ fnan a k) /\ (forall k, old <= k < old + i -> at_ fnan a' k = f0))
      (fun i a => wr a (old + i) f0) (new - old) (realloc fnan new a)) as (a' & E & H1 & H2 & H3).
    + lia.
    + split; [apply len_realloc, N|]. split; [intros k K; apply at_realloc; lia|intros; lia].
    + intros i a1 I (H1 & H2 & H3). destruct (wr_ok a1 (old + i) f0 ltac:(lia)) as (a2 & E & W1 & W2 & W3 & _). exists a2. split; [exact E|]. split; [lia|]. split.
      * intros k K. rewrite W3 by lia. apply H2, K.
      * intros k K. destruct (Z.eq_dec k (old + i)) as [->|NE]; [apply W2|]. rewrite W3 by lia. apply H3. lia.
    + exists a'. split; [exact E|]. split; [exact H1|]. split; [intros i I1 I2; apply H2; lia|intros i I; apply H3; lia].
Qed.

(** What adding [N] neurons does. *)
Record grown (l l' : layer f64) (N : Z) : Prop := {
  gr_n : l_n_outputs l' = l_n_outputs l + N;
  gr_shape : conn_shape l';
  gr_active : l_n_active l' = actives (l_active l');
  gr_weights : forall k, 0 <= k < l_n_weights l' -> k < l_n_weights l ->
    at_ fnan (l_weights l') k = at_ fnan (l_weights l) k /\ at_ false (l_active l') k = at_ false (l_active l) k /\
    at_ fnan (l_weight_updates l') k = at_ fnan (l_weight_updates l) k;
  gr_new : forall k, l_n_weights l <= k < l_n_weights l' -> at_ fnan (l_weight_updates l') k = f0 /\
    (at_ false (l_active l') k = true \/ (has l EVOLVE_CONNECT = true /\ at_ fnan (l_weights l') k = f0));
  gr_biases : resized fnan f0 (l_n_outputs l) (l_n_outputs l') (l_biases l) (l_biases l');
  gr_bu : resized fnan f0 (l_n_outputs l) (l_n_outputs l') (l_bias_updates l) (l_bias_updates l');
  gr_output : resized fnan f0 (l_n_outputs l) (l_n_outputs l') (l_output l) (l_output l');
  gr_state : resized fnan f0 (l_n_outputs l) (l_n_outputs l') (l_state l) (l_state l');
  gr_delta : resized fnan f0 (l_n_outputs l) (l_n_outputs l') (l_delta l) (l_delta l');
  gr_rest : l' = set_n_active (l_n_active l') (set_weights (l_weights l') (set_active (l_active l') (set_weight_updates (l_weight_updates l')
     (set_biases (l_biases l') (set_bias_updates (l_bias_updates l') (set_output (l_output l') (set_state (l_state l') (set_delta (l_delta l')
     (set_n_outputs (l_n_outputs l') (set_n_biases (l_n_outputs l') (set_n_weights (l_n_inputs l * l_n_outputs l') l)))))))))))
}.

Lemma cint_in z : - 2 ^ 31 <= z < 2 ^ 31 -> cint z = Ok z.
Proof.
  intros H. unfold cint, in_int. destruct (Z.leb_spec (- 2 ^ 31) z); destruct (Z.ltb_spec z (2 ^ 31)); try lia; try reflexivity.
  all: destruct (Z.leb_spec z (2 ^ 31 - 1)); try lia; reflexivity.
Qed.

Lemma add_neurons_ok l N : conn_shape l -> 1 <= l_n_inputs l -> 1 <= l_n_outputs l + N <= N_OUTPUTS_MAX ->
  (l_n_outputs l + N) * l_n_inputs l <= N_WEIGHTS_MAX -> rt (layer_add_neurons lm l N) (fun l' => grown l l' N).
Proof.
  intros C NI NO NW. unfold layer_add_neurons. cbv zeta. unfold N_OUTPUTS_MAX, N_WEIGHTS_MAX in *.
  set (no := l_n_outputs l + N) in *. set (nw := no * l_n_inputs l) in *. assert (P : 1 <= nw) by (unfold nw; nia).
  eapply rt_bind_lift; [apply cint_in; lia|]. eapply rt_bind_lift; [apply cint_in; fold nw; lia|]. fold nw.
  eapply rt_bind_lift.
  { unfold layer_guard_outputs, guard, N_OUTPUTS_MAX. cbn [l_n_outputs set_n_outputs]. instantiate (1 := tt).
    destruct (Z.ltb_spec no 1); [lia|]. destruct (Z.ltb_spec 2000000 no); [lia|reflexivity]. }
  eapply rt_bind_lift.
  { unfold layer_guard_weights, guard, N_WEIGHTS_MAX. cbn [l_n_weights set_n_weights set_n_outputs set_n_biases]. instantiate (1 := tt).
    destruct (Z.ltb_spec nw 1); [lia|]. destruct (Z.ltb_spec 20000000 nw); [lia|reflexivity]. }
  cbn [l_weights l_active l_weight_updates l_biases l_bias_updates l_output l_state l_delta set_n_outputs set_n_biases set_n_weights].
  change (has (set_n_outputs no (set_n_biases no (set_n_weights nw l))) EVOLVE_CONNECT) with (has l EVOLVE_CONNECT).
  pose proof (cs_w _ C) as CW. pose proof (cs_weights _ C) as C1. pose proof (cs_wu _ C) as C2. pose proof (cs_active _ C) as C3.
  assert (OW : 0 <= l_n_weights l) by (rewrite <- C1; apply len_nonneg).
  set (old := l_n_weights l) in *.
  eapply rt_bind with (P := fun ww => len (fst (fst ww)) = nw /\ len (snd (fst ww)) = nw /\ len (snd ww) = nw /\
    (forall k, 0 <= k < nw -> k < old -> at_ fnan (fst (fst ww)) k = at_ fnan (l_weights l) k /\ at_ false (snd (fst ww)) k = at_ false (l_active l) k /\
       at_ fnan (snd ww) k = at_ fnan (l_weight_updates l) k) /\
    (forall k, old <= k < nw -> at_ fnan (snd ww) k = f0 /\ (at_ false (snd (fst ww)) k = true \/ (has l EVOLVE_CONNECT = true /\ at_ fnan (fst (fst ww)) k = f0)))).
  { eapply rt_for_max with (I := fun i ww => len (fst (fst ww)) = nw /\ len (snd (fst ww)) = nw /\ len (snd ww) = nw /\
      (forall k, 0 <= k < nw -> k < old -> at_ fnan (fst (fst ww)) k = at_ fnan (l_weights l) k /\ at_ false (snd (fst ww)) k = at_ false (l_active l) k /\
         at_ fnan (snd ww) k = at_ fnan (l_weight_updates l) k) /\
      (forall k, old <= k < old + i -> at_ fnan (snd ww) k = f0 /\ (at_ false (snd (fst ww)) k = true \/ (has l EVOLVE_CONNECT = true /\ at_ fnan (fst (fst ww)) k = f0)))).
    - cbn [fst snd]. rewrite !len_realloc by lia. do 3 (split; [reflexivity|]). split; [|intros; lia].
      intros k K1 K2. rewrite !at_realloc by lia. auto.
    - intros i ((w, a), u) I (L1 & L2 & L3 & H1 & H2). cbn [fst snd] in *.
      eapply rt_bind with (P := fun off => off = true -> has l EVOLVE_CONNECT = true).
      { destruct (has l EVOLVE_CONNECT); [|apply rt_ret; auto]. eapply rt_bind; [apply (rt_uniform J lm Zok SR)|]. intros v _. apply rt_ret. auto. }
      intros off OFF.
      eapply rt_bind with (P := fun wa => exists x b, wrote w (fst wa) (old + i) x /\ wrote a (snd wa) (old + i) b /\ (b = true \/ (has l EVOLVE_CONNECT = true /\ x = f0))).
      { destruct off.
        - destruct (wr_ok w (old + i) f0 ltac:(lia)) as (w' & E1 & W). destruct (wr_ok a (old + i) false ltac:(lia)) as (a' & E2 & A').
          eapply rt_bind_lift; [exact E1|]. eapply rt_bind_lift; [exact E2|]. apply rt_ret. exists f0, false. cbn [fst snd]. auto 7.
        - eapply rt_bind; [apply (rt_normal J lm Zok SR)|]. intros x _.
          destruct (wr_ok w (old + i) x ltac:(lia)) as (w' & E1 & W). destruct (wr_ok a (old + i) true ltac:(lia)) as (a' & E2 & A').
          eapply rt_bind_lift; [exact E1|]. eapply rt_bind_lift; [exact E2|]. apply rt_ret. exists x, true. cbn [fst snd]. auto. }
      intros (w', a') (x & b & (W1 & W2 & W3 & _) & (A1 & A2 & A3 & _) & B). cbn [fst snd] in *.
      destruct (wr_ok u (old + i) f0 ltac:(lia)) as (u' & E & U1 & U2 & U3 & _). eapply rt_bind_lift; [exact E|]. apply rt_ret. cbn [fst snd].
      split; [lia|]. split; [lia|]. split; [lia|]. split.
      + intros k K1 K2. rewrite W3, A3, U3 by lia. now apply H1.
      + intros k K. destruct (Z.eq_dec k (old + i)) as [->|NE].
        * rewrite W2, A2, U2. split; [reflexivity|]. exact B.
        * rewrite W3, A3, U3 by lia. apply H2. lia.
    - intros ww (L1 & L2 & L3 & H1 & H2). do 4 (split; [assumption|]). intros k K. apply H2. lia. }
  intros ((w, a), u) (L1 & L2 & L3 & H1 & H2). cbn [fst snd] in *.
  destruct (zero_new_ok (l_biases l) (l_n_outputs l) no (cs_biases _ C) ltac:(lia)) as (b' & EB & RB).
  destruct (zero_new_ok (l_bias_updates l) (l_n_outputs l) no (cs_bu _ C) ltac:(lia)) as (bu' & EBU & RBU).
  destruct (zero_new_ok (l_output l) (l_n_outputs l) no (cs_output _ C) ltac:(lia)) as (o' & EO & RO).
  destruct (zero_new_ok (l_state l) (l_n_outputs l) no (cs_state _ C) ltac:(lia)) as (s' & ES & RS).
  destruct (zero_new_ok (l_delta l) (l_n_outputs l) no (cs_delta _ C) ltac:(lia)) as (d' & ED & RD).
  eapply rt_bind_lift; [exact EB|]. eapply rt_bind_lift; [exact EBU|]. eapply rt_bind_lift; [exact EO|]. eapply rt_bind_lift; [exact ES|]. eapply rt_bind_lift; [exact ED|].
  set (l1 := set_weights w _).
  assert (NA : layer_calc_n_active l1 = Ok (set_n_active (actives a) l1)).
  { unfold layer_calc_n_active. change (l_n_weights l1) with nw. change (l_active l1) with a. rewrite count_active_ok by (symmetry; exact L2). reflexivity. }
  eapply rt_lift; [exact NA|]. clear NA.
  constructor; try assumption; try reflexivity.
  - constructor; try assumption; try reflexivity; try (apply RB || apply RBU || apply RO || apply RS || apply RD).
    + exact (cs_in _ C).
    + change (0 <= no). lia.
    + change (nw = l_n_inputs l * no). unfold nw. lia.
  - change (l_n_inputs l * l_n_outputs (set_n_active (actives a) l1)) with (l_n_inputs l * no). replace (l_n_inputs l * no) with nw by (unfold nw; lia). reflexivity.
Qed.

(** ** Resizing after a change of the previous layer *)
Lemma idx_inj n o i o' i' : 0 <= i < n -> 0 <= i' < n -> o * n + i = o' * n + i' -> o = o' /\ i = i'.
Proof. intros H1 H2 E. assert (o = o') by nia. subst. split; [reflexivity|lia]. Qed.

(** Weight (o,i) of the layer with [n] inputs. *)
Definition moved (l : layer f64) (pn : Z) (w u : list f64) (a : list bool) (o i : Z) : Prop :=
  let k := o * pn + i in let k0 := o * l_n_inputs l + i in
  if i <? l_n_inputs l
  then at_ fnan w k = at_ fnan (l_weights l) k0 /\ at_ fnan u k = at_ fnan (l_weight_updates l) k0 /\ at_ false a k = at_ false (l_active l) k0
  else at_ fnan u k = f0 /\ at_ false a k = true.

(** What resizing to [pn] inputs does before repairing the connections. *)
Record re_in (l l' : layer f64) (pn : Z) : Prop := {
  ri_in : l_n_inputs l' = pn;
  ri_out : l_n_outputs l' = l_n_outputs l;
  ri_shape : conn_shape l';
  ri_active : l_n_active l' = actives (l_active l');
  ri_moved : forall o i, 0 <= o < l_n_outputs l -> 0 <= i < pn -> moved l pn (l_weights l') (l_weight_updates l') (l_active l') o i;
  ri_rest : l' = set_n_active (l_n_active l') (set_weights (l_weights l') (set_weight_updates (l_weight_updates l') (set_active (l_active l')
              (set_n_weights (pn * l_n_outputs l) (set_n_inputs pn l)))))
}.

Lemma re_tidy l l' pn : conn_shape l -> tidy l -> 1 <= pn -> re_in l l' pn -> tidy l'.
Proof.
  intros C (T1 & T2) P R. split; [|exact (ri_active _ _ _ R)]. intros k K H.
  pose proof (cs_w _ (ri_shape _ _ _ R)) as W. rewrite (ri_in _ _ _ R), (ri_out _ _ _ R) in W. pose proof (cs_in _ C) as CI. pose proof (cs_out _ C) as CO.
  assert (D : k = k / pn * pn + k mod pn) by (rewrite Z.mul_comm; apply Z.div_mod; lia).
  assert (M : 0 <= k mod pn < pn) by (apply Z.mod_pos_bound; lia).
  assert (O : 0 <= k / pn < l_n_outputs l) by (split; [apply Z.div_pos; lia|apply Z.div_lt_upper_bound; lia]).
  pose proof (ri_moved _ _ _ R (k / pn) (k mod pn) O M) as MV. unfold moved in MV. cbv zeta in MV. rewrite <- D in MV.
  destruct (Z.ltb_spec (k mod pn) (l_n_inputs l)) as [B|B].
  - destruct MV as (M1 & M2 & M3). rewrite M1. apply T1; [|congruence]. rewrite (cs_w _ C). nia.
  - destruct MV as (_ & M3). congruence.
Qed.

Lemma resize_ok fuel l pn : conn_shape l -> tidy l -> 1 <= l_n_outputs l <= int_max -> 1 <= pn <= int_max -> pn * l_n_outputs l <= N_WEIGHTS_MAX -> (1 <= fuel)%nat ->
  rt (connected_resize lm fuel l pn) (fun l' => exists l1, re_in l l1 pn /\ tidy l1 /\
    if has l EVOLVE_CONNECT
    then exists a w n, l' = rewire a w n l1 /\ links (l_n_weights l1) a w n /\ extended (l_n_weights l1) (l_active l1) (l_weights l1) a w /\ wired l'
    else l' = l1).
Proof.
  intros C T NO PN NW FU. unfold connected_resize. pose proof (cs_w _ C) as CW. pose proof (cs_weights _ C) as C1. pose proof (cs_wu _ C) as C2. pose proof (cs_active _ C) as C3.
  pose proof (cs_in _ C) as CI. set (nw := pn * l_n_outputs l) in *. assert (P : 1 <= nw) by (unfold nw; nia).
  eapply rt_bind_lift; [apply cint_in; unfold N_WEIGHTS_MAX in NW; lia|].
  eapply rt_bind_lift.
  { unfold guard, N_WEIGHTS_MAX in *. instantiate (1 := tt). destruct (Z.ltb_spec nw 1); [lia|]. destruct (Z.ltb_spec 20000000 nw); [lia|reflexivity]. }
  pose (good := fun (r : list f64 * list f64 * list bool) o i => moved l pn (fst (fst r)) (snd (fst r)) (snd r) o i).
  pose (lens := fun (r : list f64 * list f64 * list bool) => len (fst (fst r)) = nw /\ len (snd (fst r)) = nw /\ len (snd r) = nw).
  assert (STEP : forall o i r x y b, 0 <= o < l_n_outputs l -> 0 <= i < pn -> lens r ->
    exists w u a, wr (fst (fst r)) (o * pn + i) x = Ok w /\ wr (snd (fst r)) (o * pn + i) y = Ok u /\ wr (snd r) (o * pn + i) b = Ok a /\
      lens (w, u, a) /\ at_ fnan w (o * pn + i) = x /\ at_ fnan u (o * pn + i) = y /\ at_ false a (o * pn + i) = b /\
      (forall o' i', 0 <= o' -> 0 <= i' < pn -> (o' <> o \/ i' <> i) -> good r o' i' -> good (w, u, a) o' i')).
  { intros o i ((w, u), a) x y b O I (L1 & L2 & L3). cbn [fst snd] in *. assert (K : 0 <= o * pn + i < nw) by (unfold nw; nia).
    destruct (wr_ok w (o * pn + i) x ltac:(lia)) as (w' & E1 & W1 & W2 & W3 & _).
    destruct (wr_ok u (o * pn + i) y ltac:(lia)) as (u' & E2 & U1 & U2 & U3 & _).
    destruct (wr_ok a (o * pn + i) b ltac:(lia)) as (a' & E3 & A1 & A2 & A3 & _).
    exists w', u', a'. split; [exact E1|]. split; [exact E2|]. split; [exact E3|]. split; [split; [cbn [fst snd]; lia|split; cbn [fst snd]; lia]|].
    split; [apply W2|]. split; [apply U2|]. split; [apply A2|].
    intros o' i' O' I' NE G. unfold good, moved in *. cbv zeta in *. cbn [fst snd] in *.
    assert (D : o' * pn + i' <> o * pn + i). { intros E. destruct (idx_inj pn o' i' o i I' I E). lia. }
    assert (K' : 0 <= o' * pn + i') by nia. rewrite W3, U3, A3 by lia. exact G. }
  eapply rt_bind with (P := fun r => lens r /\ forall o i, 0 <= o < l_n_outputs l -> 0 <= i < pn -> good r o i).
  { eapply rt_for_mono with (I := fun o r => lens r /\ forall o' i, 0 <= o' < o -> 0 <= i < pn -> good r o' i).
    - lia.
    - split; [|intros; lia]. unfold lens. cbn [fst snd]. rewrite !len_zeros by lia. auto.
    - intros o r O (L & G). cbv zeta.
      eapply rt_for_mono with (I := fun i r => lens r /\ (forall o' i, 0 <= o' < o -> 0 <= i < pn -> good r o' i) /\ forall i', 0 <= i' < i -> good r o i').
      + lia.
      + split; [exact L|]. split; [exact G|intros; lia].
      + clear r L G. intros i ((w, u), a) I (L & G1 & G2). destruct (i <? l_n_inputs l) eqn:B.
        * assert (K0 : 0 <= o * l_n_inputs l + i < l_n_weights l) by (rewrite CW; apply Z.ltb_lt in B; nia).
          destruct (STEP o i (w, u, a) (at_ fnan (l_weights l) (o * l_n_inputs l + i)) (at_ fnan (l_weight_updates l) (o * l_n_inputs l + i)) (at_ false (l_active l) (o * l_n_inputs l + i)) O I L)
            as (w' & u' & a' & E1 & E2 & E3 & L' & X1 & X2 & X3 & KEEP). cbn [fst snd] in E1, E2, E3.
          eapply rt_lift with (a := (w', u', a')).
          { rewrite (rd_ok fnan) by lia. cbn [obind]. rewrite E1. cbn [obind]. rewrite (rd_ok fnan) by lia. cbn [obind]. rewrite E2. cbn [obind]. rewrite (rd_ok false) by lia. cbn [obind]. rewrite E3. reflexivity. }
          split; [exact L'|]. split; [intros o' i' O' I'; apply KEEP; try lia; apply G1; assumption|].
          intros i' I'. destruct (Z.eq_dec i' i) as [->|NE]; [|apply KEEP; try lia; apply G2; lia].
          unfold good, moved. cbv zeta. cbn [fst snd]. rewrite B. auto.
        * eapply rt_bind; [apply (rt_normal J lm Zok SR)|]. intros x _.
          destruct (STEP o i (w, u, a) x f0 true O I L) as (w' & u' & a' & E1 & E2 & E3 & L' & X1 & X2 & X3 & KEEP). cbn [fst snd] in E1, E2, E3.
          eapply rt_lift with (a := (w', u', a')). { rewrite E1. cbn [obind]. rewrite E2. cbn [obind]. rewrite E3. reflexivity. }
          split; [exact L'|]. split; [intros o' i' O' I'; apply KEEP; try lia; apply G1; assumption|].
          intros i' I'. destruct (Z.eq_dec i' i) as [->|NE]; [|apply KEEP; try lia; apply G2; lia].
          unfold good, moved. cbv zeta. cbn [fst snd]. rewrite B. auto.
      + intros r' (L' & G1 & G2). split; [exact L'|]. intros o' i O' I. destruct (Z.eq_dec o' o) as [->|NE]; [apply G2, I|apply G1; [lia|exact I]].
    - auto. }
  intros ((w, u), a) ((L1 & L2 & L3) & G). cbn [fst snd] in *. unfold good in G. cbn [fst snd] in G. clear STEP good lens.
  set (l1 := set_weights w (set_weight_updates u (set_active a (set_n_weights nw (set_n_inputs pn l))))).
  assert (NA : layer_calc_n_active l1 = Ok (set_n_active (actives a) l1)).
  { unfold layer_calc_n_active. change (l_n_weights l1) with nw. change (l_active l1) with a. rewrite count_active_ok by (symmetry; exact L3). reflexivity. }
  eapply rt_bind_lift; [exact NA|]. clear NA. set (l2 := set_n_active (actives a) l1).
  assert (R : re_in l l2 pn).
  { constructor; try reflexivity; try assumption. destruct C. constructor; try assumption; try reflexivity. change (0 <= pn). lia. }
  pose proof (re_tidy l l2 pn C T ltac:(lia) R) as T2. change (has l2 EVOLVE_CONNECT) with (has l EVOLVE_CONNECT).
  destruct (has l EVOLVE_CONNECT).
  - eapply rt_mono; [apply (ensure_ok fuel l2 (ri_shape _ _ _ R) T2 PN NO FU)|]. intros l' H. exists l2. split; [exact R|]. split; [exact T2|]. exact H.
  - apply rt_ret. exists l2. auto.
Qed.

End Draws.
