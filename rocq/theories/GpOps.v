(** * Random generation, copying, crossover, mutation and matching of GP trees. *)
From Coq Require Import ZArith Bool List Lia Reals.
From Flocq Require Import Core BinarySingleNaN.
From Verif Require Import Outcome F64 F64Facts Rng RngFacts RandInt Pop PopSpec PopInv Arr ArrFacts Sam SamFacts Cond Comp TernFacts CompFacts Gp GpRand GpFacts.
Import ListNotations.
Open Scope Z_scope.

(** A tree and the expression it is the prefix notation of. *)
Definition holds (a : targs) (g : gptree) (e : gexpr) : Prop :=
  gp_tree g = flat e /\ gp_len g = len (flat e) /\ ranged a e.
Definition wf_gp (a : targs) (g : gptree) : Prop :=
  (exists e, holds a g e) /\ gp_len g <= int_max /\ length (gp_mu g) = 1%nat.
(** Admissible sizes: the terminals are numbered without overflow, and are not 1, 2 or 5. *)
Definition targs_ok (a : targs) : Prop :=
  len (ta_const a) = ta_nconst a /\ 1 <= ta_nconst a /\ 1 <= ta_inputs a /\ 4 + ta_nconst a + ta_inputs a <= int_max /\
  ta_nconst a + ta_inputs a <> 2 /\ ta_nconst a + ta_inputs a <> 5.

Lemma height_pow e d : (height e <= d)%nat -> Z.of_nat (size e) <= 2 ^ (Z.of_nat d + 1) - 1.
Proof.
  revert d. induction e as [n|op l IHl r IHr]; intros d H; cbn [height size] in *.
  - replace (2 ^ (Z.of_nat d + 1)) with (2 * 2 ^ Z.of_nat d) by (rewrite Z.pow_add_r by lia; lia).
    assert (0 < 2 ^ Z.of_nat d) by (apply Z.pow_pos_nonneg; lia). lia.
  - destruct d as [|d]; [lia|]. specialize (IHl d ltac:(lia)). specialize (IHr d ltac:(lia)).
    replace (Z.of_nat (S d) + 1) with (1 + (Z.of_nat d + 1)) by lia. rewrite Z.pow_add_r by lia. lia.
Qed.
Lemma cells_ok : forall l t, firstn (length l) t = map Some l -> cells (length l) t = Ok l.
Proof.
  induction l as [|v l IH]; intros t H; [reflexivity|]. destruct t as [|o t]; [discriminate|]. cbn in H. injection H as -> H.
  cbn [cells length]. rewrite IH by exact H. reflexivity.
Qed.
Lemma at_app_l {A} (d : A) l r i : 0 <= i < len l -> at_ d (l ++ r) i = at_ d l i.
Proof. intros H. unfold at_, len in *. apply app_nth1. lia. Qed.
Lemma at_app_r {A} (d : A) l r i : len l <= i -> at_ d (l ++ r) i = at_ d r (i - len l).
Proof. intros H. unfold at_, len in *. rewrite app_nth2 by lia. f_equal. lia. Qed.

Section Ops.
Context (J : rng -> Prop) (lm : libm) (Zok : f64 -> Prop) (SR : src lm J Zok) (a : targs) (TA : targs_ok a).
Notation rt := (rt J).

Lemma rt_term : rt (rand_uniform_int GP_NUM_FUNC (max_term a)) (fun n => 4 <= n < 4 + ta_nconst a + ta_inputs a).
Proof.
  destruct TA as (_ & H1 & H2 & H3 & H4 & H5). intros g G.
  pose proof (rand_term (ta_nconst a + ta_inputs a) g ltac:(lia) ltac:(lia) ltac:(lia) ltac:(lia) ltac:(lia)) as T.
  unfold max_term, GP_NUM_FUNC. rewrite <- Z.add_assoc. destruct (rand_uniform_int 4 _ g) as [[z g']| | |]; try contradiction.
  destruct T as (T & ->). exists z, (advance g). split; [reflexivity|]. split; [|lia]. destruct g. apply (src_draw _ _ _ SR). exact G.
Qed.
Lemma rt_func : rt (rand_uniform_int 0 GP_NUM_FUNC) (fun n => 0 <= n < 4).
Proof. apply (rt_uniform_int J lm Zok SR 4). unfold int_max. lia. Qed.

(** What [tree_grow] leaves in the array: nothing before [pos] changes; unless it fails, an
    expression of at most the given height follows, and fits. *)
Definition grown (d : nat) (t : list (option Z)) (pos max : Z) (r : list (option Z) * Z) : Prop :=
  len (fst r) = len t /\ (forall i, 0 <= i < pos -> at_ None (fst r) i = at_ None t i) /\
  (pos + 2 ^ (Z.of_nat d + 1) - 1 <= max -> snd r <> -1) /\
  (snd r = -1 \/ exists e, ranged a e /\ (height e <= d)%nat /\ (pos = 0 -> (height e = 0 <-> d = 0)%nat) /\
     snd r = pos + len (flat e) /\ snd r <= max /\
     forall i, 0 <= i < len (flat e) -> at_ None (fst r) (pos + i) = Some (at_ 0 (flat e) i)).

Lemma leaf_grown d t pos max : len t = max -> 0 <= pos < max -> (pos = 0 -> d = 0%nat) ->
  rt (n <- rand_uniform_int GP_NUM_FUNC (max_term a) ;; t' <- lift (wr t pos (Some n)) ;; ret (t', pos + 1))%rng (grown d t pos max).
Proof.
  intros L Hp Hd. eapply rt_bind; [apply rt_term|]. intros n Hn. cbv beta in Hn.
  destruct (wr_ok t pos (Some n)) as (t' & E & (W1 & W2 & W3 & _)); [lia|]. eapply rt_bind_lift; [exact E|]. apply rt_ret.
  split; [exact W1|]. cbn [fst snd]. split; [intros i Hi; apply W3; lia|]. split; [lia|]. right. exists (Leaf n). cbn [ranged height flat].
  split; [exact Hn|]. split; [lia|]. split; [intros H0; split; [intros _; apply Hd, H0|reflexivity]|]. change (len [n]) with 1. split; [lia|]. split; [lia|].
  intros i Hi. assert (i = 0) as -> by lia. rewrite Z.add_0_r, W2. reflexivity.
Qed.

Lemma grow_ok d : forall t pos max, len t = max -> 0 <= pos -> rt (tree_grow a d t pos max) (grown d t pos max).
Proof.
  induction d as [|d IH]; intros t pos max L Hp; cbn [tree_grow].
  - destruct (max <=? pos) eqn:E.
    + apply rt_ret. split; [reflexivity|]. split; [auto|]. cbn [fst snd]. split; [change (2 ^ (Z.of_nat 0 + 1)) with 2; lia|auto].
    + eapply rt_bind with (P := fun _ => True); [apply rt_ret; exact I|]. intros _ _. apply leaf_grown; lia.
  - assert (PW : 2 ^ (Z.of_nat (S d) + 1) = 2 * 2 ^ (Z.of_nat d + 1)).
    { replace (Z.of_nat (S d) + 1) with (1 + (Z.of_nat d + 1)) by lia. rewrite Z.pow_add_r by lia. lia. }
    assert (P1 : 2 <= 2 ^ (Z.of_nat d + 1)) by (change 2 with (2 ^ 1) at 1; apply Z.pow_le_mono_r; lia).
    destruct (max <=? pos) eqn:E.
    + apply rt_ret. split; [reflexivity|]. split; [auto|]. cbn [fst snd]. split; [lia|auto].
    + eapply rt_bind with (P := fun leaf : bool => pos = 0 -> leaf = false).
      { destruct (pos =? 0) eqn:E0; [apply rt_ret; auto|]. eapply rt_bind; [apply (rt_uniform J lm Zok SR)|]. intros u _. apply rt_ret. lia. }
      intros leaf HL. destruct leaf; [apply leaf_grown; [exact L|lia|intros H0; discriminate (HL H0)]|].
      eapply rt_bind; [apply rt_func|]. intros op Hop. cbv beta in Hop.
      destruct (wr_ok t pos (Some op)) as (t1 & E1 & (W1 & W2 & W3 & _)); [lia|]. eapply rt_bind_lift; [exact E1|].
      eapply rt_bind; [apply IH; [lia|lia]|]. intros [t2 p2] (G1 & G2 & G3 & G4). cbn [fst snd] in *.
      destruct (p2 <? 0) eqn:E2.
      * apply rt_ret. split; [cbn [fst]; lia|]. cbn [fst snd]. split; [intros i Hi; rewrite G2 by lia; apply W3; lia|].
        destruct G4 as [G4|(e & _ & _ & _ & G4 & _)]; [|exfalso; pose proof (len_nonneg (flat e)); lia]. split; [|auto].
        intros HB. exfalso. apply G3; [lia|exact G4].
      * destruct G4 as [G4|(e1 & R1 & H1 & _ & S1 & M1 & V1)]; [lia|].
        eapply rt_mono; [apply IH; [lia|pose proof (len_nonneg (flat e1)); lia]|]. intros [t3 p3] (K1 & K2 & K3 & K4). cbn [fst snd] in *.
        pose proof (height_pow e1 d H1) as SZ. rewrite <- len_flat in SZ. pose proof (len_nonneg (flat e1)).
        split; [cbn [fst]; lia|]. cbn [fst snd]. split; [intros i Hi; rewrite K2, G2 by lia; apply W3; lia|].
        split; [intros HB; apply K3; lia|]. destruct K4 as [K4|(e2 & R2 & H2 & _ & S2 & M2 & V2)]; [auto|]. right. exists (Node op e1 e2).
        split; [cbn [ranged]; auto|]. cbn [height]. split; [lia|]. split; [lia|]. cbn [flat]. rewrite len_cons, len_app. split; [lia|]. split; [lia|].
        intros i Hi. destruct (Z.eq_dec i 0) as [->|Hi0].
        { rewrite Z.add_0_r. rewrite K2 by lia. rewrite G2 by lia. rewrite W2. reflexivity. }
        assert (AT : at_ 0 (op :: flat e1 ++ flat e2) i = at_ 0 (flat e1 ++ flat e2) (i - 1)).
        { change (op :: flat e1 ++ flat e2) with ([op] ++ (flat e1 ++ flat e2)). apply at_app_r. change (len [op]) with 1. lia. }
        rewrite AT. destruct (Z_lt_ge_dec (i - 1) (len (flat e1))) as [HI|HI].
        { rewrite K2 by lia. replace (pos + i) with (pos + 1 + (i - 1)) by lia. rewrite V1 by lia. rewrite at_app_l by lia. reflexivity. }
        rewrite at_app_r by lia. replace (pos + i) with (p2 + (i - 1 - len (flat e1))) by lia. apply V2. lia.
Qed.

(** *** Random trees *)
Context (DP : 1 <= ta_depth a) (ML : 0 <= ta_max_len a <= int_max).
(** A new tree: ranged, no deeper than init_depth, no longer than max_len, its root a function. *)
Definition fresh_gp (g : gptree) : Prop :=
  exists e, holds a g e /\ (1 <= height e <= Z.to_nat (ta_depth a))%nat /\ gp_len g <= ta_max_len a.

Lemma grown_cells (t : list (option Z)) r e : len (fst r) = len t -> snd r = 0 + len (flat e) ->
  (forall i, 0 <= i < len (flat e) -> at_ None (fst r) (0 + i) = Some (at_ 0 (flat e) i)) -> len (flat e) <= len t ->
  cells (Z.to_nat (snd r)) (fst r) = Ok (flat e).
Proof.
  intros L S V M. rewrite S. replace (Z.to_nat (0 + len (flat e))) with (length (flat e)) by (unfold len; lia).
  apply cells_ok. apply (list_ext None); [unfold len in *; rewrite firstn_length, map_length; lia|].
  intros i Hi. assert (HI : 0 <= i < len (flat e)) by (unfold len in *; rewrite firstn_length in Hi; lia).
  rewrite <- (firstn_skipn (length (flat e)) (fst r)) in V. specialize (V i HI). rewrite Z.add_0_l in V.
  rewrite at_app_l in V by (unfold len in *; rewrite firstn_length; lia). rewrite V. unfold at_. unfold len in HI.
  symmetry. change None with (option_map (fun z : Z => z) None). rewrite (nth_indep _ _ (Some 0)) by (rewrite map_length; lia). apply (map_nth Some).
Qed.

(** One attempt. *)
Lemma attempt_ok t : len t = ta_max_len a ->
  rt (tree_grow a (Z.to_nat (ta_depth a)) t 0 (ta_max_len a)) (fun r => len (fst r) = ta_max_len a /\
    (2 ^ (ta_depth a + 1) - 1 <= ta_max_len a -> 1 <= snd r) /\
    (snd r < 1 \/ exists e, cells (Z.to_nat (snd r)) (fst r) = Ok (flat e) /\ snd r = len (flat e) /\ ranged a e /\
      (1 <= height e <= Z.to_nat (ta_depth a))%nat /\ 3 <= len (flat e) <= ta_max_len a)).
Proof.
  intros L. eapply rt_mono; [apply grow_ok; [exact L|lia]|]. intros r (G1 & _ & G3 & G4).
  split; [lia|]. rewrite Z2Nat.id in G3 by lia. rewrite Z.add_0_l in G3. split.
  - intros H. specialize (G3 H). destruct G4 as [G4|(e & _ & _ & _ & G4 & _)]; [contradiction|]. rewrite len_flat in G4. pose proof (size_pos e). lia.
  - destruct G4 as [G4|(e & R & H & H0 & S & M & V)]; [lia|]. right. exists e. specialize (H0 eq_refl).
    split; [apply (grown_cells t); try assumption; lia|]. split; [lia|]. split; [exact R|]. split; [lia|]. split; [|lia].
    destruct e as [n|op l r']; cbn [height] in *; [lia|]. rewrite len_flat. cbn [size]. pose proof (size_pos l). pose proof (size_pos r'). lia.
Qed.

Lemma mu_init : rt (sam_init gp_mu_type) (fun mu => length mu = 1%nat /\ Forall rate_ok mu).
Proof. eapply rt_mono; [apply (sam_init_ok J lm Zok SR gp_mu_type); repeat constructor; right; left; reflexivity|]. intros mu (L & F). auto. Qed.

(** [m] never fails, but may run out of fuel when [FO] holds. *)
Definition rf (FO : Prop) {A} (m : RM A) (Q : A -> Prop) : Prop :=
  forall g, J g -> match m g with Ok (v, g') => J g' /\ Q v | OutOfFuel => FO | _ => False end.
Lemma rf_rt {A} FO (m : RM A) Q : rt m Q -> rf FO m Q.
Proof. intros H g G. destruct (H g G) as (v & g' & -> & G' & V). auto. Qed.
Lemma rf_bind {A B} FO (m : RM A) (k : A -> RM B) P Q : rf FO m P -> (forall v, P v -> rf FO (k v) Q) -> rf FO (bind m k) Q.
Proof.
  intros H HK g G. specialize (H g G). unfold bind. destruct (m g) as [[v g']| | |]; try contradiction; [|exact H].
  destruct H as (G' & V). exact (HK v V g' G').
Qed.
Lemma rf_mono {A} FO (m : RM A) (P Q : A -> Prop) : rf FO m P -> (forall v, P v -> Q v) -> rf FO m Q.
Proof. intros H HQ g G. specialize (H g G). destruct (m g) as [[v g']| | |]; try exact H. destruct H. auto. Qed.

Definition grown_tree (r : list (option Z) * Z) : Prop :=
  exists e, cells (Z.to_nat (snd r)) (fst r) = Ok (flat e) /\ snd r = len (flat e) /\ ranged a e /\
    (1 <= height e <= Z.to_nat (ta_depth a))%nat /\ 3 <= len (flat e) <= ta_max_len a.
Lemma loop_ok (FO : Prop) fuel : forall t, len t = ta_max_len a ->
  (fuel = O \/ ta_max_len a < 2 ^ (ta_depth a + 1) - 1 -> FO) -> rf FO (grow_loop a fuel t) grown_tree.
Proof.
  induction fuel as [|f IH]; intros t L HF; cbn [grow_loop].
  - intros g G. apply HF. auto.
  - eapply rf_bind; [apply rf_rt, (attempt_ok t L)|]. intros r (L' & H1 & H2). destruct (snd r <? 1) eqn:E.
    + apply IH; [exact L'|]. intros _. apply HF. right. lia.
    + apply rf_rt, rt_ret. destruct H2 as [H2|H2]; [lia|exact H2].
Qed.
Lemma rand_ok (FO : Prop) fuel : (fuel = O \/ ta_max_len a < 2 ^ (ta_depth a + 1) - 1 -> FO) ->
  rf FO (tree_rand a fuel) (fun g => wf_gp a g /\ fresh_gp g /\ gp_pos g = None /\ Forall rate_ok (gp_mu g)).
Proof.
  intros HF. eapply rf_bind; [apply loop_ok; [apply len_repeat; lia|exact HF]|].
  intros r (e & C & S & R & H & M). eapply rf_bind; [apply rf_rt; eapply rt_lift with (Q := fun t => t = flat e); [exact C|reflexivity]|].
  intros t ->. eapply rf_bind; [apply rf_rt, mu_init|]. intros mu (L & F). apply rf_rt, rt_ret. cbn [gp_pos gp_mu].
  assert (HO : holds a (mkGp (flat e) (snd r) None mu) e) by (repeat split; cbn [gp_len]; assumption).
  split; [split; [exists e; exact HO|cbn [gp_len gp_mu]; split; [lia|exact L]]|]. split; [|auto]. exists e. split; [exact HO|]. cbn [gp_len]. split; [exact H|lia].
Qed.
(** No tree of three nodes fits: generation never ends, whatever is drawn. *)
Lemma rand_stuck fuel g : ta_max_len a < 3 -> J g -> tree_rand a fuel g = OutOfFuel.
Proof.
  intros HM G. assert (H : forall t g, len t = ta_max_len a -> J g -> grow_loop a fuel t g = OutOfFuel).
  { clear g G. induction fuel as [|f IH]; intros t g L G; [reflexivity|]. cbn [grow_loop]. unfold bind.
    destruct (attempt_ok t L g G) as (r & g' & -> & G' & L' & _ & H2).
    destruct H2 as [H2|(e & _ & _ & _ & _ & H2)]; [|lia]. destruct (snd r <? 1) eqn:E; [|lia]. apply IH; assumption. }
  unfold tree_rand. unfold bind at 1. rewrite H; [reflexivity|apply len_repeat; lia|exact G].
Qed.

(** *** Copying, crossover, mutation *)
Lemma copy_ok g : wf_gp a g -> tree_copy g = Ok g.
Proof.
  intros ((e & E1 & E2 & _) & _). unfold tree_copy. rewrite E1, E2. unfold len. destruct (_ <? _) eqn:E; [lia|].
  rewrite Nat2Z.id, firstn_all. destruct g as [t l p m]; cbn [gp_tree gp_len gp_pos gp_mu] in *. subst. reflexivity.
Qed.
Lemma slice_ok pre mid post : slice (pre ++ mid ++ post) (len pre) (len mid) = Ok mid.
Proof.
  unfold slice. pose proof (len_nonneg pre). pose proof (len_nonneg mid). unfold len in *. rewrite !app_length.
  match goal with |- (if ?b then _ else _) = _ => destruct b eqn:E end.
  { exfalso. apply orb_prop in E. destruct E as [E|E]; [apply orb_prop in E; destruct E; lia|]. apply Z.ltb_lt in E. lia. }
  rewrite !Nat2Z.id. rewrite skipn_app, skipn_all, Nat.sub_diag. cbn [app skipn].
  rewrite firstn_app, Nat.sub_diag, firstn_all, firstn_O, app_nil_r. reflexivity.
Qed.

(** The parents' subtrees at the chosen places are exchanged. *)
Definition swapped (p1 p2 : gptree) (e1 e2 : gexpr) (r : gptree * gptree) : Prop :=
  exists k1 k2, (k1 < size e1)%nat /\ (k2 < size e2)%nat /\
    holds a (fst r) (graft e1 k1 (subtree e2 k2)) /\ holds a (snd r) (graft e2 k2 (subtree e1 k1)) /\
    gp_len (fst r) <= int_max /\ gp_len (snd r) <= int_max /\
    gp_len (fst r) + gp_len (snd r) = gp_len p1 + gp_len p2 /\
    gp_pos (fst r) = gp_pos p1 /\ gp_mu (fst r) = gp_mu p1 /\ gp_pos (snd r) = gp_pos p2 /\ gp_mu (snd r) = gp_mu p2.
Lemma crossover_ok (FO : Prop) p1 p2 e1 e2 : holds a p1 e1 -> holds a p2 e2 -> gp_len p1 <= int_max -> gp_len p2 <= int_max ->
  (int_max < gp_len p1 + gp_len p2 -> FO) -> rf FO (tree_crossover p1 p2) (swapped p1 p2 e1 e2).
Proof using SR.
  clear DP ML.
  intros (E1 & L1 & R1) (E2 & L2 & R2) M1 M2 HF. unfold tree_crossover. rewrite E1, E2, L1, L2 in *.
  pose proof (len_flat e1) as Z1. pose proof (len_flat e2) as Z2. pose proof (size_pos e1). pose proof (size_pos e2).
  eapply rf_bind; [apply rf_rt, (rt_uniform_int J lm Zok SR (len (flat e1))); lia|]. intros s1 H1. cbv beta in H1.
  eapply rf_bind; [apply rf_rt; eapply rt_lift with (Q := fun v => v = s1 + len (flat (subtree e1 (Z.to_nat s1)))); [apply (traverse_at a); assumption|reflexivity]|]. intros ? ->.
  eapply rf_bind; [apply rf_rt, (rt_uniform_int J lm Zok SR (len (flat e2))); lia|]. intros s2 H2. cbv beta in H2.
  eapply rf_bind; [apply rf_rt; eapply rt_lift with (Q := fun v => v = s2 + len (flat (subtree e2 (Z.to_nat s2)))); [apply (traverse_at a); assumption|reflexivity]|]. intros ? ->.
  destruct (flat_split e1 (Z.to_nat s1) ltac:(lia)) as (a1 & c1 & A1 & F1 & G1). destruct (flat_split e2 (Z.to_nat s2) ltac:(lia)) as (a2 & c2 & A2 & F2 & G2).
  set (t1 := subtree e1 (Z.to_nat s1)) in *. set (t2 := subtree e2 (Z.to_nat s2)) in *.
  assert (S1 : s1 = len a1) by (unfold len; lia). assert (S2 : s2 = len a2) by (unfold len; lia).
  pose proof (len_nonneg a1). pose proof (len_nonneg a2). pose proof (len_nonneg c1). pose proof (len_nonneg c2).
  assert (N1 : len (flat e1) = len a1 + len (flat t1) + len c1) by (rewrite F1, !len_app; lia).
  assert (N2 : len (flat e2) = len a2 + len (flat t2) + len c2) by (rewrite F2, !len_app; lia).
  pose proof (len_nonneg (flat t1)). pose proof (len_nonneg (flat t2)).
  destruct ((int_max <? _) || (int_max <? _)) eqn:EI.
  { intros g G. apply HF. lia. }
  assert (SL : forall f n t v, slice t f n = Ok v -> forall (B : Type) (k : list Z -> RM B) Q, rf FO (k v) Q -> rf FO (bind (lift (slice t f n)) k) Q).
  { intros f n t v E B k Q HK g G. unfold bind, lift. rewrite E. exact (HK g G). }
  apply SL with (v := a1). { rewrite F1, S1. exact (slice_ok [] a1 _). }
  apply SL with (v := flat t2). { rewrite F2, S2. replace (len a2 + _ - _) with (len (flat t2)) by lia. apply slice_ok. }
  apply SL with (v := c1).
  { rewrite S1, N1. replace (len a1 + len (flat t1) + len c1 - (len a1 + len (flat t1))) with (len c1) by lia. rewrite <- len_app, F1, app_assoc.
    rewrite <- (app_nil_r c1) at 1. apply slice_ok. }
  apply SL with (v := a2). { rewrite F2, S2. exact (slice_ok [] a2 _). }
  apply SL with (v := flat t1). { rewrite F1, S1. replace (len a1 + _ - _) with (len (flat t1)) by lia. apply slice_ok. }
  apply SL with (v := c2).
  { rewrite S2, N2. replace (len a2 + len (flat t2) + len c2 - (len a2 + len (flat t2))) with (len c2) by lia. rewrite <- len_app, F2, app_assoc.
    rewrite <- (app_nil_r c2) at 1. apply slice_ok. }
  cbv zeta. rewrite <- (G1 t2), <- (G2 t1).
  assert (RT1 : ranged a t1) by apply subtree_ranged, R1. assert (RT2 : ranged a t2) by apply subtree_ranged, R2.
  assert (RG1 : ranged a (graft e1 (Z.to_nat s1) t2)) by (apply graft_ranged; assumption).
  assert (RG2 : ranged a (graft e2 (Z.to_nat s2) t1)) by (apply graft_ranged; assumption).
  apply rf_rt. eapply rt_bind_lift; [apply (traverse_all a), RG1|]. eapply rt_bind_lift; [apply (traverse_all a), RG2|]. apply rt_ret.
  exists (Z.to_nat s1), (Z.to_nat s2). fold t1 t2. split; [lia|]. split; [lia|]. cbn [fst snd]. split; [repeat split; assumption|]. split; [repeat split; assumption|].
  cbn [gp_len gp_pos gp_mu]. rewrite !G1, !G2, !len_app. split; [lia|]. split; [lia|]. split; [lia|]. auto.
Qed.

(** Prefix notation determines the expression's shape. *)
Definition same_kind (u v : Z) : Prop := (4 <= u <-> 4 <= v) /\ 0 <= u /\ 0 <= v < 4 + ta_nconst a + ta_inputs a.
Lemma reshape e : ranged a e -> forall t, Forall2 same_kind (flat e) t -> exists e', t = flat e' /\ ranged a e' /\ same_shape e e'.
Proof.
  induction e as [n|op l IHl r IHr]; intros R t F; cbn [flat] in F.
  - inversion F as [|? v ? ? K F']; subst. inversion F'; subst. exists (Leaf v). change (4 <= n < 4 + ta_nconst a + ta_inputs a) in R.
    destruct K as (K & _ & K2). repeat split; cbn [ranged]; lia.
  - inversion F as [|? v ? ? K F']; subst. apply Forall2_app_inv_l in F'. destruct F' as (t1 & t2 & Fl & Fr & ->).
    destruct R as (R & Rl & Rr). destruct (IHl Rl t1 Fl) as (l' & -> & Rl' & Sl). destruct (IHr Rr t2 Fr) as (r' & -> & Rr' & Sr).
    exists (Node v l' r'). destruct K as (K & _ & K2). split; [reflexivity|]. split; [|split; assumption]. cbn [ranged]. split; [lia|auto].
Qed.
Lemma flat_nonneg e : ranged a e -> Forall (fun v => 0 <= v < 4 + ta_nconst a + ta_inputs a) (flat e).
Proof using TA.
  clear DP ML.
  destruct TA as (_ & T1 & T2 & _). induction e as [n|op l IHl r IHr]; intros R; cbn [flat].
  - constructor; [|constructor]. change (4 <= n < 4 + ta_nconst a + ta_inputs a) in R. lia.
  - destruct R as (R & Rl & Rr). constructor; [lia|]. apply Forall_app. auto.
Qed.
Lemma forall2_at {A B} (P : A -> B -> Prop) d d' : forall l l', len l = len l' -> (forall i, 0 <= i < len l -> P (at_ d l i) (at_ d' l' i)) -> Forall2 P l l'.
Proof.
  induction l as [|x l IH]; intros [|y l'] L H; unfold len in *; cbn [length] in *; try lia; constructor.
  - apply (H 0). lia.
  - apply IH; [lia|]. intros i Hi. specialize (H (i + 1) ltac:(lia)). unfold at_ in *. replace (Z.to_nat (i + 1)) with (S (Z.to_nat i)) in H by lia. exact H.
Qed.

(** Mutation: functions become functions, terminals terminals; the flag tells whether
    anything changed. *)
Definition mutated (g : gptree) (e : gexpr) (r : gptree * bool) : Prop :=
  exists e', holds a (fst r) e' /\ same_shape e e' /\ gp_len (fst r) = gp_len g /\ gp_pos (fst r) = gp_pos g /\
    (snd r = true <-> e' <> e).
Lemma flat_inj e : ranged a e -> forall e', ranged a e' -> same_shape e e' -> flat e = flat e' -> e = e'.
Proof.
  induction e as [n|op l IHl r IHr]; intros R [n'|op' l' r'] R' S F; cbn [same_shape flat] in *; try contradiction; [congruence|].
  assert (LS : forall x y, same_shape x y -> length (flat x) = length (flat y)).
  { clear. induction x as [n|op l IHl r IHr]; intros [n'|op' l' r'] S; cbn in *; try contradiction; [reflexivity|]. destruct S. rewrite !app_length. auto. }
  destruct S as (S1 & S2), R as (_ & Rl & Rr), R' as (_ & Rl' & Rr'). injection F as -> F.
  assert (E : flat l = flat l' /\ flat r = flat r').
  { apply (f_equal (firstn (length (flat l)))) in F as F1. apply (f_equal (skipn (length (flat l)))) in F as F2.
    rewrite (LS l l' S1) in F1, F2. rewrite <- (LS l l' S1) in F1 at 1. rewrite <- (LS l l' S1) in F2 at 1.
    rewrite firstn_app, Nat.sub_diag, firstn_all, firstn_O, app_nil_r in F1. rewrite firstn_app, Nat.sub_diag, firstn_all, firstn_O, app_nil_r in F1.
    rewrite skipn_app, Nat.sub_diag, skipn_all in F2. rewrite skipn_app, Nat.sub_diag, skipn_all in F2. auto. }
  destruct E as (E1 & E2). f_equal; auto.
Qed.
Lemma mutate_ok g e (Qm : list f64 -> Prop) : holds a g e ->
  rt (sam_adapt lm gp_mu_type (gp_mu g)) (fun mu => length mu = 1%nat /\ Qm mu) ->
  rt (tree_mutate a lm g) (fun r => mutated g e r /\ length (gp_mu (fst r)) = 1%nat /\ Qm (gp_mu (fst r))).
Proof using SR TA.
  clear DP ML.
  intros (E & L & R) HM. unfold tree_mutate. eapply rt_bind; [exact HM|]. intros mu (LM & QM). rewrite L.
  pose proof (flat_nonneg e R) as FN. rewrite (Forall_at _ 0) in FN.
  eapply rt_bind.
  - eapply rt_for with (I := fun i st => len (fst st) = len (flat e) /\
      (forall j, 0 <= j < len (flat e) -> same_kind (at_ 0 (flat e) j) (at_ 0 (fst st) j)) /\
      (forall j, i <= j < len (flat e) -> at_ 0 (fst st) j = at_ 0 (flat e) j) /\ (snd st = true <-> fst st <> flat e)).
    + apply len_nonneg.
    + cbn [fst snd]. rewrite E. split; [reflexivity|]. split; [|split; [auto|split; congruence]].
      intros j Hj. specialize (FN j Hj). cbv beta in FN. split; [tauto|lia].
    + intros i [t ch] Hi (I1 & I2 & I3 & I4). cbn [fst snd] in *.
      eapply rt_bind; [apply (rt_uniform J lm Zok SR)|]. intros u _.
      eapply rt_bind_lift; [apply (rd_ok f0); unfold len; lia|].
      destruct (flt u _).
      * eapply rt_bind_lift; [apply (rd_ok 0); lia|]. specialize (I2 i Hi) as KI. specialize (FN i Hi) as FI. cbv beta in FI.
        rewrite (I3 i) in * by lia. set (orig := at_ 0 (flat e) i) in *.
        eapply rt_bind with (P := fun n => same_kind orig n).
        { unfold GP_NUM_FUNC at 1. destruct (4 <=? orig) eqn:E4.
          - eapply rt_mono; [apply rt_term|]. intros n Hn. cbv beta in Hn. split; lia.
          - eapply rt_mono; [apply rt_func|]. intros n Hn. cbv beta in Hn. destruct TA as (_ & T1 & T2 & _). split; lia. }
        intros n Hn. destruct (wr_ok t i n) as (t' & ET & (W1 & W2 & W3 & _)); [lia|]. eapply rt_bind_lift; [exact ET|]. apply rt_ret. cbn [fst snd].
        split; [lia|]. split.
        { intros j Hj. destruct (Z.eq_dec j i) as [->|NE]; [rewrite W2; exact Hn|rewrite W3 by lia; apply I2, Hj]. }
        split; [intros j Hj; rewrite W3 by lia; apply I3; lia|].
        destruct (n =? orig) eqn:EN.
        -- assert (ES : t' = t).
           { apply (list_ext 0); [exact W1|]. intros j Hj. destruct (Z.eq_dec j i) as [->|NE]; [rewrite W2, (I3 i) by lia; fold orig; lia|apply W3; lia]. }
           rewrite ES. exact I4.
        -- split; [|auto]. intros _ C. apply (f_equal (fun l => at_ 0 l i)) in C. rewrite W2 in C. fold orig in C. lia.
      * apply rt_ret. cbn [fst snd]. split; [exact I1|]. split; [exact I2|]. split; [|exact I4]. intros j Hj. apply I3. lia.
  - intros [t ch] (I1 & I2 & _ & I4). cbn [fst snd] in *. apply rt_ret. split; [|cbn [fst gp_mu]; auto].
    destruct (reshape e R t) as (e' & -> & R' & S').
    { apply (forall2_at _ 0 0); [lia|exact I2]. }
    exists e'. cbn [fst snd gp_len gp_pos]. split; [repeat split; cbn [gp_len]; try assumption; lia|]. split; [exact S'|]. split; [lia|]. split; [reflexivity|].
    rewrite I4. split; [intros N ->; apply N; reflexivity|]. intros N C. apply N. symmetry. apply flat_inj; auto.
Qed.
(** *** Evaluation *)
Lemma match_ok g e x : holds a g e -> ta_inputs a <= len x ->
  gp_match a g x = Ok (mkGp (gp_tree g) (gp_len g) (Some (gp_len g)) (gp_mu g), fgt (value a x e) fhalf).
Proof using TA.
  clear DP ML.
  intros (E & L & R) HX. unfold gp_match. rewrite E. destruct TA as (T0 & _).
  pose proof (eval_ok a T0 x e HX R (S (length (flat e))) [] [] ) as H. cbn [app] in H. rewrite app_nil_r in H. change (len []) with 0 in H.
  rewrite H by (pose proof (height_size e); rewrite size_flat; lia). cbn [obind fst snd]. rewrite L. reflexivity.
Qed.
End Ops.
