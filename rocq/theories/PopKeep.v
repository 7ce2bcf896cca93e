(** * The stored population is not touched by training, predicting or inserting. *)
From Coq Require Import ZArith Bool List Reals Lia Lra Permutation.
From Flocq Require Import Core BinarySingleNaN.
From Verif Require Import Outcome F64 F64Facts F64Bounds Rng RngFacts Pop PopSpec PopInv PopSel PopDel
  PopCover PopMatch PopMset PopUpdate PopEA PopPA PopTrial PopFit PopRL PopOps PopSeq.
Import ListNotations.
Open Scope Z_scope.

Section Keep.
Context {B : Type} (V : vtab B) (K : cfg) (kf : Z) (wf : B -> Prop) (mt : B -> list f64 -> Prop).
(** The stored population is the same, rule by rule. *)
Definition guards (s s' : st B) : Prop := s_prev_pset s' = s_prev_pset s /\
  forall l, In l (set_list (s_prev_pset s)) -> s_heap s' l = s_heap s l.
Lemma guards_refl s : guards s s.
Proof. split; auto. Qed.
Lemma guards_trans a b c : guards a b -> guards b c -> guards a c.
Proof. intros (A1 & A2) (B1 & B2). split; [congruence|]. intros l Hl. rewrite B2, A2; auto. rewrite A1. exact Hl. Qed.

(** [W]: the sets in use. *)
Section Sets.
Variable W : sel -> Prop.
Hypotheses (WP : W PSET) (WK : W KSET) (WQ : ~ W PREV_PSET).
Definition away (s : st B) : Prop := forall l, In l (set_list (s_prev_pset s)) ->
  (l < s_next s)%nat /\ forall v, W v -> ~ In l (set_list (get_set v s)).
Definition frame (s s' : st B) : Prop := away s -> guards s s' /\ away s'.
Lemma frame_refl s : frame s s.
Proof. intros A. split; [apply guards_refl|exact A]. Qed.
Lemma frame_trans a b c : frame a b -> frame b c -> frame a c.
Proof. intros F1 F2 A. destruct (F1 A) as (G1 & A1). destruct (F2 A1) as (G2 & A2). split; [eapply guards_trans; eassumption|exact A2]. Qed.

(** Sets only gain rules from the sets in use or new ones. *)
Lemma frame_of s s' : s_prev_pset s' = s_prev_pset s -> (s_next s <= s_next s')%nat ->
  (away s -> forall l, In l (set_list (s_prev_pset s)) -> s_heap s' l = s_heap s l) ->
  (away s -> forall v l, W v -> In l (set_list (get_set v s')) -> (exists u, W u /\ In l (set_list (get_set u s))) \/ (s_next s <= l)%nat \/ ~ In l (set_list (s_prev_pset s))) ->
  frame s s'.
Proof.
  intros E N H S A. split; [split; [exact E|apply H, A]|]. intros l Hl. rewrite E in Hl. destruct (A l Hl) as (L & D).
  split; [lia|]. intros v Wv I. destruct (S A v l Wv I) as [(u & Wu & Iu)|[Lt|Q]]; [exact (D u Wu Iu)|lia|exact (Q Hl)].
Qed.
(** Changes outside heap, address counter and sets. *)
Lemma frame_ext s s' : s_heap s' = s_heap s -> s_next s' = s_next s -> (forall v, get_set v s' = get_set v s) -> frame s s'.
Proof.
  intros E1 E2 E3. apply frame_of; [apply (E3 PREV_PSET)|lia|intros; rewrite E1; reflexivity|].
  intros _ v l Wv I. left. exists v. rewrite <- E3. auto.
Qed.
Lemma frame_shrink v D s : v <> PREV_PSET -> (forall l, In l (set_list D) -> exists u, W u /\ In l (set_list (get_set u s))) -> frame s (with_set v D s).
Proof.
  intros NE H. apply frame_of; [destruct v; congruence || reflexivity|destruct v; simpl; lia|intros _ l _; destruct v; reflexivity|].
  intros _ u l Wu I. left. destruct u, v; cbn [get_set with_set s_pset s_prev_pset s_mset s_aset s_kset s_prev_aset] in I;
    first [apply H, I|eexists; split; [exact Wu|exact I]].
Qed.
Lemma frame_touch R w s s' : W w -> touches_all R (set_list (get_set w s)) s s' -> frame s s'.
Proof.
  intros Ww (h & g & -> & _ & O). apply frame_of; sst; try reflexivity; try lia.
  - intros A l Hl. apply O. apply (A l Hl), Ww.
  - intros _ v l Wv I. left. exists v. split; [exact Wv|]. destruct v; exact I.
Qed.
Lemma frame_match x ls s s' : incl ls (set_list (s_pset s)) -> match_rel V K wf mt x ls s s' -> frame s s'.
Proof.
  intros SUB [m1 m2 m3 m4 m5 m6]. apply frame_of.
  - apply (m3 PREV_PSET). discriminate.
  - lia.
  - intros A l Hl. apply m6. intros I. apply (A l Hl) with PSET; [exact WP|]. apply SUB, I.
  - intros _ v l Wv I. destruct (match v with MSET => true | _ => false end) eqn:EV.
    + destruct v; try discriminate. cbn [get_set] in I. rewrite m4 in I. cbn [set_list] in I. left.
      apply in_app_iff in I. destruct I as [I|I]; [|exists MSET; auto]. exists PSET. split; [exact WP|]. apply SUB.
      apply in_rev in I. apply filter_In in I. apply I.
    + left. exists v. split; [exact Wv|]. rewrite <- (m3 v); [exact I|]. destruct v; discriminate.
Qed.
Lemma frame_evolves x s s' : mset_ok mt x s' -> evolves V K mt x s s' -> frame s s'.
Proof.
  intros MO [e1 e2 e3 e4 e5 e6 e7 ek e8]. apply frame_of.
  - apply (e3 PREV_PSET); discriminate.
  - exact e1.
  - intros A l Hl. destruct (A l Hl) as (L & D). apply e6; [exact L|apply (D PSET WP)].
  - intros _ v l Wv I.
    assert (SP : In l (set_list (s_pset s')) -> (exists u, W u /\ In l (set_list (get_set u s))) \/ (s_next s <= l)%nat \/ ~ In l (set_list (s_prev_pset s))).
    { intros I1. apply e7 in I1. destruct I1 as [I1|I1]; [left; exists PSET; auto|auto]. }
    destruct v; cbn [get_set] in I.
    + apply SP, I.
    + contradiction.
    + apply SP. apply (mo_sub _ _ _ MO), I.
    + left. exists ASET. split; [exact Wv|]. rewrite <- (e3 ASET) by discriminate. exact I.
    + apply ek in I. destruct I as [I|[I|I]]; [left; exists KSET; auto|left; exists PSET; auto|auto].
    + left. exists PREV_ASET. split; [exact Wv|]. rewrite <- (e3 PREV_ASET) by discriminate. exact I.
Qed.
Lemma frame_matching x cv s s' : matching V K wf mt x cv s s' -> frame s s'.
Proof.
  intros (s1 & s2 & cs & MR & _ & _ & EV & MO & _ & _ & ->). eapply frame_trans; [apply (frame_match x _ _ _ (incl_refl _) MR)|].
  eapply frame_trans; [apply (frame_evolves x _ _ MO EV)|]. apply frame_ext; try reflexivity; try (intros v; destruct v; reflexivity).
Qed.
Lemma frame_pa x s s' : W MSET -> pa_rel V K wf x s s' -> frame s s'.
Proof.
  intros WM (s1 & cs & pa & nr & T & _ & _ & ->). eapply frame_trans; [apply (frame_touch _ MSET _ _ WM T)|].
  apply frame_ext; try reflexivity; try (intros v; destruct v; reflexivity).
Qed.
Lemma frame_set_pset v D s : W v -> v <> PREV_PSET -> (forall l, In l (set_list D) -> In l (set_list (get_set v s))) -> frame s (with_set v D s).
Proof. intros Wv N H. apply frame_shrink; [exact N|]. intros l Hl. exists v. auto. Qed.
Lemma frame_absorbs sub D s s' : (exists u, W u /\ In sub (set_list (get_set u s))) ->
  (forall l, In l D -> exists u, W u /\ In l (set_list (get_set u s))) -> absorbs sub D s s' -> frame s s'.
Proof.
  intros (u0 & Wu0 & I0) HD [a1 a2 a3 a4 a5 a6]. apply frame_of.
  - apply (a4 PREV_PSET). discriminate.
  - lia.
  - intros A l Hl. destruct (A l Hl) as (_ & Dj). rewrite a6. destruct (Nat.eqb_spec l sub) as [-> |NE]; [exfalso; exact (Dj u0 Wu0 I0)|].
    destruct (existsb (Nat.eqb l) D) eqn:EX.
    + apply existsb_eqb in EX. exfalso. destruct (HD l EX) as (u & Wu & Iu). exact (Dj u Wu Iu).
    + unfold num_of. destruct (s_heap s l) as [c|]; [cbn; rewrite set_num_id|]; reflexivity.
  - intros _ v l Wv I. left. destruct v; try (exists PSET; split; [assumption|]; rewrite <- (a4 PSET) by discriminate; exact I); try contradiction.
    + exists MSET. split; [exact Wv|]. rewrite <- (a4 MSET) by discriminate. exact I.
    + exists ASET. split; [exact Wv|]. rewrite <- (a4 ASET) by discriminate. exact I.
    + cbn [get_set] in I. rewrite a5 in I. cbn [set_list] in I. apply in_app_iff in I. destruct I as [I|I]; [|exists KSET; auto].
      apply in_rev in I. apply HD, I.
    + exists PREV_ASET. split; [exact Wv|]. rewrite <- (a4 PREV_ASET) by discriminate. exact I.
Qed.
Lemma frame_update w x y cur s s1 cs s2 s' : W w -> w <> PSET -> w <> KSET -> update_steps V K wf w x y cur s s1 cs s2 s' -> frame s s'.
Proof.
  intros Ww NP NK (T1 & _ & T2 & H). assert (NQ : w <> PREV_PSET) by (intros ->; contradiction).
  destruct (touches_all_pset _ _ _ _ T1) as (_ & _ & G1). rewrite <- (G1 w) in T2.
  eapply frame_trans; [apply (frame_touch _ w _ _ Ww T1)|]. eapply frame_trans; [apply (frame_touch _ w _ _ Ww T2)|].
  destruct (SET_SUBSUMPTION K); [|subst; apply frame_refl].
  destruct H as [_ -> |sub c _ _ -> |sub c D sa CH ED _ A ->]; try apply frame_refl.
  assert (Is : In sub (set_list (get_set w s2))).
  { destruct CH as (l1 & l2 & -> & _). apply in_app_iff. right. left. reflexivity. }
  eapply frame_trans; [eapply (frame_absorbs sub D); [exists w; auto| |exact A]|].
  { intros l Hl. exists w. split; [exact Ww|]. rewrite ED in Hl. apply filter_In in Hl. apply Hl. }
  eapply frame_trans; [apply (frame_set_pset w (exact_set (s_heap sa) (alive (s_heap sa) (set_list (get_set w s2))))); [exact Ww|exact NQ|]|].
  { intros l Hl. cbn [exact_set set_list] in Hl. apply filter_In in Hl. rewrite (ab_sets _ _ _ _ A w NK). apply Hl. }
  apply (frame_set_pset PSET); [exact WP|discriminate|]. intros l Hl. cbn [exact_set set_list] in Hl. apply filter_In in Hl. destruct Hl as (Hl & _).
  rewrite get_with_ne by congruence. rewrite (ab_sets _ _ _ _ A PSET) by discriminate. exact Hl.
Qed.
Lemma frame_shrinks s s' : shrinks s s' -> frame s s'.
Proof.
  intros [h1 h2 h3 h4 h5 h6 h7 h8 h9]. apply frame_of.
  - apply (h3 PREV_PSET); discriminate.
  - lia.
  - intros A l Hl. apply h6. destruct (A l Hl) as (_ & D). exact (D PSET WP).
  - intros _ v l Wv I. left. destruct v; try contradiction.
    + exists PSET. split; [exact WP|]. cbn [get_set] in I. rewrite h7 in I. apply filter_In in I. apply I.
    + exists MSET. split; [exact Wv|]. rewrite <- (h3 MSET) by discriminate. exact I.
    + exists ASET. split; [exact Wv|]. rewrite <- (h3 ASET) by discriminate. exact I.
    + cbn [get_set] in I. apply h8 in I. destruct I as [I|(I & _)]; [exists KSET; auto|exists PSET; auto].
    + exists PREV_ASET. split; [exact Wv|]. rewrite <- (h3 PREV_ASET) by discriminate. exact I.
Qed.
Lemma frame_grows s s' : grows s s' -> frame s s'.
Proof.
  intros [h1 h2 h3 h4 h5 h6]. apply frame_of.
  - apply (h3 PREV_PSET); discriminate.
  - exact h1.
  - intros A l Hl. apply h5; [apply (A l Hl)|right; exact Hl].
  - intros _ v l Wv I. destruct (match v with PSET => true | _ => false end) eqn:EV.
    + destruct v; try discriminate. destruct h6 as (news & E & N). cbn [get_set] in I. rewrite E in I. apply in_app_iff in I.
      destruct I as [I|I]; [right; right; apply N, I|left; exists PSET; auto].
    + left. exists v. split; [exact Wv|]. rewrite <- (h3 v); [exact I|]. destruct v; discriminate.
Qed.
Lemma frame_ea w s s' : W w -> ea_rel V K wf w s s' -> frame s s'.
Proof.
  intros Ww H. assert (T : frame s (tick s)) by (apply frame_ext; try reflexivity; try (intros v; destruct v; reflexivity)).
  destruct H as [_ -> |cs _ _ _ -> |cs cs1 p q g s1 s2 _ _ _ T1 _ _ _ _ G _ _ SH _ _]; try exact T.
  eapply frame_trans; [exact T|]. replace (get_set w s) with (get_set w (tick s)) in T1 by (destruct w; reflexivity).
  eapply frame_trans; [apply (frame_touch _ w _ _ Ww T1)|].
  eapply frame_trans; [|eapply frame_trans; [apply (frame_grows _ _ G)|apply (frame_shrinks _ _ SH)]].
  apply frame_ext; try reflexivity; try (intros v; destruct v; reflexivity).
Qed.
Lemma frame_freed s h : freed (set_list (s_kset s)) (s_heap s) h -> frame s (with_heap h (s_next s) s).
Proof.
  intros F. apply frame_of; sst; try reflexivity; try lia.
  - intros A l Hl. rewrite (freed_out _ _ _ _ F); [reflexivity|]. destruct (A l Hl) as (_ & D). exact (D KSET WK).
  - intros _ v l Wv I. left. exists v. split; [exact Wv|]. destruct v; exact I.
Qed.
Lemma frame_empty v s : v <> PREV_PSET -> frame s (with_set v empty_set s).
Proof. intros N. apply frame_shrink; [exact N|]. intros l []. Qed.
End Sets.

(** ** Whole operations; between them only the population is in use. *)
Definition Wp (v : sel) : Prop := v = PSET.
Definition Wm (v : sel) : Prop := v = PSET \/ v = KSET \/ v = MSET.
Definition Wa (v : sel) : Prop := v <> PREV_PSET.
Lemma Wm_q : ~ Wm PREV_PSET. Proof. intros [H|[H|H]]; discriminate. Qed.
Lemma Wa_q : ~ Wa PREV_PSET. Proof. intros H. apply H. reflexivity. Qed.
Lemma Good_away N s : Good K kf N wf s -> away Wp s.
Proof.
  intros G l Hl. pose proof (g_inv G) as I. destruct (owned_disj _ _ _ _ (i_nodup I)) as (_ & _ & _ & _ & D1 & _). split.
  - apply (i_next I). apply (inv_live_Q I Hl).
  - intros v -> Iv. destruct (D1 l Iv) as (_ & X & _). exact (X Hl).
Qed.
(** Entering an operation in state [s0], with the sets in [W] emptied. *)
Lemma enter (W : sel -> Prop) s s0 s' : W PSET -> s_prev_pset s0 = s_prev_pset s -> s_heap s0 = s_heap s -> s_next s0 = s_next s -> s_pset s0 = s_pset s ->
  (forall v, W v -> v = PSET \/ get_set v s0 = empty_set) -> frame W s0 s' -> frame Wp s s'.
Proof.
  intros WP E1 E2 E3 E4 H F A. assert (A0 : away W s0).
  { intros l Hl. rewrite E1 in Hl. destruct (A l Hl) as (L & D). rewrite E3. split; [exact L|]. intros v Wv I.
    destruct (H v Wv) as [-> |E]; [cbn [get_set] in I; rewrite E4 in I; exact (D PSET eq_refl I)|rewrite E in I; exact I]. }
  destruct (F A0) as ((G1 & G2) & A'). split; [split; [congruence|]|].
  - intros l Hl. rewrite <- E2. apply G2. rewrite E1. exact Hl.
  - intros l Hl. destruct (A' l Hl) as (L & D). split; [exact L|]. intros v ->. apply (D PSET WP).
Qed.
Lemma frame_trial x y cover s s' : trial_rel V K wf mt x y cover s s' -> frame Wp s s'.
Proof.
  intros (s1 & s2 & s3 & MA & AN & LE & h & FR & ->).
  assert (WP : Wm PSET) by (left; reflexivity). assert (WK : Wm KSET) by (right; left; reflexivity). assert (WM : Wm MSET) by (right; right; reflexivity).
  apply (enter Wm s (start s)); try reflexivity; [exact WP|intros v [-> |[-> | ->]]; auto|].
  eapply frame_trans; [apply (frame_matching Wm WP Wm_q _ _ _ _ MA)|].
  eapply frame_trans with s2.
  { destruct cover as [cv|]; [|apply (frame_pa Wm x _ _ WM AN)]. destruct AN as (A1 & A2). destruct (set_list (s_mset s1)) as [|l r].
    - rewrite (A1 eq_refl). apply frame_ext; try reflexivity; try (intros v; destruct v; reflexivity).
    - apply (frame_pa Wm x _ _ WM). apply A2. discriminate. }
  eapply frame_trans with s3.
  { destruct (s_explore s); [|subst; apply frame_refl]. destruct LE as (a & cs & b & c & U & E).
    eapply frame_trans; [eapply (frame_update Wm WP Wm_q MSET); try eassumption; discriminate|]. apply (frame_ea Wm WP Wm_q MSET _ _ WM E). }
  eapply frame_trans; [apply (frame_freed Wm WK _ _ FR)|].
  eapply frame_trans; [apply (frame_empty Wm KSET); discriminate|]. apply (frame_empty Wm MSET). discriminate.
Qed.
Ltac same := apply frame_ext; try reflexivity; try (intros v; destruct v; reflexivity).
Lemma frame_sampled W d cnt sh x y s s1 : sampled d cnt sh x y s s1 -> frame W s s1.
Proof. intros (i & g & H). assert (E : s1 = with_rng g s) by apply H. rewrite E. same. Qed.
Lemma frame_fit_one d sh cnt e s s' : fit_one V K wf mt d sh cnt e s s' -> frame Wp s s'.
Proof.
  intros (x & y & s1 & s2 & SA & TR & _ & ->). eapply frame_trans; [eapply frame_sampled, SA|].
  eapply frame_trans; [|eapply frame_trans; [apply (frame_trial _ _ _ _ _ TR)|same]]. same.
Qed.
Lemma frame_test_one d sh cnt s s' : test_one V K wf mt d sh cnt s s' -> frame Wp s s'.
Proof.
  intros (x & y & s1 & SA & TR). eapply frame_trans; [eapply frame_sampled, SA|].
  eapply frame_trans; [|apply (frame_trial _ _ _ _ _ TR)]. same.
Qed.
Lemma frame_fit_many d test sh es : forall cnt s s', fit_many V K wf mt d test sh cnt es s s' -> frame Wp s s'.
Proof.
  induction es as [|e es IH]; intros cnt s s' H; [cbn in H; subst; apply frame_refl|].
  destruct H as (s1 & s2 & F1 & F2 & F3). eapply frame_trans; [apply (frame_fit_one _ _ _ _ _ _ F1)|].
  eapply frame_trans; [|eapply IH, F3]. destruct test; [apply (frame_test_one _ _ _ _ _ F2)|subst; apply frame_refl].
Qed.
Lemma frame_predicting cover xs : forall ps s s', predicting V K wf mt xs cover ps s s' -> frame Wp s s'.
Proof.
  induction xs as [|x xs IH]; intros [|p ps] s s' H; try contradiction; [cbn in H; subst; apply frame_refl|].
  destruct H as (s1 & T & _ & H). eapply frame_trans; [apply (frame_trial _ _ _ _ _ T)|eapply IH, H].
Qed.
Lemma frame_scoring cover xs : forall ps s s', scoring V K wf mt xs cover ps s s' -> frame Wp s s'.
Proof.
  induction xs as [|(x & y) xs IH]; intros [|p ps] s s' H; try contradiction; [cbn in H; subst; apply frame_refl|].
  destruct H as (s1 & T & _ & H). eapply frame_trans; [apply (frame_trial _ _ _ _ _ T)|eapply IH, H].
Qed.
Lemma frame_scoring_n d cover es : forall s s', scoring_n V K wf mt d cover es s s' -> frame Wp s s'.
Proof.
  induction es as [|e es IH]; intros s s' H; [cbn in H; subst; apply frame_refl|].
  destruct H as (x & y & s1 & s2 & SA & T & _ & H). eapply frame_trans; [eapply frame_sampled, SA|].
  eapply frame_trans; [apply (frame_trial _ _ _ _ _ T)|eapply IH, H].
Qed.

(** Reinforcement learning uses all sets. *)
Lemma wa v : v <> PREV_PSET -> Wa v. Proof. auto. Qed.
Lemma frame_improve w x y cur s s' : w <> PSET -> w <> KSET -> w <> PREV_PSET -> improve V K wf w x y cur s s' -> frame Wa s s'.
Proof.
  intros N1 N2 N3 (a & cs & b & c & U & E). assert (WP : Wa PSET) by discriminate. assert (WK : Wa KSET) by discriminate.
  eapply frame_trans with (validated w s).
  { unfold validated. apply (frame_set_pset Wa w); [exact N3|exact N3|]. intros l Hl. cbn [exact_set set_list] in Hl. apply filter_In in Hl. apply Hl. }
  eapply frame_trans; [eapply (frame_update Wa WP Wa_q w); eassumption|].
  destruct (s_explore s); [apply (frame_ea Wa WP Wa_q w _ _ N3 E)|subst; apply frame_refl].
Qed.
Lemma frame_update_rel state a r done s s' : update_rel V K wf state a r done s s' -> frame Wa s s'.
Proof.
  intros (s2 & H1 & H2 & H3). assert (FA : frame Wa s (act_set K a s)).
  { unfold act_set. eapply frame_trans; [|same]. apply frame_shrink; [discriminate|]. intros l Hl. exists MSET. split; [discriminate|].
    cbn [exact_set set_list] in Hl. apply in_rev, filter_In in Hl. apply Hl. }
  eapply frame_trans with s2.
  - destruct (set_list (s_prev_aset s)) as [|l r0]; [rewrite (H1 eq_refl); exact FA|].
    destruct (H2 ltac:(discriminate)) as (best & _ & IM). eapply frame_trans; [exact FA|]. eapply (frame_improve PREV_ASET); [..|exact IM]; discriminate.
  - destruct done; [eapply (frame_improve ASET); [..|exact H3]; discriminate|subst; apply frame_refl].
Qed.
Lemma frame_see x s s1 s2 : matching V K wf mt x true s s1 -> pa_rel V K wf x s1 s2 -> frame Wa s s2.
Proof.
  intros MA PR. assert (WP : Wa PSET) by discriminate. assert (WK : Wa KSET) by discriminate.
  eapply frame_trans; [apply (frame_matching Wa WP Wa_q _ _ _ _ MA)|]. apply (frame_pa Wa x); [discriminate|exact PR].
Qed.
Lemma frame_stepped state a r s : frame Wa s (stepped state a r s).
Proof.
  unfold stepped. eapply frame_trans; [|same]. eapply frame_trans; [apply (frame_empty Wa MSET); discriminate|].
  apply frame_shrink; [discriminate|]. intros l Hl. exists ASET. split; [discriminate|exact Hl].
Qed.
Lemma frame_ended s s' : ended s s' -> frame Wa s s'.
Proof.
  intros (h & FR & ->). eapply frame_trans; [apply (frame_empty Wa PREV_ASET); discriminate|].
  eapply frame_trans; [apply (frame_freed Wa ltac:(discriminate) (with_set PREV_ASET empty_set s) h FR)|]. apply (frame_empty Wa KSET). discriminate.
Qed.
Lemma frame_step {E} (VE : env E) e s e' r done err s' : step_rel V K wf mt VE e s e' r done err s' -> frame Wa s s'.
Proof.
  intros (e0 & x & gx & a & s1 & s2 & g & _ & (sa & sb & g0 & MA & PR & Eb & _) & _ & _ & _ & U & _ & ->).
  eapply frame_trans; [apply (frame_empty Wa MSET); discriminate|]. eapply frame_trans; [apply (frame_empty Wa ASET); discriminate|].
  eapply frame_trans with (with_rng gx (with_set ASET empty_set (with_set MSET empty_set s))); [same|].
  eapply frame_trans; [apply (frame_see _ _ _ _ MA PR)|]. eapply frame_trans with s1; [rewrite Eb; same|].
  eapply frame_trans with (with_rng g s1); [same|]. eapply frame_trans; [apply (frame_update_rel _ _ _ _ _ _ U)|].
  eapply frame_trans; [|apply frame_stepped]. same.
Qed.
Lemma frame_run {E} (VE : env E) n e s r errs e' s' r' : run_rel V K wf mt VE n e s r errs e' s' r' -> frame Wa s s'.
Proof.
  induction 1 as [|n e s r e' r' err s' H|n e s r e' r' err s' errs e'' s'' r'' H _ IH]; [apply frame_refl|apply (frame_step _ _ _ _ _ _ _ _ H)|].
  eapply frame_trans; [apply (frame_step _ _ _ _ _ _ _ _ H)|exact IH].
Qed.
(** The action and match sets of earlier trials are forgotten at the first step. *)
Definition Wb (v : sel) : Prop := v = PSET \/ v = KSET \/ v = PREV_ASET.
Lemma away_clear s : away Wb s -> away Wa (with_set ASET empty_set (with_set MSET empty_set s)).
Proof.
  intros A l Hl. destruct (A l Hl) as (L & D). split; [exact L|]. intros v Wv I. destruct v; try contradiction.
  - apply (D PSET); [left; reflexivity|exact I].
  - apply (D KSET); [right; left; reflexivity|exact I].
  - apply (D PREV_ASET); [right; right; reflexivity|exact I].
Qed.
Lemma clear_frame s s' : frame Wa (with_set ASET empty_set (with_set MSET empty_set s)) s' -> frame Wb s s'.
Proof.
  intros F A. destruct (F (away_clear s A)) as (G1 & A'). split; [exact G1|].
  intros l Hl. destruct (A' l Hl) as (L & D). split; [exact L|]. intros v [-> |[-> | ->]]; apply D; discriminate.
Qed.
Lemma frame_step_b {E} (VE : env E) e s e' r done err s' : step_rel V K wf mt VE e s e' r done err s' -> frame Wb s s'.
Proof.
  intros (e0 & x & gx & a & s1 & s2 & g & _ & (sa & sb & g0 & MA & PR & Eb & _) & _ & _ & _ & U & _ & ->).
  apply clear_frame.
  eapply frame_trans with (with_rng gx (with_set ASET empty_set (with_set MSET empty_set s))); [same|].
  eapply frame_trans; [apply (frame_see _ _ _ _ MA PR)|]. eapply frame_trans with s1; [rewrite Eb; same|].
  eapply frame_trans with (with_rng g s1); [same|]. eapply frame_trans; [apply (frame_update_rel _ _ _ _ _ _ U)|].
  eapply frame_trans; [|apply frame_stepped]. same.
Qed.
Lemma frame_run_b {E} (VE : env E) n e s r errs e' s' r' : run_rel V K wf mt VE n e s r errs e' s' r' -> frame Wb s s'.
Proof.
  induction 1 as [|n e s r e' r' err s' H|n e s r e' r' err s' errs e'' s'' r'' H _ IH]; [apply frame_refl|apply (frame_step_b _ _ _ _ _ _ _ _ H)|].
  eapply frame_trans; [apply (frame_step_b _ _ _ _ _ _ _ _ H)|exact IH].
Qed.
Lemma frame_ended_b s s' : ended s s' -> frame Wb s s'.
Proof.
  intros (h & FR & ->). eapply frame_trans; [apply (frame_empty Wb PREV_ASET); discriminate|].
  eapply frame_trans; [apply (frame_freed Wb (or_intror (or_introl eq_refl)) (with_set PREV_ASET empty_set s) h FR)|]. apply (frame_empty Wb KSET). discriminate.
Qed.
Lemma frame_rl_trial {E} (VE : env E) e ex s e' perf err s' : rl_trial_rel V K wf mt VE e ex s e' perf err s' -> frame Wp s s'.
Proof.
  intros (e1 & g & s2 & r & errs & _ & RR & EN & _). apply (enter Wb s (begun K (with_explore ex (with_rng g s)))); try reflexivity.
  - left; reflexivity.
  - intros v [-> |[-> | ->]]; auto.
  - eapply frame_trans; [apply (frame_run_b _ _ _ _ _ _ _ _ _ RR)|apply (frame_ended_b _ _ EN)].
Qed.
Lemma frame_rl_fit state a r err s s' : rl_fit_rel V K wf mt state a r err s s' -> frame Wp s s'.
Proof.
  intros (s1 & s2 & s3 & s4 & MA & PR & _ & U & EN & ->). apply (enter Wb s (begun K s)); try reflexivity.
  - left; reflexivity.
  - intros v [-> |[-> | ->]]; auto.
  - apply clear_frame. eapply frame_trans; [apply (frame_see _ _ _ _ MA PR)|]. eapply frame_trans with (with_explore true s2); [same|].
    eapply frame_trans; [apply (frame_update_rel _ _ _ _ _ _ U)|]. eapply frame_trans; [apply frame_stepped|].
    eapply frame_trans; [apply (frame_ended _ _ EN)|]. same.
Qed.
Lemma frame_insert c s s' : insert_rel V K c s s' -> frame Wp s s'.
Proof.
  intros (s0 & s1 & h & E0 & _ & SH & _ & FR & ->). set (W := fun v => v = PSET \/ v = KSET).
  assert (WP : W PSET) by (left; reflexivity). assert (WK : W KSET) by (right; reflexivity). assert (WQ : ~ W PREV_PSET) by (intros [X|X]; discriminate).
  apply (enter W s (with_set KSET empty_set s)); try reflexivity; [exact WP|intros v [-> | ->]; auto|].
  eapply frame_trans with s0.
  { apply frame_of; [subst s0; reflexivity|subst s0; simpl; lia| |].
    - intros A l Hl. destruct (A l Hl) as (L & _). subst s0. sst. apply upd_ne. change (s_next (with_set KSET empty_set s)) with (s_next s) in L. lia.
    - intros _ v l Wv I. subst s0. destruct Wv as [-> | ->].
      + cbn [get_set with_set s_pset cons_set set_list] in I. destruct I as [<- |I]; [right; left; simpl; lia|left; exists PSET; split; [exact WP|exact I]].
      + contradiction. }
  eapply frame_trans; [apply (frame_shrinks W WP WQ _ _ SH)|].
  eapply frame_trans; [apply (frame_freed W WK _ _ FR)|]. apply (frame_empty W KSET). discriminate.
Qed.
End Keep.

(** ** Any sequence of operations other than storing and retrieving leaves the stored population as it is. *)
Section Later.
Context {B : Type} (FO : Prop) (V : vtab B) (K : cfg) (kf : Z) (wf : B -> Prop) (mt : B -> list f64 -> Prop).
Hypothesis CO : cfg_ok K kf.
Context {dom : list f64 -> Prop}.
Hypothesis VO : vt_ok (dom := dom) FO V K wf mt.
Hypothesis HT : ea_tournament K = true -> FO.
Context {E : Type} (VE : env E) (einv : E -> Prop) (EO : env_ok FO K (dom := dom) VE einv).
Notation Good N := (Good K kf N wf).
Definition passive (o : op (B := B) (E := E)) : Prop := match o with OStore | ORetrieve => False | _ => True end.
Lemma op_guards N o s : 0 <= N -> op_ok (dom := dom) FO K kf wf einv o -> passive o -> N + cost K o <= 2 ^ 53 -> Good N s ->
  hpost FO (run_op V K VE o s) (fun _ s' => guards s s' /\ Good (N + cost K o) s').
Proof.
  intros N0 OK PA LE G. pose proof (Good_away K kf wf N s G) as AW.
  assert (FIN : forall s', frame Wp s s' -> guards s s') by (intros s' F; apply (F AW)).
  assert (EXP : forall e (s0 s' : st B), frame Wp (with_explore e s0) s' -> frame Wp s0 s').
  { intros e s0 s' F. eapply frame_trans; [|exact F]. apply frame_ext; try reflexivity; try (intros v; destruct v; reflexivity). }
  destruct o as [d test shuffle start trials|xs cover|d n cover|x a r|e ex|c| |]; cbn [run_op op_ok cost passive] in *; try contradiction.
  - destruct OK as (D & DT & S0 & T0).
    eapply drop_result; [apply (fit_spec FO V K kf wf mt CO VO HT N); assumption|]. intros e s' (es & _ & F & _ & G'). split; [|exact G'].
    apply FIN. eapply frame_fit_many, F.
  - destruct OK as (D & C). rewrite Z.add_0_r.
    eapply drop_result; [apply (predict_call_spec FO V K kf wf mt CO VO HT N); assumption|]. intros e s' (F & G'). split; [|exact G'].
    apply FIN. eapply EXP, frame_predicting, F.
  - destruct OK as (D & C & n0). rewrite Z.add_0_r.
    eapply drop_result; [apply (score_n_spec FO V K kf wf mt CO VO HT N); assumption|]. intros e s' (F & G'). split; [|exact G'].
    apply FIN. destruct F as (es & _ & _ & F1 & F2). apply (EXP false). destruct (Z_lt_dec (n_samples d) n).
    + eapply frame_scoring, F1. lia.
    + eapply frame_scoring_n, F2. lia.
  - destruct OK as (Lx & Y1 & HV). destruct (Z_le_dec 0 a) as [A1|A1]; [destruct (Z_lt_dec a (n_actions K)) as [A2|A2]|].
    + eapply drop_result; [apply (rl_fit_spec FO V K kf wf mt CO VO HT Y1 HV N); auto; lia|]. intros e s' (F & G'). split; [|exact G'].
      apply FIN. eapply frame_rl_fit, F.
    + eapply drop_result; [apply (rl_fit_bad_action FO V K kf wf mt CO VO Y1 N); auto; lia|]. intros e s' [].
    + eapply drop_result; [apply (rl_fit_bad_action FO V K kf wf mt CO VO Y1 N); auto; lia|]. intros e s' [].
  - destruct OK as (He & Y1 & HV & T0 & F).
    eapply drop_result; [apply (rl_trial_spec FO V K kf wf mt CO VO HT Y1 HV VE einv EO N); assumption|].
    intros ((e', p), er) s' (R & _ & G'). split; [|exact G']. apply FIN. eapply frame_rl_trial, R.
  - destruct OK as (R & NP). pose proof (ro_exp R).
    eapply hp_mono; [apply (insert_spec FO V K kf wf CO (N + c_exp c)); [|eapply rule_ok_mono; [|exact R]; lia|exact NP]|].
    + eapply Good_mono; [|exact G]. lia.
    + intros [] s' (F & G'). split; [|exact G']. apply FIN. eapply frame_insert, F.
Qed.
Lemma ops_guards os : forall N s, 0 <= N -> Forall (op_ok (dom := dom) FO K kf wf einv) os -> Forall passive os -> N + costs K os <= 2 ^ 53 -> Good N s ->
  hpost FO (run_ops V K VE os s) (fun _ s' => guards s s' /\ Good (N + costs K os) s').
Proof.
  induction os as [|o r IH]; intros N s N0 F P LE G; cbn [run_ops costs fold_right].
  - apply hp_ret. rewrite Z.add_0_r. split; [apply guards_refl|exact G].
  - inversion F as [|? ? F1 F2]; subst. inversion P as [|? ? P1 P2]; subst. cbn [costs fold_right] in LE. fold (costs K r) in LE.
    assert (CR : 0 <= costs K r).
    { clear -F2. induction F2 as [|o r H _ IH]; cbn [costs fold_right]; [lia|]. fold (costs K r). pose proof (cost_nonneg _ _ _ _ _ _ H). lia. }
    pose proof (cost_nonneg _ _ _ _ _ _ F1).
    eapply hp_bind; [apply (op_guards N o s N0 F1 P1); [lia|exact G]|].
    intros [] s1 (U1 & G1). eapply hp_mono; [apply (IH (N + cost K o) s1); [lia|exact F2|exact P2|lia|exact G1]|].
    intros [] s' (U & G'). fold (costs K r). rewrite Z.add_assoc. split; [eapply guards_trans; eassumption|exact G'].
Qed.
End Later.
