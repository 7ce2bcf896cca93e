(** * Matching and the covering loop. *)
From Coq Require Import ZArith Bool List Reals Lia Lra Permutation.
From Flocq Require Import Core BinarySingleNaN.
From Verif Require Import Outcome F64 F64Facts F64Bounds Rng RngFacts Pop PopSpec PopInv PopSel PopDel PopCover.
Import ListNotations.
Open Scope Z_scope.

Lemma NoDup_app_incl {A} (a b c : list A) : NoDup (a ++ b) -> NoDup c -> incl c b -> NoDup (a ++ c).
Proof.
  induction a as [|x a IH]; simpl; intros H1 H2 H3; [exact H2|]. inversion H1; subst.
  constructor; [|apply IH; assumption]. intros I. apply H4. apply in_app_iff in I. apply in_app_iff.
  destruct I; [left; assumption|right; apply H3; assumption].
Qed.

Lemma filter_length_le {A} (f : A -> bool) l : (length (filter f l) <= length l)%nat.
Proof. induction l as [|x l IH]; simpl; [lia|]. destruct (f x); simpl; lia. Qed.

(** ** The invariant depends on the heap only through liveness, numerosities and rule_ok. *)
Section Ext.
Context {B : Type} (K : cfg) (kf Nx Nx' : Z) (wf : B -> Prop).
Lemma inv_ext (h h' : loc -> option (cl B)) n P Kl Q ex : inv K kf Nx wf h n P Kl Q ex ->
  (forall l, h' l = None <-> h l = None) -> (forall l, num_of h' l = num_of h l) ->
  (forall l c, h' l = Some c -> rule_ok K kf Nx' wf c) -> inv K kf Nx' wf h' n P Kl Q ex.
Proof.
  intros [] L Nm R. constructor; try assumption.
  - intros l. rewrite L. apply i_live.
  - intros l H. apply i_next. rewrite <- L. exact H.
  - apply (set_ok_ext h); [intros; apply Nm|assumption].
  - destruct i_k as (A1 & A2 & A3). spl; try assumption. intros l I. rewrite Nm. apply A3, I.
  - apply (set_ok_ext h); [intros; apply Nm|assumption].
  - intros l I. rewrite Nm. apply i_ex, I.
Qed.
End Ext.

(** ** Iterating a rule transformer over a list of distinct live rules. *)
Section Iter.
Context {B : Type} (FO : Prop).

(** [f l] changes only the rule at [l] (related to its old value by [R]) and the generator. *)
Definition touches (R : cl B -> cl B -> Prop) (l : loc) (s s' : st B) : Prop :=
  exists h' g c c', s' = with_rng g (with_heap h' (s_next s) s) /\ s_heap s l = Some c /\
    h' l = Some c' /\ R c c' /\ forall l', l' <> l -> h' l' = s_heap s l'.
Definition touches_all (R : cl B -> cl B -> Prop) (ls : list loc) (s s' : st B) : Prop :=
  exists h' g, s' = with_rng g (with_heap h' (s_next s) s) /\
    (forall l, In l ls -> exists c c', s_heap s l = Some c /\ h' l = Some c' /\ R c c') /\
    (forall l, ~ In l ls -> h' l = s_heap s l).

Lemma miter_touch (f : loc -> M B unit) (R : cl B -> cl B -> Prop) (I : cl B -> Prop) ls s :
  NoDup ls -> (forall l, In l ls -> exists c, s_heap s l = Some c /\ I c) ->
  (forall l c s, s_heap s l = Some c -> I c -> hpost FO (f l s) (fun _ s' => touches R l s s')) ->
  hpost FO (miter f ls s) (fun _ s' => touches_all R ls s s').
Proof.
  intros ND L Hf. revert s L. induction ls as [|l r IH]; intros s L; cbn [miter].
  - apply hp_ret. exists (s_heap s), (s_rng s). spl; [destruct s; reflexivity|intros l []|reflexivity].
  - inversion ND; subst. destruct (L l (or_introl eq_refl)) as (c & Ec & Ic).
    eapply hp_bind; [apply (Hf l c s Ec Ic)|].
    intros [] s1 (h1 & g1 & c0 & c1 & -> & E0 & E1 & R1 & O1).
    eapply hp_mono; [apply IH; [assumption|]|].
    + intros l' Hl'. sst. rewrite O1 by (intros ->; contradiction). apply L. right; exact Hl'.
    + intros _ s2 (h2 & g2 & -> & A & O). exists h2, g2. sst. spl.
      * destruct s; reflexivity.
      * intros l' [<- |Hl'].
        { exists c0, c1. spl; try assumption. rewrite O by assumption. exact E1. }
        destruct (A l' Hl') as (d & d' & D1 & D2 & D3). exists d, d'. spl; try assumption.
        rewrite <- O1; [exact D1|]. intros ->; contradiction.
      * intros l' Hl'. rewrite O by (intros X; apply Hl'; right; exact X).
        apply O1. intros ->; apply Hl'; left; reflexivity.
Qed.

Lemma modify_rand_touch (f : cl B -> RM (cl B)) (R : cl B -> cl B -> Prop) l c s :
  s_heap s l = Some c -> rpost FO (f c) (R c) ->
  hpost FO (modify_rand l f s) (fun _ s' => touches R l s s').
Proof.
  intros E H. unfold modify_rand. eapply hp_bind_heap; [exact E|].
  eapply hp_bind; [eapply hp_rand with (Q := fun c' s' => R c c' /\ exists g, s' = with_rng g s); [exact H|eauto]|].
  intros c' s1 (HR & g & ->). rewrite (put_eq l c) by exact E. unfold hpost.
  exists (upd (s_heap s) l (Some c')), g, c, c'. spl; try assumption.
  - destruct s; reflexivity.
  - apply upd_eq.
  - intros l' N. apply upd_ne, N.
Qed.
Lemma modify_touch (f : cl B -> cl B) l c s :
  s_heap s l = Some c -> hpost FO (modify l f s) (fun _ s' => touches (fun a b => b = f a) l s s').
Proof.
  intros E. rewrite (modify_eq l c) by exact E. unfold hpost.
  exists (upd (s_heap s) l (Some (f c))), (s_rng s), c, (f c). spl; try assumption.
  - destruct s; reflexivity.
  - apply upd_eq.
  - reflexivity.
  - intros l' N. apply upd_ne, N.
Qed.

Lemma touches_all_heap R ls (s s' : st B) l c : touches_all R ls s s' -> s_heap s l = Some c ->
  exists c', s_heap s' l = Some c' /\ (In l ls -> R c c') /\ (~ In l ls -> c' = c).
Proof.
  intros (h' & g & -> & A & O) E. sst. destruct (in_dec Nat.eq_dec l ls) as [I|I].
  - destruct (A l I) as (d & d' & D1 & D2 & D3). exists d'. spl; [exact D2| |contradiction].
    intros _. congruence.
  - exists c. rewrite O by exact I. spl; [exact E|contradiction|reflexivity].
Qed.

Lemma touches_all_inv K kf Nx Nx' wf (R : cl B -> cl B -> Prop) ls s s' ex :
  Inv K kf Nx wf s ex -> touches_all R ls s s' -> Nx <= Nx' ->
  (forall c c', R c c' -> c_num c' = c_num c) ->
  (forall l c c', In l ls -> s_heap s l = Some c -> R c c' -> rule_ok K kf Nx wf c -> rule_ok K kf Nx' wf c') ->
  Inv K kf Nx' wf s' ex.
Proof.
  intros HI T LN RN RO. pose proof T as (h' & g & -> & A & O). unfold Inv in *. sst.
  eapply inv_ext; [exact HI| | |].
  - intros l. destruct (in_dec Nat.eq_dec l ls) as [I|I]; [|rewrite O by exact I; reflexivity].
    destruct (A l I) as (d & d' & D1 & D2 & D3). rewrite D1, D2. split; discriminate.
  - intros l. unfold num_of. destruct (in_dec Nat.eq_dec l ls) as [I|I]; [|rewrite O by exact I; reflexivity].
    destruct (A l I) as (d & d' & D1 & D2 & D3). rewrite D1, D2. apply RN, D3.
  - intros l c E. destruct (in_dec Nat.eq_dec l ls) as [I|I].
    + destruct (A l I) as (d & d' & D1 & D2 & D3). rewrite D2 in E. injection E as <-.
      apply (RO l d d' I D1 D3 (i_ok HI _ _ D1)).
    + rewrite O in E by exact I. destruct (i_ok HI _ _ E). constructor; try assumption. lia.
Qed.
End Iter.

Section Match.
Context {B : Type} (FO : Prop) (V : vtab B) (K : cfg) (kf Nx : Z) (wf : B -> Prop)
  (mt : B -> list f64 -> Prop) (CO : cfg_ok K kf) {dom : list f64 -> Prop} (VO : vt_ok (dom := dom) FO V K wf mt) (HN : 0 <= Nx).
Notation rule_ok := (rule_ok K kf Nx wf).
Notation inv := (inv K kf Nx wf).
Notation Inv := (Inv K kf Nx wf).

(** ** How rules may change while covering. *)
Record evolves (x : list f64) (s s' : st B) : Prop := {
  ev_next : (s_next s <= s_next s')%nat;
  ev_misc : misc s' = misc s;
  ev_sets : forall w, w <> PSET -> w <> KSET -> w <> MSET -> get_set w s' = get_set w s;
  ev_old : forall l, (l < s_next s)%nat ->
     s_heap s' l = option_map (set_num (num_of (s_heap s') l)) (s_heap s l);
  ev_le : forall l, (l < s_next s)%nat -> num_of (s_heap s') l <= num_of (s_heap s) l;
  ev_out : forall l, (l < s_next s)%nat -> ~ In l (set_list (s_pset s)) -> s_heap s' l = s_heap s l;
  ev_p : forall l, In l (set_list (s_pset s')) -> In l (set_list (s_pset s)) \/ (s_next s <= l)%nat;
  ev_k : forall l, In l (set_list (s_kset s')) -> In l (set_list (s_kset s)) \/ In l (set_list (s_pset s)) \/ (s_next s <= l)%nat;
  ev_new : forall l c, (s_next s <= l)%nat -> s_heap s' l = Some c -> exists z a c0, 1 <= z /\
     fresh_rule V K x (of_Z z) (s_time s) a c0 /\ mt (c_body c0) x /\ c = set_num (c_num c) c0
}.

Lemma lt_next s ex l : Inv s ex -> (s_next s <= l)%nat -> s_heap s l = None.
Proof.
  intros I H. destruct (s_heap s l) as [c|] eqn:E; [|reflexivity].
  exfalso. assert (s_heap s l <> None) as H1 by congruence. apply (i_next I) in H1. lia.
Qed.

Lemma evolves_refl x s ex : Inv s ex -> evolves x s s.
Proof.
  intros I. constructor; try reflexivity; auto.
  - intros l _. destruct (s_heap s l) as [c|] eqn:E; [|reflexivity]. simpl.
    rewrite (num_of_some _ _ _ E), set_num_id. reflexivity.
  - intros l c H E. rewrite (lt_next _ _ _ I H) in E. discriminate.
Qed.

Lemma misc_time (s s' : st B) : misc s' = misc s -> s_time s' = s_time s.
Proof. unfold misc. congruence. Qed.

Lemma evolves_trans x s1 s2 s3 : evolves x s1 s2 -> evolves x s2 s3 -> evolves x s1 s3.
Proof.
  intros [a1 a2 a3 a4 a5 a6 a7 ak a8] [b1 b2 b3 b4 b5 b6 b7 bk b8]. constructor.
  - lia.
  - congruence.
  - intros w D1 D2 D3. rewrite b3, a3 by assumption. reflexivity.
  - intros l H. rewrite b4, a4 by lia. destruct (s_heap s1 l); reflexivity.
  - intros l H. specialize (a5 l H). specialize (b5 l ltac:(lia)). lia.
  - intros l H N. rewrite b6; [apply a6; assumption|lia|]. intros I. apply a7 in I. destruct I; [contradiction|lia].
  - intros l I. apply b7 in I. destruct I as [I|I]; [|right; lia]. apply a7, I.
  - intros l I. apply bk in I. destruct I as [I|[I|I]]; [apply ak, I| |right; right; lia]. apply a7 in I. tauto.
  - intros l c H E. destruct (Nat.lt_ge_cases l (s_next s2)) as [L|L].
    + rewrite b4 in E by exact L. destruct (s_heap s2 l) as [c2|] eqn:E2; [|discriminate].
      simpl in E. injection E as <-. destruct (a8 l c2 H E2) as (z & a & c0 & Z1 & F & Mx & ->).
      exists z, a, c0. spl; try assumption; try reflexivity.
    + destruct (b8 l c L E) as (z & a & c0 & Z1 & F & Mx & Ec). rewrite (misc_time _ _ a2) in F.
      exists z, a, c0. auto.
Qed.

Lemma shrinks_evolves x s s' ex : Inv s ex -> shrinks s s' -> evolves x s s'.
Proof.
  intros I []. constructor; try assumption; auto.
  - lia.
  - intros l Hl. left. rewrite sh_p in Hl. apply filter_In in Hl. apply Hl.
  - intros l Hl. apply sh_k in Hl. tauto.
  - intros l c H E. rewrite sh_heap, (lt_next _ _ _ I H) in E. discriminate.
Qed.

Lemma covers_evolves x cov i news s s' ex : 0 <= set_nm (s_mset s) -> Inv s ex -> Inv s' ex -> covers V K wf mt x cov i news s s' -> evolves x s s'.
Proof.
  intros M0 I I' [c1 c2 c3 c4 c5 c6 c7 c8 c9 c10].
  assert (NW : forall l, In l news -> (s_next s <= l)%nat).
  { intros l H. rewrite c1 in H. apply in_rev in H. apply in_seq in H. lia. }
  constructor; auto.
  - lia.
  - intros l H. rewrite c7 by exact H. destruct (s_heap s l) as [c|] eqn:E; [|reflexivity]. simpl.
    unfold num_of. rewrite c7, E by exact H. rewrite set_num_id. reflexivity.
  - intros l H. unfold num_of. rewrite c7 by exact H. lia.
  - intros l H. rewrite c5 in H. sst. apply in_app_iff in H. destruct H as [H|H]; [right; apply NW, H|left; exact H].
  - intros l H. left. specialize (c4 KSET). cbn [get_set] in c4. rewrite <- c4 by discriminate. exact H.
  - intros l c H E.
    assert (IN : In l news).
    { assert (Lt : (l < s_next s')%nat) by (apply (i_next I'); congruence).
      rewrite c1. apply in_rev. rewrite rev_involutive. apply in_seq. lia. }
    destruct (c8 l IN) as (c' & size & a & E' & F & W & Mx & _ & SZ & _). rewrite E' in E. injection E as <-.
    rewrite SZ in F. eexists _, a, c'. spl; try exact F; try assumption; [lia|]. rewrite set_num_id. reflexivity.
Qed.

Lemma with_mset_evolves x s S ex : Inv s ex -> evolves x s (with_set MSET S s).
Proof.
  intros I. destruct (evolves_refl x s ex I). constructor; auto.
  intros w D1 D2 D3. destruct w; try reflexivity; congruence.
Qed.

(** ** The match set. *)
Record mset_ok (x : list f64) (s : st B) : Prop := {
  mo_nodup : NoDup (set_list (s_mset s));
  mo_sz : set_sz (s_mset s) = Z.of_nat (length (set_list (s_mset s)));
  mo_sub : incl (set_list (s_mset s)) (set_list (s_pset s));
  mo_mt : forall l, In l (set_list (s_mset s)) -> exists c, s_heap s l = Some c /\ mt (c_body c) x
}.
Definition covered_ (s : st B) : Prop :=
  forall a, 0 <= a < n_actions K -> advocated (s_heap s) (set_list (s_mset s)) a.

Lemma evolves_rule x s s' l c : evolves x s s' -> (l < s_next s)%nat -> s_heap s l = Some c ->
  s_heap s' l = Some (set_num (num_of (s_heap s') l) c).
Proof. intros E L H. rewrite (ev_old _ _ _ E) at 1 by exact L. rewrite H. reflexivity. Qed.

Lemma advocated_evolves x s s' ls ls' a : evolves x s s' ->
  (forall l, In l ls -> In l ls' /\ (l < s_next s)%nat) ->
  advocated (s_heap s) ls a -> advocated (s_heap s') ls' a.
Proof.
  intros E H (l & c & I & El & Ea). destruct (H l I) as (I' & L).
  exists l. eexists. spl; [exact I'|apply (evolves_rule _ _ _ _ _ E L El)|exact Ea].
Qed.

Lemma inv_P_lt s ex l : Inv s ex -> In l (set_list (s_pset s)) -> (l < s_next s)%nat.
Proof. intros I H. apply (i_next I). eapply inv_live_P; [exact I|exact H]. Qed.

Lemma filter_len_eq {A} (f : A -> bool) l : length (filter f l) = length l -> filter f l = l.
Proof.
  induction l as [|x l IH]; [reflexivity|]. simpl. destruct (f x); simpl; intros H.
  - f_equal. apply IH. lia.
  - pose proof (filter_length_le f l). lia.
Qed.

Lemma sum_le {h h' : loc -> option (cl B)} ls : (forall l, In l ls -> num_of h' l <= num_of h l) ->
  sum_nums h' ls <= sum_nums h ls.
Proof.
  induction ls as [|l ls IH]; intros H; simpl; [lia|].
  pose proof (H l (or_introl eq_refl)). assert (sum_nums h' ls <= sum_nums h ls) by (apply IH; intros; apply H; right; assumption). lia.
Qed.

Lemma mset_cs x s ex : Inv s ex -> mset_ok x s -> exists cs,
  map (s_heap s) (set_list (s_mset s)) = map Some cs /\ Forall rule_ok cs /\
  Forall (fun c => 0 <= c_action c < n_actions K) cs.
Proof.
  intros I Mo. destruct (live_list (s_heap s) (set_list (s_mset s))) as (cs & E).
  { intros l H. apply (inv_live_P I). apply (mo_sub _ _ Mo), H. }
  exists cs. split; [exact E|].
  assert (F : Forall rule_ok cs).
  { apply Forall_forall. intros c Hc. destruct (map_heap_in _ _ _ _ E Hc) as (l & Il & El). apply (i_ok I _ _ El). }
  split; [exact F|]. eapply Forall_impl; [|exact F]. intros c R. apply (ro_action R).
Qed.

Definition cover_pre (x : list f64) (cov : list bool) (covered : bool) (s : st B) : Prop :=
  if covered then covered_ s /\
    sum_nums (s_heap s) (set_list (s_mset s)) <= set_nm (s_mset s) <= POP_SIZE K + n_actions K
  else Z.of_nat (length cov) = n_actions K /\
    set_nm (s_mset s) = sum_nums (s_heap s) (set_list (s_mset s)) /\
    forall a, 0 <= a < n_actions K -> nth (Z.to_nat a) cov true = true ->
      advocated (s_heap s) (set_list (s_mset s)) a.

Lemma cover_loop_spec fuel x attempts cov covered s ex :
  xok K dom x -> Inv s ex -> set_nm (s_pset s) <= POP_SIZE K -> mset_ok x s ->
  attempts <= MAX_COVER -> MAX_COVER + 1 - attempts <= Z.of_nat fuel ->
  cover_pre x cov covered s ->
  hpost FO (cover_loop V K fuel x attempts cov covered s)
    (fun _ s' => Inv s' ex /\ set_nm (s_pset s') <= POP_SIZE K /\ mset_ok x s' /\
       cover_pre x [] true s' /\ evolves x s s' /\ (covered = true -> s' = s)).
Proof.
  intros Lx. revert attempts cov covered s.
  induction fuel as [|f IH]; intros attempts cov covered s I PN Mo At Fu CP.
  { lia. }
  cbn [cover_loop]. destruct covered.
  { apply hp_ret. spl; try assumption; try apply CP; try reflexivity. eapply evolves_refl, I. }
  destruct CP as (Lc & Mn & Cv).
  assert (POPK := ok_pop _ _ CO). assert (NA := ok_n_actions _ _ CO). unfold int_max in *.
  assert (Msum : sum_nums (s_heap s) (set_list (s_mset s)) <= set_nm (s_pset s)).
  { rewrite (so_num (i_p I)). apply sum_nums_incl; [apply Mo|apply Mo|].
    intros l H. pose proof (inv_num_pos I H). lia. }
  assert (Mpos : 0 <= sum_nums (s_heap s) (set_list (s_mset s))).
  { assert (Z.of_nat (length (set_list (s_mset s))) <= sum_nums (s_heap s) (set_list (s_mset s))); [|lia].
    apply sum_nums_len. intros l H. apply (inv_num_pos I). apply (mo_sub _ _ Mo), H. }
  eapply hp_bind.
  { apply (cover_actions_spec FO V K kf Nx wf mt CO VO HN x cov 0 s ex Lx I); lia. }
  intros [] s1 (I1 & news & C).
  assert (EV1 : evolves x s s1) by (eapply covers_evolves; try eassumption; lia).
  assert (NL : (length news <= length cov)%nat).
  { rewrite (cv_count _ _ _ _ _ _ _ _ _ _ C). apply filter_length_le. }
  assert (PD : NoDup (set_list (s_pset s1))).
  { destruct (owned_disj _ _ _ _ (i_nodup I1)) as (N1 & _). exact N1. }
  rewrite (cv_p _ _ _ _ _ _ _ _ _ _ C) in PD. cbn [set_list] in PD.
  assert (Mo1 : mset_ok x s1).
  { constructor; rewrite (cv_m _ _ _ _ _ _ _ _ _ _ C); cbn [set_list set_sz].
    - eapply NoDup_app_incl; [exact PD|apply Mo|apply Mo].
    - rewrite (mo_sz _ _ Mo), app_length. lia.
    - rewrite (cv_p _ _ _ _ _ _ _ _ _ _ C). cbn [set_list]. intros l H. apply in_app_iff in H. apply in_app_iff.
      destruct H as [H|H]; [left; exact H|right; apply (mo_sub _ _ Mo), H].
    - intros l H. apply in_app_iff in H. destruct H as [H|H].
      + destruct (cv_new _ _ _ _ _ _ _ _ _ _ C l H) as (c & size & a & E & F & W & Mx & _). exists c. auto.
      + destruct (mo_mt _ _ Mo l H) as (c & E & Mx). exists c. split; [|exact Mx].
        rewrite (cv_old _ _ _ _ _ _ _ _ _ _ C); [exact E|]. eapply inv_P_lt; [exact I|]. apply (mo_sub _ _ Mo), H. }
  assert (Cv1 : covered_ s1).
  { intros a Ra. destruct (nth (Z.to_nat a) cov true) eqn:E.
    - eapply advocated_evolves; [exact EV1| |apply Cv; assumption]. intros l H. split.
      + rewrite (cv_m _ _ _ _ _ _ _ _ _ _ C). cbn [set_list]. apply in_app_iff. right; exact H.
      + eapply inv_P_lt; [exact I|]. apply (mo_sub _ _ Mo), H.
    - destruct (cv_all _ _ _ _ _ _ _ _ _ _ C a) as (l & c & Il & El & Ea); [lia|rewrite Z.sub_0_r; exact E|].
      exists l, c. spl; try assumption. rewrite (cv_m _ _ _ _ _ _ _ _ _ _ C). cbn [set_list]. apply in_app_iff. left; exact Il. }
  assert (Mn1 : set_nm (s_mset s1) = sum_nums (s_heap s1) (set_list (s_mset s1))).
  { rewrite (cv_m _ _ _ _ _ _ _ _ _ _ C). cbn [set_list set_nm]. rewrite sum_nums_app.
    rewrite (sum_nums_ext (s_heap s) (s_heap s1) (set_list (s_mset s))).
    2:{ intros l H. unfold num_of. rewrite (cv_old _ _ _ _ _ _ _ _ _ _ C); [reflexivity|].
        eapply inv_P_lt; [exact I|]. apply (mo_sub _ _ Mo), H. }
    assert (SN : forall ls, incl ls news -> sum_nums (s_heap s1) ls = Z.of_nat (length ls)).
    { induction ls as [|l ls IHl]; intros H; [reflexivity|]. cbn [sum_nums length].
      rewrite IHl by (intros y Hy; apply H; right; exact Hy).
      destruct (cv_new _ _ _ _ _ _ _ _ _ _ C l (H l (or_introl eq_refl))) as (c & size & a & E & F & _).
      rewrite (num_of_some _ _ _ E), (fr_num _ _ _ _ _ _ _ F). lia. }
    rewrite (SN news (incl_refl _)). lia. }
  assert (PN1 : set_nm (s_pset s1) <= POP_SIZE K + n_actions K).
  { rewrite (cv_p _ _ _ _ _ _ _ _ _ _ C). cbn [set_nm]. lia. }
  assert (Msum1 : sum_nums (s_heap s1) (set_list (s_mset s1)) <= set_nm (s_pset s1)).
  { rewrite (so_num (i_p I1)). apply sum_nums_incl; [apply Mo1|apply Mo1|].
    intros l H. pose proof (inv_num_pos I1 H). lia. }
  apply hp_bind_get. eapply hp_bind; [apply (enforce_spec FO V K kf Nx wf CO s1 ex I1)|].
  intros [] s2 (SH & I2 & PN2 & _). apply hp_bind_get.
  assert (EV2 : evolves x s1 s2) by (eapply shrinks_evolves; eassumption).
  assert (EV12 : evolves x s s2) by (eapply evolves_trans; eassumption).
  pose proof (sh_sets _ _ SH MSET ltac:(discriminate) ltac:(discriminate)) as EM. cbn [get_set] in EM.
  assert (Mlive : forall l, In l (set_list (s_mset s1)) -> exists c, s_heap s1 l = Some c /\
             s_heap s2 l = Some (set_num (num_of (s_heap s2) l) c) /\ mt (c_body c) x).
  { intros l H. destruct (mo_mt _ _ Mo1 l H) as (c & E & Mx). exists c. spl; try assumption.
    rewrite (sh_heap _ _ SH) at 1. rewrite E. reflexivity. }
  (* next state and its certificates *)
  eapply hp_bind with (P := fun r s3 => Inv s3 ex /\ set_nm (s_pset s3) <= POP_SIZE K /\ mset_ok x s3 /\
     cover_pre x (fst r) (snd r) s3 /\ evolves x s2 s3).
  { destruct (Z.ltb_spec (set_sz (s_pset s2)) (set_sz (s_pset s1))) as [Lt|Ge].
    - apply hp_bind_get. rewrite EM.
      assert (Vl : clset_validate MSET s2 = Ok (tt, with_set MSET
          (exact_set (s_heap s2) (alive (s_heap s2) (set_list (s_mset s1)))) s2)).
      { rewrite <- EM. apply (validate_eq MSET s2). cbn [get_set]. rewrite EM. intros l H.
        destruct (Mlive l H) as (c & _ & E & _). congruence. }
      unfold mbind at 1. rewrite Vl. set (M3 := exact_set _ _). set (s3 := with_set MSET M3 s2).
      assert (I3 : Inv s3 ex) by exact I2.
      assert (PN3 : set_nm (s_pset s3) <= POP_SIZE K) by (unfold s3; sst; lia).
      assert (SUB3 : incl (set_list M3) (set_list (s_pset s2))).
      { intros l H. unfold M3, exact_set in H. cbn [set_list] in H. apply alive_in in H. destruct H as (H & Nz).
        rewrite (sh_p _ _ SH). apply filter_In. split; [apply (mo_sub _ _ Mo1), H|].
        apply Z.ltb_lt. pose proof (inv_num_nonneg _ _ _ _ _ _ _ _ _ _ l I2). lia. }
      assert (Mo3 : mset_ok x s3).
      { constructor; unfold s3; sst.
        - unfold M3, exact_set; cbn [set_list]. apply alive_nodup, Mo1.
        - reflexivity.
        - exact SUB3.
        - intros l H. unfold M3, exact_set in H; cbn [set_list] in H. apply alive_in in H. destruct H as (H & _).
          destruct (Mlive l H) as (c & _ & E & Mx). eexists. split; [exact E|exact Mx]. }
      assert (EV3 : evolves x s2 s3) by (eapply with_mset_evolves, I2).
      assert (Mn3 : set_nm M3 = sum_nums (s_heap s2) (set_list M3)) by reflexivity.
      assert (Ms3 : sum_nums (s_heap s2) (set_list M3) <= set_nm (s_pset s2)).
      { rewrite (so_num (i_p I2)). apply sum_nums_incl; [apply Mo3|exact SUB3|].
        intros l H. pose proof (inv_num_pos I2 H). lia. }
      apply hp_bind_get. unfold s3 at 1; sst.
      destruct (Z.ltb_spec (set_sz M3) (set_sz (s_mset s1))) as [Lt2|Ge2].
      + destruct (mset_cs x s3 ex I3 Mo3) as (cs & Ecs & _ & Fa).
        destruct (action_coverage_spec K s3 cs Ecs Fa) as (cov' & E' & L' & H').
        rewrite E'. unfold hpost. cbn [fst snd]. spl; try assumption.
        assert (L2 : Z.of_nat (length cov') = n_actions K) by lia.
        destruct (forallb (fun b => b) cov') eqn:Fb; cbn [cover_pre].
        * split; [|unfold s3; sst; lia]. intros a Ra. apply H'; [exact Ra|].
          rewrite (forallb_all K) in Fb by exact L2. apply Fb, Ra.
        * spl; [exact L2|reflexivity|]. intros a Ra Na. apply H'; [exact Ra|].
          rewrite <- Na. apply nth_indep. lia.
      + apply hp_ret. cbn [fst snd cover_pre]. spl; try assumption; try (unfold s3; sst; lia).
        assert (EQ : set_list M3 = set_list (s_mset s1)).
        { unfold M3, exact_set in *; cbn [set_list set_sz] in *. apply alive_len_eq.
          rewrite (mo_sz _ _ Mo1) in Ge2. pose proof (alive_len (s_heap s2) (set_list (s_mset s1))). lia. }
        intros a Ra. unfold s3; sst. rewrite EQ.
        eapply advocated_evolves; [exact EV2| |apply Cv1, Ra]. intros l H. split; [exact H|].
        eapply inv_P_lt; [exact I1|]. apply (mo_sub _ _ Mo1), H.
    - apply hp_ret. cbn [fst snd cover_pre].
      assert (EQ : set_list (s_pset s2) = set_list (s_pset s1)).
      { rewrite (sh_p _ _ SH). apply filter_len_eq. rewrite <- (sh_p _ _ SH).
        rewrite (so_size (i_p I1)), (so_size (i_p I2)) in Ge.
        assert (length (set_list (s_pset s2)) <= length (set_list (s_pset s1)))%nat
          by (rewrite (sh_p _ _ SH); apply filter_length_le). lia. }
      spl; try assumption.
      + lia.
      + constructor.
        * rewrite EM. apply Mo1.
        * rewrite EM. apply Mo1.
        * rewrite EM, EQ. apply Mo1.
        * intros l H. rewrite EM in H. destruct (Mlive l H) as (c & _ & E & Mx). eexists. split; [exact E|exact Mx].
      + intros a Ra. rewrite EM. eapply advocated_evolves; [exact EV2| |apply Cv1, Ra]. intros l H. split; [exact H|].
        eapply inv_P_lt; [exact I1|]. apply (mo_sub _ _ Mo1), H.
      + rewrite EM, Mn1. apply sum_le. intros l _. apply (sh_le _ _ SH).
      + rewrite EM, Mn1. lia.
      + eapply evolves_refl, I2. }
  intros [cov' covered'] s3 (I3 & PN3 & Mo3 & CP3 & EV3). cbn [fst snd] in CP3.
  destruct (Z.ltb_spec MAX_COVER (attempts + 1)) as [Lt|Ge]; [exact Logic.I|].
  eapply hp_mono; [apply (IH (attempts + 1) cov' covered' s3 I3 PN3 Mo3); [exact Ge|lia|exact CP3]|].
  intros [] s4 (I4 & PN4 & Mo4 & CP4 & EV4 & _). spl; try assumption; try apply CP4.
  - eapply evolves_trans; [|exact EV4]. eapply evolves_trans; eassumption.
  - discriminate.
Qed.

Lemma cover_spec x s ex : xok K dom x -> Inv s ex -> set_nm (s_pset s) <= POP_SIZE K ->
  mset_ok x s -> set_nm (s_mset s) = sum_nums (s_heap s) (set_list (s_mset s)) ->
  hpost FO (clset_cover V K x s)
    (fun _ s' => Inv s' ex /\ set_nm (s_pset s') <= POP_SIZE K /\ mset_ok x s' /\
       cover_pre x [] true s' /\ evolves x s s' /\ (covered_ s -> s' = s)).
Proof.
  intros Lx I PN Mo Mn. unfold clset_cover.
  destruct (mset_cs x s ex I Mo) as (cs & Ecs & _ & Fa).
  destruct (action_coverage_spec K s cs Ecs Fa) as (cov' & E' & L' & H').
  unfold mbind. rewrite E'. assert (NA := ok_n_actions _ _ CO). assert (POPK := ok_pop _ _ CO).
  assert (L2 : Z.of_nat (length cov') = n_actions K) by lia.
  assert (Msum : sum_nums (s_heap s) (set_list (s_mset s)) <= set_nm (s_pset s)).
  { rewrite (so_num (i_p I)). apply sum_nums_incl; [apply Mo|apply Mo|].
    intros l H. pose proof (inv_num_pos I H). lia. }
  eapply hp_mono; [apply (cover_loop_spec _ x 0 cov' (forallb (fun b => b) cov') s ex Lx I PN Mo)|].
  - unfold MAX_COVER; lia.
  - rewrite Z2Nat.id; unfold MAX_COVER; lia.
  - destruct (forallb (fun b => b) cov') eqn:Fb; cbn [cover_pre].
    + split; [|lia]. intros a Ra. apply H'; [exact Ra|]. rewrite (forallb_all K) in Fb by exact L2. apply Fb, Ra.
    + spl; [exact L2|exact Mn|]. intros a Ra Na. apply H'; [exact Ra|].
      rewrite <- Na. apply nth_indep. lia.
  - intros [] s' (A1 & A2 & A3 & A4 & A5 & A6). spl; try assumption; try apply A4.
    intros Cv. apply A6. apply (forallb_all K); [exact L2|]. intros a Ra. apply H'; [exact Ra|]. apply Cv, Ra.
Qed.
End Match.
