(** * Supervised trials. *)
From Coq Require Import ZArith Bool List Reals Lia Lra Permutation.
From Flocq Require Import Core BinarySingleNaN.
From Verif Require Import Outcome F64 F64Facts F64Bounds Rng RngFacts Pop PopSpec PopInv PopSel PopDel PopCover PopMatch PopMset PopUpdate PopEA PopPA.
Import ListNotations.
Open Scope Z_scope.

Lemma NoDup_app_iff {A} (a b : list A) : NoDup (a ++ b) <-> NoDup a /\ NoDup b /\ forall x, In x a -> ~ In x b.
Proof.
  induction a as [|x a IH]; cbn [app].
  - split; [intros H; spl; [constructor|exact H|intros x []]|intros (_ & H & _); exact H].
  - split.
    + intros H. inversion H as [|? ? H2 H3]; subst. apply IH in H3. destruct H3 as (N1 & N2 & D). spl; [|exact N2|].
      * constructor; [|exact N1]. intros I. apply H2, in_app_iff. left; exact I.
      * intros y [<- |I]; [intros I2; apply H2, in_app_iff; right; exact I2|apply D, I].
    + intros (N1 & N2 & D). inversion N1 as [|? ? H2 H3]; subst. constructor.
      * intros I. apply in_app_iff in I. destruct I as [I|I]; [contradiction|]. apply (D x); [left; reflexivity|exact I].
      * apply IH. spl; try assumption. intros y Hy. apply D. right; exact Hy.
Qed.

(** ** Freeing every rule of a set. *)
Section Kill.
Context {B : Type}.
(** [ls] freed, everything else as before. *)
Definition freed (ls : list loc) (h h' : loc -> option (cl B)) : Prop :=
  forall l, h' l = if existsb (Nat.eqb l) ls then None else h l.

Lemma free_all_spec ls (s : st B) : NoDup ls -> (forall l, In l ls -> s_heap s l <> None) ->
  exists h', miter cl_free ls s = Ok (tt, with_heap h' (s_next s) s) /\ freed ls (s_heap s) h'.
Proof.
  revert s. induction ls as [|l r IH]; intros s ND L; cbn [miter].
  - exists (s_heap s). split; [destruct s; reflexivity|intros l; reflexivity].
  - inversion ND; subst. unfold mbind. unfold cl_free at 1.
    destruct (s_heap s l) as [c|] eqn:E; [|exfalso; apply (L l); [left; reflexivity|exact E]].
    destruct (IH (with_heap (upd (s_heap s) l None) (s_next s) s)) as (h' & Eh & Hh).
    + assumption.
    + intros y Hy. sst. rewrite upd_ne by (intros ->; contradiction). apply L. right; exact Hy.
    + exists h'. split; [rewrite Eh; reflexivity|]. intros y. rewrite Hh. sst. cbn [existsb].
      destruct (Nat.eqb_spec y l) as [-> |D]; cbn [orb].
      * rewrite upd_eq. destruct (existsb (Nat.eqb l) r); reflexivity.
      * rewrite upd_ne by exact D. reflexivity.
Qed.
Lemma kill_spec w (s : st B) : NoDup (set_list (get_set w s)) ->
  (forall l, In l (set_list (get_set w s)) -> s_heap s l <> None) ->
  exists h', clset_kill w s = Ok (tt, with_set w empty_set (with_heap h' (s_next s) s)) /\
    freed (set_list (get_set w s)) (s_heap s) h'.
Proof.
  intros ND L. destruct (free_all_spec _ _ ND L) as (h' & E & F). exists h'. split; [|exact F].
  unfold clset_kill, mbind, mget. rewrite E. reflexivity.
Qed.

Lemma freed_in ls (h h' : loc -> option (cl B)) l : freed ls h h' -> In l ls -> h' l = None.
Proof. intros F I. rewrite F. apply existsb_eqb in I. rewrite I. reflexivity. Qed.
Lemma freed_out ls (h h' : loc -> option (cl B)) l : freed ls h h' -> ~ In l ls -> h' l = h l.
Proof.
  intros F I. rewrite F. destruct (existsb (Nat.eqb l) ls) eqn:E; [|reflexivity]. apply existsb_eqb in E. contradiction.
Qed.

Variables (K : cfg) (kf N : Z) (wf : B -> Prop).
Notation inv := (inv K kf N wf).

Lemma set_ok_empty (h : loc -> option (cl B)) : set_ok h empty_set.
Proof. constructor; cbn; auto. intros l []. Qed.

(** Freeing the rules [D] out of the owned ones. *)
Lemma freed_gen h h' n P Kl Q ex P' Kl' Q' D : inv h n P Kl Q ex -> freed D h h' ->
  Permutation (owned P Kl Q ex) (D ++ owned P' Kl' Q' ex) ->
  (P' = P \/ P' = empty_set) -> (Kl' = Kl \/ Kl' = empty_set) -> (Q' = Q \/ Q' = empty_set) ->
  inv h' n P' Kl' Q' ex.
Proof.
  intros I F Pm HP HK HQ. destruct I as [a b c d e f g i].
  pose proof (Permutation_NoDup Pm a) as ND. rewrite NoDup_app_iff in ND. destruct ND as (NDD & NDO & DIS).
  assert (OUT : forall l, In l (owned P' Kl' Q' ex) -> h' l = h l).
  { intros l Hl. apply (freed_out _ _ _ _ F). intros X. apply (DIS l X Hl). }
  assert (NUM : forall l, In l (owned P' Kl' Q' ex) -> num_of h' l = num_of h l).
  { intros l Hl. unfold num_of. rewrite OUT by exact Hl. reflexivity. }
  constructor; try assumption.
  - intros l. split.
    + intros H. rewrite F in H. destruct (existsb (Nat.eqb l) D) eqn:E; [congruence|].
      apply b in H. apply (Permutation_in l Pm) in H. apply in_app_iff in H. destruct H as [H|H]; [|exact H].
      apply existsb_eqb in H. congruence.
    + intros H. rewrite OUT by exact H. apply b. apply (Permutation_in l (Permutation_sym Pm)). apply in_app_iff. right; exact H.
  - intros l H. rewrite F in H. destruct (existsb (Nat.eqb l) D); [congruence|]. apply c, H.
  - intros l cl0 H. rewrite F in H. destruct (existsb (Nat.eqb l) D); [discriminate|]. apply (d l cl0 H).
  - destruct HP as [-> | ->]; [|apply set_ok_empty]. eapply set_ok_ext; [|exact e].
    intros l H. apply NUM. apply in_owned. left; exact H.
  - destruct HK as [-> | ->].
    + destruct f as (f1 & f2 & f3). spl; try assumption. intros l H. rewrite NUM; [apply f3, H|]. apply in_owned. right; left; exact H.
    + spl; try reflexivity. intros l [].
  - destruct HQ as [-> | ->]; [|apply set_ok_empty]. eapply set_ok_ext; [|exact g].
    intros l H. apply NUM. apply in_owned. right; right; left; exact H.
  - intros l H. rewrite NUM; [apply i, H|]. apply in_owned. right; right; right; exact H.
Qed.
End Kill.

Section Trial.
Context {B : Type} (FO : Prop) (V : vtab B) (K : cfg) (kf : Z) (wf : B -> Prop)
  (mt : B -> list f64 -> Prop) (CO : cfg_ok K kf) {dom : list f64 -> Prop} (VO : vt_ok (dom := dom) FO V K wf mt)
  (HT : ea_tournament K = true -> FO).
Notation Inv := (Inv K kf).
Notation Good := (Good K kf).

(** What clset_match with or without covering does ([cv]). *)
Definition matching (x : list f64) (cv : bool) (s s' : st B) : Prop := exists s1 s2 cs,
  match_rel V K wf mt x (set_list (s_pset s)) s s1 /\
  (needs_cover K cv s1 = false -> s2 = s1) /\
  (needs_cover K cv s1 = true -> covered_ K s2 /\ (covered_ K s1 -> s2 = s1)) /\
  evolves V K mt x s1 s2 /\ mset_ok mt x s2 /\
  (s_next s2 = s_next s1 -> s2 = s1) /\
  map (s_heap s2) (set_list (s_pset s2)) = map Some cs /\
  s' = match_stats K (set_sz (s_mset s2)) cs s2.

Lemma matching_frame x cv s s' : matching x cv s s' ->
  (forall v, v <> PSET -> v <> KSET -> v <> MSET -> get_set v s' = get_set v s) /\
  exists z cs, misc s' = misc (match_stats K z cs s).
Proof.
  intros (s1 & s2 & cs & MR & _ & _ & EV & _ & _ & _ & ->). split.
  - intros v D1 D2 D3. transitivity (get_set v s2); [destruct v; reflexivity|].
    rewrite (ev_sets _ _ _ _ _ _ EV v D1 D2 D3). apply (mr_sets _ _ _ _ _ _ _ _ MR v D3).
  - exists (set_sz (s_mset s2)), cs. pose proof (ev_misc _ _ _ _ _ _ EV) as E1. pose proof (mr_misc _ _ _ _ _ _ _ _ MR) as E2.
    rewrite E2 in E1. unfold misc, match_stats in *. sst. congruence.
Qed.

Lemma matching_spec N x cv s ex : 0 <= N -> xok K dom x -> Inv N wf s ex ->
  s_mset s = empty_set -> set_nm (s_pset s) <= POP_SIZE K ->
  hpost FO (clset_match V K x cv s) (fun _ s' => matching x cv s s' /\ Inv N wf s' ex /\
    set_nm (s_pset s') <= POP_SIZE K /\ act_ok s' (s_mset s') /\
    sum_nums (s_heap s') (set_list (s_mset s')) <= set_nm (s_mset s') <= POP_SIZE K + n_actions K /\
    (cv = true -> set_list (s_mset s') <> []) /\
    (1 < n_actions K -> cv = true -> covered_ K s')).
Proof.
  intros N0 Lx I E0 PN. eapply hp_mono; [apply (match_spec FO V K kf N wf mt CO VO N0 x cv s ex Lx I E0 PN)|].
  intros [] s' (s1 & s2 & cs & MR & I1 & Mo1 & Mn1 & I2 & PN2 & Mo2 & EV & Mb & NC0 & NC1 & Ecs & ->).
  assert (NA := ok_n_actions _ _ CO). spl; try assumption; try apply Mb.
  - exists s1, s2, cs. spl; try assumption; [|reflexivity]. intros HN.
    destruct (needs_cover K cv s1) eqn:NE; [|apply NC0; reflexivity].
    destruct (NC1 eq_refl) as (C2 & H). apply H. intros a Ha. destruct (C2 a Ha) as (l & c & Il & El & Ea).
    assert (LT : (l < s_next s1)%nat) by (rewrite <- HN; apply (i_next I2); congruence).
    pose proof (ev_old _ _ _ _ _ _ EV l LT) as EO. rewrite El in EO.
    destruct (s_heap s1 l) as [c1|] eqn:E1; [|discriminate]. cbn in EO. injection EO as EO.
    assert (P1 : In l (set_list (s_pset s1))).
    { destruct (ev_p _ _ _ _ _ _ EV l (mo_sub _ _ _ Mo2 _ Il)) as [P|P]; [exact P|lia]. }
    assert (EP : s_pset s1 = s_pset s) by (apply (mr_sets _ _ _ _ _ _ _ _ MR PSET); discriminate).
    rewrite EP in P1. destruct (mr_in _ _ _ _ _ _ _ _ MR l P1) as (d & d' & Ed & Ed' & M). rewrite E1 in Ed'. injection Ed' as <-.
    exists l, c1. spl; [|exact E1|subst c; exact Ea].
    rewrite (mr_m _ _ _ _ _ _ _ _ MR), E0. cbn [set_list empty_set]. rewrite app_nil_r. apply in_rev. rewrite rev_involutive.
    apply filter_In. split; [exact P1|]. unfold flagged. rewrite E1. apply (ma_m _ _ _ _ _ _ _ M).
    destruct (mo_mt _ _ _ Mo2 _ Il) as (c2 & E2 & M2). rewrite El in E2. injection E2 as <-. subst c. exact M2.
  - unfold act_ok. split; [apply (mo_nodup _ _ _ Mo2)|split; [apply (mo_sz _ _ _ Mo2)|apply (mo_sub _ _ _ Mo2)]].
  - intros ->. destruct (needs_cover K true s1) eqn:NC.
    + destruct (NC1 eq_refl) as (C & _). destruct (C 0 ltac:(lia)) as (l & c & Il & _).
      change (s_mset (match_stats K (set_sz (s_mset s2)) cs s2)) with (s_mset s2).
      intros X. rewrite X in Il. contradiction.
    + rewrite (NC0 eq_refl). change (s_mset (match_stats K (set_sz (s_mset s1)) cs s1)) with (s_mset s1).
      unfold needs_cover in NC. cbn [andb] in NC. apply orb_false_iff in NC. destruct NC as (_ & NC).
      apply Z.ltb_ge in NC. rewrite (mo_sz _ _ _ Mo1) in NC. intros X. rewrite X in NC. cbn in NC. lia.
  - intros A ->. assert (needs_cover K true s1 = true) as NC.
    { unfold needs_cover. apply Z.ltb_lt in A. rewrite A. reflexivity. }
    destruct (NC1 NC) as (C & _). exact C.
Qed.

Lemma update_frame w x y cur s s1 cs1 s2 s' : w <> PSET ->
  update_steps V K wf w x y cur s s1 cs1 s2 s' ->
  misc s' = misc s /\ s_next s' = s_next s /\
  forall v, v <> PSET -> v <> KSET -> v <> w -> get_set v s' = get_set v s.
Proof.
  intros W (T1 & _ & T2 & H). destruct (touches_all_pset _ _ _ _ T1) as (M1 & X1 & G1).
  destruct (touches_all_pset _ _ _ _ T2) as (M2 & X2 & G2).
  assert (Q : misc s2 = misc s /\ s_next s2 = s_next s /\ forall v, get_set v s2 = get_set v s).
  { spl; congruence. }
  destruct Q as (Q1 & Q2 & Q3).
  destruct (SET_SUBSUMPTION K).
  - destruct H as [_ -> |sub c _ _ -> |sub c D sa _ _ _ A ->].
    + spl; try assumption. intros; apply Q3.
    + spl; try assumption. intros; apply Q3.
    + spl.
      * transitivity (misc sa); [destruct w; reflexivity|]. rewrite (ab_misc _ _ _ _ A). exact Q1.
      * transitivity (s_next sa); [destruct w; reflexivity|]. rewrite (ab_next _ _ _ _ A). exact Q2.
      * intros v D1 D2 D3. rewrite !get_with_ne by congruence. rewrite (ab_sets _ _ _ _ A v D2). apply Q3.
  - subst s'. spl; try assumption. intros; apply Q3.
Qed.

Lemma ea_frame w s s' : ea_rel V K wf w s s' ->
  misc s' = misc (tick s) /\ forall v, v <> PSET -> v <> KSET -> get_set v s' = get_set v s.
Proof.
  intros [_ -> |cs _ _ _ -> |cs cs1 p q g s1 s2 _ _ _ T _ _ _ _ G _ _ SH _ _]; try (split; [reflexivity|intros v _ _; destruct v; reflexivity]).
  destruct (touches_all_pset _ _ _ _ T) as (M1 & X1 & G1). split.
  - rewrite (sh_misc _ _ SH), (gr_misc _ _ G). exact M1.
  - intros v D1 D2. rewrite (sh_sets _ _ SH v D1 D2), (gr_sets _ _ G v D1).
    transitivity (get_set v s1); [destruct v; reflexivity|]. rewrite G1. destruct v; reflexivity.
Qed.
Lemma ea_limit w s s' : ea_rel V K wf w s s' -> set_nm (s_pset s) <= POP_SIZE K -> set_nm (s_pset s') <= POP_SIZE K.
Proof.
  intros [_ -> |cs _ _ _ -> |cs cs1 p q g s1 s2 _ _ _ T _ _ _ _ G _ _ SH _ E] H; try exact H. rewrite E. lia.
Qed.

(** ** One supervised trial. *)
Definition start (s : st B) : st B := with_set KSET empty_set (with_set MSET empty_set s).
Definition answer (x : list f64) (cover : option (list f64)) (s s' : st B) : Prop :=
  match cover with
  | None => pa_rel V K wf x s s'
  | Some cv => (set_list (s_mset s) = [] -> s' = with_pa (firstn (Z.to_nat (n_actions K * y_dim K)) cv) (s_nr s) s) /\
               (set_list (s_mset s) <> [] -> pa_rel V K wf x s s')
  end.
Definition learning (w : sel) (x y : list f64) (cur : bool) (s s' : st B) : Prop :=
  exists a cs b c, update_steps V K wf w x y cur s a cs b c /\ ea_rel V K wf w c s'.
Definition finished (s s' : st B) : Prop := exists h', freed (set_list (s_kset s)) (s_heap s) h' /\
  s' = with_set MSET empty_set (with_set KSET empty_set (with_heap h' (s_next s) s)).
Definition trial_rel (x y : list f64) (cover : option (list f64)) (s s' : st B) : Prop := exists s1 s2 s3,
  matching x (match cover with None => true | Some _ => false end) (start s) s1 /\
  answer x cover s1 s2 /\
  (if s_explore s then learning MSET x y true s2 s3 else s3 = s2) /\
  finished s3 s'.

Lemma pa_frame x s s' : pa_rel V K wf x s s' ->
  s_next s' = s_next s /\ (forall v, get_set v s' = get_set v s) /\ misc s' = misc (with_pa (s_pa s') (s_nr s') s).
Proof.
  intros (s1 & cs & pa & nr & T & _ & _ & ->). destruct (touches_all_pset _ _ _ _ T) as (M1 & X1 & G1). spl.
  - exact X1.
  - intros v. rewrite <- G1. destruct v; reflexivity.
  - unfold misc in *. sst. congruence.
Qed.
Lemma answer_frame x cover s s' : answer x cover s s' ->
  s_next s' = s_next s /\ (forall v, get_set v s' = get_set v s) /\ misc s' = misc (with_pa (s_pa s') (s_nr s') s).
Proof.
  intros A. destruct cover as [cv|]; [|apply (pa_frame _ _ _ A)].
  destruct A as (A1 & A2). destruct (set_list (s_mset s)) as [|l r].
  - rewrite (A1 eq_refl). split; [reflexivity|split; [intros v; destruct v; reflexivity|reflexivity]].
  - apply (pa_frame x). apply A2. discriminate.
Qed.

(** The common part of the trials: updating a set and running the EA on it. *)
Lemma learning_spec N w x y cur s ex : 0 <= N -> N + 1 <= 2 ^ 53 -> Inv N wf s ex -> act_ok s (get_set w s) ->
  w <> PSET -> w <> KSET -> w <> PREV_PSET -> set_nm (s_pset s) <= POP_SIZE K ->
  (set_list (get_set w s) <> [] -> 1 <= set_nm (get_set w s) <= 2 ^ 33) ->
  (vla0_is_ub K = true -> set_list (get_set w s) <> []) ->
  xok K dom x -> Z.of_nat (length y) = y_dim K ->
  hpost FO ((clset_update V K w x y cur ;;; ea V K w) s) (fun _ s' => learning w x y cur s s' /\ Inv (N + 1) wf s' ex /\
    set_nm (s_pset s') <= POP_SIZE K).
Proof.
  intros N0 N1 I AO W1 W2 W3 PN Hn Hv Lx Ly. assert (PK := ok_pop _ _ CO). unfold int_max in PK.
  eapply hp_bind; [apply (clset_update_spec FO V K kf wf mt CO VO N w x y cur s ex); try assumption; lia|].
  intros [] s1 ((a & cs & b & ST & _) & I1 & AO1 & NM1).
  assert (PL : set_sz (get_set w s1) <= int_max).
  { destruct AO1 as (ND & -> & SUB). unfold int_max. transitivity (set_nm (s_pset s1)); [|lia].
    transitivity (sum_nums (s_heap s1) (set_list (get_set w s1))).
    - apply sum_nums_len. intros l Hl. apply (inv_num_pos I1 (SUB _ Hl)).
    - rewrite (so_num (i_p I1)). apply sum_nums_incl; [exact ND|exact SUB|]. intros l Hl. pose proof (inv_num_pos I1 Hl). lia. }
  eapply hp_mono; [apply (ea_spec FO V K kf (N + 1) wf mt CO VO ltac:(lia) w s1 ex HT I1 AO1 W1 PL)|].
  intros [] s' (E & I'). spl; [exists a, cs, b, s1; auto|exact I'|]. apply (ea_limit _ _ _ E). lia.
Qed.

Lemma learning_frame w x y cur s s' : w <> PSET -> learning w x y cur s s' ->
  misc s' = misc (tick s) /\ forall v, v <> PSET -> v <> KSET -> v <> w -> get_set v s' = get_set v s.
Proof.
  intros W (a & cs & b & c & ST & E). destruct (update_frame _ _ _ _ _ _ _ _ _ W ST) as (M1 & _ & G1).
  destruct (ea_frame _ _ _ E) as (M2 & G2). split.
  - rewrite M2. unfold misc, tick in *. sst. congruence.
  - intros v D1 D2 D3. rewrite G2, G1 by assumption. reflexivity.
Qed.

Lemma Good_Inv N s : Good N wf s -> Inv N wf (with_set KSET empty_set s) [].
Proof. intros G. apply (g_inv G). Qed.

Lemma inv_kill_K N (s : st B) ex h' : Inv N wf s ex -> freed (set_list (s_kset s)) (s_heap s) h' ->
  inv K kf N wf h' (s_next s) (s_pset s) empty_set (s_prev_pset s) ex.
Proof.
  intros I F. eapply freed_gen; [exact I|exact F| |left; reflexivity|right; reflexivity|left; reflexivity].
  unfold owned. cbn [empty_set set_list app]. rewrite !app_assoc. apply Permutation_app_tail. apply Permutation_app_tail.
  apply Permutation_app_comm.
Qed.

Lemma supervised_trial_spec N x y cover s : 0 <= N -> Good N wf s -> xok K dom x ->
  (s_explore s = true -> cover = None /\ Z.of_nat (length y) = y_dim K /\ N + 1 <= 2 ^ 53) ->
  (forall cv, cover = Some cv -> n_actions K * y_dim K <= Z.of_nat (length cv)) ->
  hpost FO (supervised_trial V K x y cover s) (fun _ s' =>
    trial_rel x y cover s s' /\ Good (if s_explore s then N + 1 else N) wf s').
Proof.
  intros N0 G Lx HE HC. assert (NA := ok_n_actions _ _ CO). assert (PK := ok_pop _ _ CO). unfold int_max in PK, NA.
  unfold supervised_trial, clset_init. apply hp_bind_mod. apply hp_bind_mod.
  change (with_set KSET empty_set (with_set MSET empty_set s)) with (start s).
  assert (I0 : Inv N wf (start s) []) by apply (g_inv G).
  assert (PN0 : set_nm (s_pset (start s)) <= POP_SIZE K) by apply (g_lim G).
  set (cvb := match cover with None => true | Some _ => false end).
  eapply hp_bind with (P := fun _ s2 => exists s1, matching x cvb (start s) s1 /\ answer x cover s1 s2 /\
     Inv N wf s2 [] /\ set_nm (s_pset s2) <= POP_SIZE K /\ act_ok s2 (s_mset s2) /\
     (cover = None -> set_list (s_mset s2) <> []) /\ sum_nums (s_heap s2) (set_list (s_mset s2)) <= set_nm (s_mset s2) <= POP_SIZE K + n_actions K).
  { assert (PA : forall s1, matching x cvb (start s) s1 -> Inv N wf s1 [] -> set_nm (s_pset s1) <= POP_SIZE K ->
       act_ok s1 (s_mset s1) -> sum_nums (s_heap s1) (set_list (s_mset s1)) <= set_nm (s_mset s1) <= POP_SIZE K + n_actions K ->
       (cvb = true -> set_list (s_mset s1) <> []) -> (cover <> None -> set_list (s_mset s1) <> []) ->
       hpost FO (pa_build V K x s1) (fun _ s2 => exists s1, matching x cvb (start s) s1 /\ answer x cover s1 s2 /\
         Inv N wf s2 [] /\ set_nm (s_pset s2) <= POP_SIZE K /\ act_ok s2 (s_mset s2) /\
         (cover = None -> set_list (s_mset s2) <> []) /\ sum_nums (s_heap s2) (set_list (s_mset s2)) <= set_nm (s_mset s2) <= POP_SIZE K + n_actions K)).
    { intros s1 MA I1 PN1 AO1 MB1 NE1 NE2.
      eapply hp_mono; [apply (pa_build_spec FO V K kf N wf mt CO VO x s1 [] Lx I1 AO1)|].
      intros [] s2 (PR & I2). destruct (pa_frame _ _ _ PR) as (X2 & G2 & M2).
      pose proof (G2 PSET) as P2. pose proof (G2 MSET) as MM2. cbn [get_set] in P2, MM2.
      exists s1. unfold act_ok. rewrite P2, MM2.
      assert (SN : sum_nums (s_heap s2) (set_list (s_mset s1)) = sum_nums (s_heap s1) (set_list (s_mset s1))).
      { apply sum_nums_ext. destruct PR as (s1' & cs & pa & nr & T & _ & _ & ->). intros l Hl. sst.
        destruct T as (h' & g & -> & A & _). sst. destruct (A l Hl) as (c & c' & E1 & E2 & (b & p & -> & _)).
        unfold num_of. rewrite E1, E2. reflexivity. }
      rewrite SN. spl; try assumption; try lia; try apply AO1.
      - destruct cover; [|exact PR]. split; [|intros _; exact PR]. intros X. exfalso. apply NE2; [discriminate|exact X].
      - intros ->. apply NE1. reflexivity. }
    destruct cover as [cv|]; unfold cvb in *.
    - eapply hp_bind; [apply (matching_spec N x false (start s) [] N0 Lx I0 eq_refl PN0)|].
      intros [] s1 (MA & I1 & PN1 & AO1 & MB1 & NE1 & _). apply hp_bind_get.
      destruct (Z.ltb_spec (set_sz (s_mset s1)) 1) as [Z1|Z1].
      + assert (EM : set_list (s_mset s1) = []).
        { destruct AO1 as (_ & SZ & _). destruct (set_list (s_mset s1)); [reflexivity|cbn [length] in SZ; lia]. }
        destruct (Z.ltb_spec (Z.of_nat (length cv)) (pa_size K)) as [L|L].
        { exfalso. specialize (HC cv eq_refl). unfold pa_size in L. lia. }
        apply hp_mod. exists s1. spl; try assumption; try apply AO1; try apply MB1; try discriminate; try reflexivity.
        split; [intros _; reflexivity|intros X; contradiction (X EM)].
      + apply PA; try assumption. intros _ X. destruct AO1 as (_ & SZ & _). rewrite X in SZ. cbn in SZ. lia.
    - eapply hp_bind; [apply (matching_spec N x true (start s) [] N0 Lx I0 eq_refl PN0)|].
      intros [] s1 (MA & I1 & PN1 & AO1 & MB1 & NE1 & _). apply PA; try assumption. congruence. }
  intros [] s2 (s1 & MA & AN & I2 & PN2 & AO2 & NE2 & MB2).
  destruct (matching_frame _ _ _ _ MA) as (G1 & z & cs & M1). destruct (answer_frame _ _ _ _ AN) as (X2 & G2 & M2).
  assert (EX : s_explore s2 = s_explore s).
  { unfold misc, match_stats in M1, M2. sst. transitivity (s_explore s1); [congruence|].
    change (s_explore (start s)) with (s_explore s) in M1. congruence. }
  assert (PP : s_prev_pset s2 = s_prev_pset s).
  { pose proof (G2 PREV_PSET) as E1. pose proof (G1 PREV_PSET ltac:(discriminate) ltac:(discriminate) ltac:(discriminate)) as E2.
    cbn [get_set] in E1, E2. rewrite E1, E2. reflexivity. }
  apply hp_bind_get. rewrite EX.
  set (N' := if s_explore s then N + 1 else N).
  eapply hp_bind with (P := fun _ s3 => (if s_explore s then learning MSET x y true s2 s3 else s3 = s2) /\
     Inv N' wf s3 [] /\ set_nm (s_pset s3) <= POP_SIZE K /\ s_prev_pset s3 = s_prev_pset s).
  { unfold N'. destruct (s_explore s) eqn:EE.
    - destruct (HE eq_refl) as (-> & Ly & N1).
      eapply hp_mono; [apply (learning_spec N MSET x y true s2 [] N0 N1 I2 AO2); try assumption; try discriminate|].
      + intros _. change (get_set MSET s2) with (s_mset s2).
        pose proof (NE2 eq_refl) as NE. destruct AO2 as (_ & SZ & SUB).
        assert (Z.of_nat (length (set_list (s_mset s2))) <= sum_nums (s_heap s2) (set_list (s_mset s2))).
        { apply sum_nums_len. intros l Hl. apply (inv_num_pos I2 (SUB _ Hl)). }
        destruct (set_list (s_mset s2)); [congruence|]. cbn [length] in *. lia.
      + intros _. apply NE2. reflexivity.
      + intros [] s3 (LE & I3 & PN3). spl; try assumption.
        destruct (learning_frame MSET _ _ _ _ _ ltac:(discriminate) LE) as (_ & G3).
        pose proof (G3 PREV_PSET ltac:(discriminate) ltac:(discriminate) ltac:(discriminate)) as E3. cbn [get_set] in E3. congruence.
    - apply hp_ret. auto. }
  intros [] s3 (LE & I3 & PN3 & PP3).
  destruct (owned_disj _ _ _ _ (i_nodup I3)) as (_ & NDK & _).
  destruct (kill_spec KSET s3 NDK) as (h' & EK & FK).
  { intros l Hl. apply (inv_live_K I3 Hl). }
  unfold mbind at 1. rewrite EK. apply hp_mod. split.
  - exists s1, s2, s3. spl; try assumption. exists h'. split; [exact FK|reflexivity].
  - constructor.
    + sst. apply (inv_kill_K N' s3 [] h' I3 FK).
    + exact PN3.
    + change (set_nm (s_prev_pset s3) <= POP_SIZE K). rewrite PP3. apply (g_lim_prev G).
Qed.
End Trial.
