(** * Building the match set and the action set. *)
From Coq Require Import ZArith Bool List Reals Lia Lra Permutation.
From Flocq Require Import Core BinarySingleNaN.
From Verif Require Import Outcome F64 F64Facts F64Bounds Rng RngFacts Pop PopSpec PopInv PopSel PopDel PopCover PopMatch.
Import ListNotations.
Open Scope Z_scope.

Section Mset.
Context {B : Type} (FO : Prop) (V : vtab B) (K : cfg) (kf Nx : Z) (wf : B -> Prop)
  (mt : B -> list f64 -> Prop) (CO : cfg_ok K kf) {dom : list f64 -> Prop} (VO : vt_ok (dom := dom) FO V K wf mt) (HN : 0 <= Nx).
Notation rule_ok := (rule_ok K kf Nx wf).
Notation inv := (inv K kf Nx wf).
Notation Inv := (Inv K kf Nx wf).

(** What matching does to one rule. *)
Record matched (x : list f64) (c c' : cl B) : Prop := {
  ma_err : c_err c' = c_err c; ma_fit : c_fit c' = c_fit c; ma_num : c_num c' = c_num c;
  ma_exp : c_exp c' = c_exp c; ma_size : c_size c' = c_size c; ma_time : c_time c' = c_time c;
  ma_pred : c_prediction c' = c_prediction c; ma_age : c_age c' = c_age c + 1;
  ma_mtotal : c_mtotal c' = c_mtotal c + (if c_m c' then 1 else 0);
  ma_m : c_m c' = true <-> mt (c_body c') x;
  ma_action : c_m c' = false -> c_action c' = c_action c;
  ma_run : exists b, rout (v_cond_match V (c_body c) x) (b, c_m c') /\
    (if c_m c' then rout (v_act_compute V b x) (c_body c', c_action c') else c_body c' = b);
  ma_range : c_m c' = true -> 0 <= c_action c' < n_actions K;
  ma_wf : wf (c_body c')
}.
Lemma matched_ok x c c' : matched x c c' -> rule_ok c -> rule_ok c'.
Proof.
  intros [] []. constructor; rewrite ?ma_fit0, ?ma_size0, ?ma_pred0, ?ma_exp0; try assumption.
  destruct (c_m c') eqn:E; [apply ma_range0; reflexivity|]. rewrite ma_action0; [assumption|reflexivity].
Qed.
(** The rule at [l] is flagged as matching. *)
Definition flagged (h : loc -> option (cl B)) (l : loc) : bool :=
  match h l with Some c => c_m c | None => false end.

Record match_rel (x : list f64) (ls : list loc) (s s' : st B) : Prop := {
  mr_next : s_next s' = s_next s;
  mr_misc : misc s' = misc s;
  mr_sets : forall w, w <> MSET -> get_set w s' = get_set w s;
  mr_m : s_mset s' = mkSet (rev (filter (flagged (s_heap s')) ls) ++ set_list (s_mset s))
           (set_sz (s_mset s) + Z.of_nat (length (filter (flagged (s_heap s')) ls)))
           (set_nm (s_mset s) + sum_nums (s_heap s') (filter (flagged (s_heap s')) ls));
  mr_in : forall l, In l ls -> exists c c', s_heap s l = Some c /\ s_heap s' l = Some c' /\ matched x c c';
  mr_out : forall l, ~ In l ls -> s_heap s' l = s_heap s l
}.

Lemma match_one_spec x l c s : xok K dom x -> s_heap s l = Some c -> wf (c_body c) ->
  hpost FO (match_one V x l s) (fun _ s' => match_rel x [l] s s').
Proof.
  intros Lx E W. unfold match_one.
  eapply hp_bind; [eapply (modify_rand_touch FO _ (fun a b => exists b1 m, wf b1 /\ rout (v_cond_match V (c_body a) x) (b1, m) /\ (m = true <-> mt b1 x) /\
     b = set_age (c_age a + 1) (set_mtotal (if m then c_mtotal a + 1 else c_mtotal a) (set_m m (set_body b1 a)))) l c s E)|].
  { unfold cl_match. eapply rp_bind; [apply rp_rout, (vo_match _ _ _ _ _ VO); eassumption|].
    intros [b1 m] ((W1 & Hm) & O1). apply rp_ret. exists b1, m. auto. }
  intros [] s1 (h1 & g1 & c0 & c1 & -> & E0 & E1 & (b1 & m & W1 & R1 & Hm & Ec1) & O1).
  rewrite E in E0. injection E0 as <-.
  eapply hp_bind_heap; [exact E1|]. assert (Hcm : c_m c1 = m) by (rewrite Ec1; reflexivity). rewrite Hcm.
  destruct m.
  - unfold clset_add. rewrite bind_assoc_m. eapply hp_bind_heap; [exact E1|]. rewrite bind_assoc_m.
    apply hp_bind_get. apply hp_bind_mod. sst.
    eapply hp_mono.
    { eapply (modify_rand_touch FO _ (fun a b => exists b2 act, wf b2 /\ rout (v_act_compute V b1 x) (b2, act) /\ 0 <= act < n_actions K /\ mt b2 x /\
         b = set_action act (set_body b2 a)) l c1); [sst; exact E1|].
      unfold cl_action. rewrite Ec1. cbn [c_body set_age set_mtotal set_m set_body].
      eapply rp_bind; [apply rp_rout, (vo_compute _ _ _ _ _ VO); try eassumption; apply Hm; reflexivity|].
      intros [b2 act] ((W2 & Ra & Mx) & R2). apply rp_ret. exists b2, act. auto. }
    intros [] s2 (h2 & g2 & d1 & d2 & -> & D1 & D2 & (b2 & act & W2 & R2 & Ra & Mx & Ed2) & O2). sst.
    rewrite E1 in D1. injection D1 as <-.
    assert (MA : matched x c d2).
    { rewrite Ed2, Ec1. constructor; cbn; try reflexivity; try tauto; try discriminate; eauto. }
    assert (FL : flagged h2 l = true) by (unfold flagged; rewrite D2, Ed2, Ec1; reflexivity).
    constructor; sst; try reflexivity.
    + intros w D. destruct w; try reflexivity; congruence.
    + cbn [filter]. rewrite FL. cbn [length rev app sum_nums]. f_equal.
      unfold num_of. rewrite D2, Ed2, Ec1. cbn. lia.
    + intros l' [<- |[]]. exists c, d2. auto.
    + intros l' N. rewrite O2, O1; auto; intros ->; apply N; left; reflexivity.
  - apply hp_ret. sst.
    assert (FL : flagged h1 l = false) by (unfold flagged; rewrite E1, Ec1; reflexivity).
    constructor; sst; try reflexivity.
    + cbn [filter]. rewrite FL. cbn [length rev app sum_nums]. destruct (s_mset s); cbn; f_equal; lia.
    + intros l' [<- |[]]. exists c, c1. spl; try assumption. rewrite Ec1. constructor; cbn; try reflexivity; try tauto.
      * lia.
      * eauto.
      * discriminate.
    + intros l' N. apply O1. intros ->; apply N; left; reflexivity.
Qed.

Lemma match_loop_spec x ls s : xok K dom x -> NoDup ls ->
  (forall l, In l ls -> exists c, s_heap s l = Some c /\ wf (c_body c)) ->
  hpost FO (miter (match_one V x) ls s) (fun _ s' => match_rel x ls s s').
Proof.
  intros Lx ND. revert s. induction ls as [|l r IH]; intros s L; cbn [miter].
  - apply hp_ret. constructor; try reflexivity.
    + cbn. destruct (s_mset s); cbn; f_equal; lia.
    + intros l [].
  - inversion ND as [|? ? NI ND']; subst. destruct (L l (or_introl eq_refl)) as (c & E & W).
    eapply hp_bind; [apply (match_one_spec x l c s Lx E W)|]. intros [] s1 [n1 m1 w1 M1 i1 o1].
    eapply hp_mono; [apply (IH ND' s1)|].
    { intros l' H. rewrite o1 by (intros [->|[]]; contradiction). apply L. right; exact H. }
    intros [] s2 [n2 m2 w2 M2 i2 o2].
    destruct (i1 l (or_introl eq_refl)) as (c0 & c1 & E0 & E1 & MA).
    assert (E2 : s_heap s2 l = Some c1) by (rewrite o2 by exact NI; exact E1).
    assert (FL : flagged (s_heap s2) l = flagged (s_heap s1) l) by (unfold flagged; rewrite E2, E1; reflexivity).
    assert (NU : num_of (s_heap s2) l = num_of (s_heap s1) l) by (unfold num_of; rewrite E2, E1; reflexivity).
    constructor.
    + congruence.
    + congruence.
    + intros w D. rewrite w2, w1 by exact D. reflexivity.
    + rewrite M2, M1. cbn [filter]. rewrite FL. destruct (flagged (s_heap s1) l); cbn [set_list set_sz set_nm length rev sum_nums app].
      * rewrite <- app_assoc. cbn [app]. f_equal; lia.
      * f_equal; lia.
    + intros l' [<- |H].
      * exists c0, c1. auto.
      * destruct (i2 l' H) as (d & d' & D1 & D2 & D3). exists d, d'. spl; try assumption.
        rewrite <- o1; [exact D1|]. intros [->|[]]; contradiction.
    + intros l' N. rewrite o2, o1; [reflexivity| |].
      * intros [->|[]]. apply N. left; reflexivity.
      * intros H. apply N. right; exact H.
Qed.

Lemma match_rel_inv x ls s s' ex : Inv s ex -> match_rel x ls s s' -> Inv s' ex.
Proof.
  intros I [n1 m1 w1 M1 i1 o1]. unfold PopSpec.Inv.
  pose proof (w1 PSET ltac:(discriminate)) as EP. pose proof (w1 KSET ltac:(discriminate)) as EK.
  pose proof (w1 PREV_PSET ltac:(discriminate)) as EQ. cbn [get_set] in *. rewrite EP, EK, EQ, n1.
  eapply inv_ext; [exact I| | |].
  - intros l. destruct (in_dec Nat.eq_dec l ls) as [J|J]; [|rewrite o1 by exact J; reflexivity].
    destruct (i1 l J) as (d & d' & D1 & D2 & D3). rewrite D1, D2. split; discriminate.
  - intros l. unfold num_of. destruct (in_dec Nat.eq_dec l ls) as [J|J]; [|rewrite o1 by exact J; reflexivity].
    destruct (i1 l J) as (d & d' & D1 & D2 & D3). rewrite D1, D2. apply D3.
  - intros l c E. destruct (in_dec Nat.eq_dec l ls) as [J|J].
    + destruct (i1 l J) as (d & d' & D1 & D2 & D3). rewrite D2 in E. injection E as <-.
      eapply matched_ok; [exact D3|]. apply (i_ok I _ _ D1).
    + rewrite o1 in E by exact J. apply (i_ok I _ _ E).
Qed.

Lemma match_rel_mset x s s' ex : Inv s ex -> s_mset s = empty_set ->
  match_rel x (set_list (s_pset s)) s s' ->
  mset_ok mt x s' /\ set_nm (s_mset s') = sum_nums (s_heap s') (set_list (s_mset s')).
Proof.
  intros I E0 MR. pose proof MR as [n1 m1 w1 M1 i1 o1].
  destruct (owned_disj _ _ _ _ (i_nodup I)) as (ND & _).
  rewrite E0 in M1. cbn [empty_set set_list set_sz set_nm] in M1. rewrite app_nil_r, !Z.add_0_l in M1.
  pose proof (w1 PSET ltac:(discriminate)) as EP. cbn [get_set] in EP.
  split; [constructor|]; rewrite M1; cbn [set_list set_sz set_nm].
  - apply (Permutation_NoDup (l := filter (flagged (s_heap s')) (set_list (s_pset s)))); [apply Permutation_rev|].
    apply NoDup_filter, ND.
  - rewrite rev_length. reflexivity.
  - rewrite EP. intros l H. apply in_rev in H. apply filter_In in H. apply H.
  - intros l H. apply in_rev in H. apply filter_In in H. destruct H as (H & F).
    destruct (i1 l H) as (c & c' & D1 & D2 & D3). exists c'. split; [exact D2|].
    apply (ma_m _ _ _ D3). unfold flagged in F. rewrite D2 in F. exact F.
  - apply sum_nums_perm. apply Permutation_rev.
Qed.

(** ** clset_match *)
Definition match_stats (m_sz : Z) (cs : list (cl B)) (s : st B) : st B :=
  with_stats (s_error s)
    (fadd (s_mset_size s) (fmul (fsub (of_Z m_sz) (s_mset_size s)) (BETA K)))
    (s_aset_size s)
    (fadd (s_mfrac s) (fmul (fsub (clset_mfrac K cs) (s_mfrac s)) (BETA K))) s.

Definition needs_cover (cover : bool) (s : st B) : bool :=
  cover && ((1 <? n_actions K) || (set_sz (s_mset s) <? 1)).

Lemma match_spec x cover s ex : xok K dom x -> Inv s ex ->
  s_mset s = empty_set -> set_nm (s_pset s) <= POP_SIZE K ->
  hpost FO (clset_match V K x cover s) (fun _ s' => exists s1 s2 cs,
    match_rel x (set_list (s_pset s)) s s1 /\ Inv s1 ex /\
    mset_ok mt x s1 /\ set_nm (s_mset s1) = sum_nums (s_heap s1) (set_list (s_mset s1)) /\
    Inv s2 ex /\ set_nm (s_pset s2) <= POP_SIZE K /\ mset_ok mt x s2 /\ evolves V K mt x s1 s2 /\
    sum_nums (s_heap s2) (set_list (s_mset s2)) <= set_nm (s_mset s2) <= POP_SIZE K + n_actions K /\
    (needs_cover cover s1 = false -> s2 = s1) /\
    (needs_cover cover s1 = true -> covered_ K s2 /\ (covered_ K s1 -> s2 = s1)) /\
    map (s_heap s2) (set_list (s_pset s2)) = map Some cs /\
    s' = match_stats (set_sz (s_mset s2)) cs s2).
Proof.
  intros Lx I E0 PN. unfold clset_match. apply hp_bind_get.
  destruct (owned_disj _ _ _ _ (i_nodup I)) as (ND & _).
  eapply hp_bind; [apply (match_loop_spec x (set_list (s_pset s)) s Lx ND)|].
  { intros l H. destruct (s_heap s l) as [c|] eqn:E; [|exfalso; apply (inv_live_P I H), E].
    exists c. split; [reflexivity|]. apply (ro_body (i_ok I _ _ E)). }
  intros [] s1 MR. pose proof (match_rel_inv _ _ _ _ _ I MR) as I1.
  destruct (match_rel_mset x s s1 ex I E0 MR) as (Mo & Mn).
  pose proof (mr_sets _ _ _ _ MR PSET ltac:(discriminate)) as EP. cbn [get_set] in EP.
  assert (PN1 : set_nm (s_pset s1) <= POP_SIZE K) by (rewrite EP; exact PN).
  assert (NA := ok_n_actions _ _ CO).
  assert (Msum : sum_nums (s_heap s1) (set_list (s_mset s1)) <= set_nm (s_pset s1)).
  { rewrite (so_num (i_p I1)). apply sum_nums_incl; [apply Mo|apply Mo|].
    intros l H. pose proof (inv_num_pos I1 H). lia. }
  apply hp_bind_get. fold (needs_cover cover s1).
  eapply hp_bind with (P := fun _ s2 => Inv s2 ex /\ set_nm (s_pset s2) <= POP_SIZE K /\ mset_ok mt x s2 /\
    evolves V K mt x s1 s2 /\
    sum_nums (s_heap s2) (set_list (s_mset s2)) <= set_nm (s_mset s2) <= POP_SIZE K + n_actions K /\
    (needs_cover cover s1 = false -> s2 = s1) /\
    (needs_cover cover s1 = true -> covered_ K s2 /\ (covered_ K s1 -> s2 = s1))).
  { destruct (needs_cover cover s1) eqn:NC.
    - eapply hp_mono; [apply (cover_spec FO V K kf Nx wf mt CO VO HN x s1 ex Lx I1 PN1 Mo Mn)|].
      intros [] s2 (A1 & A2 & A3 & (A4 & A4') & A5 & A6). spl; try assumption; try discriminate; try apply A4'.
      intros _. auto.
    - apply hp_ret. spl; try assumption; try discriminate; try lia; auto. eapply evolves_refl, I1. }
  intros [] s2 (I2 & PN2 & Mo2 & EV & Mb & NC0 & NC1). apply hp_bind_get. apply hp_bind_get.
  destruct (pset_cs K kf Nx wf s2 ex I2) as (cs & Ecs & _).
  unfold mbind at 1. rewrite (get_all_eq _ _ _ Ecs). apply hp_mod.
  exists s1, s2, cs. spl; try assumption; try apply Mb; try (intros H; apply (NC1 H)).
  reflexivity.
Qed.

(** ** clset_action *)
Definition with_action (h : loc -> option (cl B)) (a : Z) (l : loc) : bool :=
  match h l with Some c => c_action c =? a | None => false end.

Lemma action_loop ls a (s : st B) : (forall l, In l ls -> s_heap s l <> None) ->
  miter (fun l => c <~ get l ;; if c_action c =? a then clset_add ASET l else mret tt) ls s =
  Ok (tt, with_set ASET (mkSet (rev (filter (with_action (s_heap s) a) ls) ++ set_list (s_aset s))
     (set_sz (s_aset s) + Z.of_nat (length (filter (with_action (s_heap s) a) ls)))
     (set_nm (s_aset s) + sum_nums (s_heap s) (filter (with_action (s_heap s) a) ls))) s).
Proof.
  revert s. induction ls as [|l r IH]; intros s L; cbn [miter filter].
  - unfold mret. do 2 f_equal. cbn [rev app length sum_nums]. rewrite !Z.add_0_r. destruct s as [? ? ? ? ? [] ]; reflexivity.
  - destruct (s_heap s l) as [c|] eqn:E; [|exfalso; apply (L l); [left; reflexivity|exact E]].
    unfold mbind at 1. unfold mbind at 1. rewrite (get_eq _ _ _ E). 
    assert (WA : with_action (s_heap s) a l = (c_action c =? a)) by (unfold with_action; rewrite E; reflexivity).
    rewrite WA.
    destruct (c_action c =? a).
    + unfold clset_add, mbind at 1. rewrite (get_eq _ _ _ E). cbn [mbind mget mmod]. unfold mbind, mget, mmod.
      rewrite IH by (sst; intros; apply L; right; assumption). sst.
      cbn [rev length sum_nums]. rewrite <- app_assoc. cbn [app]. rewrite (num_of_some _ _ _ E).
      match goal with |- Ok (tt, with_set ASET ?a _) = Ok (tt, with_set ASET ?b _) => replace a with b; [reflexivity|] end.
      f_equal; lia.
    + unfold mret. rewrite IH by (intros; apply L; right; assumption). reflexivity.
Qed.

Lemma action_eq a (s : st B) : (forall l, In l (set_list (s_mset s)) -> s_heap s l <> None) ->
  s_aset s = empty_set ->
  clset_action K a s =
    let ls := rev (filter (with_action (s_heap s) a) (set_list (s_mset s))) in
    let s1 := with_set ASET (exact_set (s_heap s) ls) s in
    Ok (tt, with_stats (s_error s) (s_mset_size s)
      (fadd (s_aset_size s) (fmul (fsub (of_Z (Z.of_nat (length ls))) (s_aset_size s)) (BETA K)))
      (s_mfrac s) s1).
Proof.
  intros L E. unfold clset_action. unfold mbind at 1. unfold mget at 1. cbv beta iota. unfold mbind at 1. rewrite action_loop by exact L. rewrite E.
  cbn [empty_set set_list set_sz set_nm]. rewrite app_nil_r, !Z.add_0_l. unfold mmod. sst. cbv zeta.
  unfold exact_set. rewrite rev_length.
  rewrite (sum_nums_perm _ (rev _) (filter (with_action (s_heap s) a) (set_list (s_mset s)))); [reflexivity|].
  symmetry. apply Permutation_rev.
Qed.
End Mset.
