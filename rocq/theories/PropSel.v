(** * Selection, the prediction array, action choice and the numerosity used in updates
      (C06, C08, C17, C18, C19), in the form the property theorems use. *)
From Coq Require Import ZArith Bool List Reals Lia Lra Permutation.
From Flocq Require Import Core BinarySingleNaN.
From Verif Require Import Outcome F64 F64Facts F64Bounds Rng RngFacts Pop PopSpec PopInv PopSel PopDel
  PopCover PopMatch PopMset PopUpdate PopEA PopPA PopTrial PopFit PopRL PopOps PopSeq.
Import ListNotations.
Open Scope Z_scope.

(** ** C08: the wheel. *)
Lemma C08_wheel_lemma (vs : list f64) : vs <> [] -> Forall fpos vs ->
  rpost False (p <- rand_uniform f0 (sum_list vs) ;; lift (spin_list p vs))%rng (fun i => (i < length vs)%nat /\
    exists p, rout (rand_uniform f0 (sum_list vs)) p /\ fgt p (cum vs i) = false /\ forall j, (j < i)%nat -> fgt p (cum vs j) = true).
Proof.
  intros NE F g.
  pose proof (spin_rpost False vs (fun _ i => ret i) (fun i => (i < length vs)%nat /\
    exists p, rout (rand_uniform f0 (sum_list vs)) p /\ fgt p (cum vs i) = false /\ forall j, (j < i)%nat -> fgt p (cum vs j) = true) NE F) as H.
  assert (H1 : forall p i, rout (rand_uniform f0 (sum_list vs)) p -> wins p vs i ->
    rpost False (ret i) (fun i => (i < length vs)%nat /\
    exists p, rout (rand_uniform f0 (sum_list vs)) p /\ fgt p (cum vs i) = false /\ forall j, (j < i)%nat -> fgt p (cum vs j) = true)).
  { intros p i R (W1 & W2 & W3). apply rp_ret. split; [exact W1|]. exists p. auto. }
  specialize (H H1 g). unfold bind in *. destruct (rand_uniform f0 (sum_list vs) g) as [(p, g1)| | |]; try exact H.
  unfold lift in *. destruct (spin_list p vs); exact H.
Qed.

Section S.
Context {B : Type} (FO : Prop) (V : vtab B) (K : cfg) (kf : Z) (wf : B -> Prop) (mt : B -> list f64 -> Prop)
  {dom : list f64 -> Prop}.
Hypothesis CO : cfg_ok K kf.
Hypothesis VO : vt_ok (dom := dom) FO V K wf mt.
Notation Inv N := (Inv K kf N wf).

Lemma C08_delete_lemma N (err : f64) (pnum : Z) (cs : list (cl B)) :
  cs <> [] -> Forall (rule_ok K kf N wf) cs -> Forall (fun c => 1 <= c_num c) cs ->
  rpost False (pset_roulette V K err pnum cs) (fun r => exists i, r = Some i /\ (i < length cs)%nat /\ wheel_choice V K err pnum cs i).
Proof.
  intros H1 H2 H3. eapply rp_mono; [apply (pset_roulette_rpost V K kf N wf CO False err pnum cs H1 H2 H3)|].
  intros r (i & -> & W). exists i. spl; [reflexivity|eapply wheel_choice_lt; exact W|exact W].
Qed.
Lemma C08_parent_lemma (ls : list loc) (cs : list (cl B)) : ls <> [] -> length ls = length cs -> Forall (fun c => fpos (c_fit c)) cs ->
  rpost False (ea_select_rw ls cs (total_fit cs)) (fun l => In l ls /\ wheel_parent ls cs l).
Proof.
  intros H1 H2 H3. eapply rp_mono; [apply (select_rw_rpost False ls cs H1 H2 H3)|].
  intros l W. split; [|exact W]. destruct W as (p & i & _ & _ & E). eapply nth_error_In, E.
Qed.

(** ** C06 *)
Lemma C06_lemma a (s : st B) : (forall l, In l (set_list (s_mset s)) -> s_heap s l <> None) -> s_aset s = empty_set ->
  exists s', clset_action K a s = Ok (tt, s') /\
    set_list (s_aset s') = rev (filter (with_action (s_heap s) a) (set_list (s_mset s))) /\
    (forall l, In l (set_list (s_aset s')) <-> In l (set_list (s_mset s)) /\ exists c, s_heap s l = Some c /\ c_action c = a) /\
    set_sz (s_aset s') = Z.of_nat (length (set_list (s_aset s'))) /\
    set_nm (s_aset s') = sum_nums (s_heap s) (set_list (s_aset s')) /\
    s_heap s' = s_heap s /\ s_next s' = s_next s /\ s_rng s' = s_rng s /\ (forall w, w <> ASET -> get_set w s' = get_set w s) /\
    misc s' = misc (with_stats (s_error s) (s_mset_size s)
      (fadd (s_aset_size s) (fmul (fsub (of_Z (Z.of_nat (length (set_list (s_aset s'))))) (s_aset_size s)) (BETA K))) (s_mfrac s) s).
Proof.
  intros L E. rewrite (action_eq K a s L E). eexists. split; [reflexivity|]. sst. unfold exact_set. sst. spl; try reflexivity.
  - intros l. rewrite <- in_rev, filter_In. unfold with_action. split; intros (H1 & H2); (split; [exact H1|]).
    + destruct (s_heap s l) as [c|]; [exists c; split; [reflexivity|lia]|discriminate].
    + destruct H2 as (c & -> & ->). lia.
  - intros w Hw. destruct w; try reflexivity. congruence.
Qed.

(** ** C17 *)
Lemma matching_exact x cv s s' : s_mset s = empty_set -> matching V K wf mt x cv s s' ->
  s_next s' = s_next s -> set_nm (s_mset s') = sum_nums (s_heap s') (set_list (s_mset s')).
Proof.
  intros E (s1 & s2 & cs & MR & _ & _ & _ & _ & SAME & _ & ->) HN.
  change (s_next (match_stats K (set_sz (s_mset s2)) cs s2)) with (s_next s2) in HN.
  change (set_nm (s_mset s2) = sum_nums (s_heap s2) (set_list (s_mset s2))).
  rewrite SAME by (rewrite (mr_next _ _ _ _ _ _ _ _ MR); exact HN).
  rewrite (mr_m _ _ _ _ _ _ _ _ MR), E. cbn [set_list set_nm empty_set]. rewrite app_nil_r.
  rewrite (sum_nums_perm _ _ _ (Permutation_sym (Permutation_rev _))). lia.
Qed.
Lemma C17_match_lemma N x cv s ex : 0 <= N -> xok K dom x -> Inv N s ex -> s_mset s = empty_set -> set_nm (s_pset s) <= POP_SIZE K ->
  hpost FO (clset_match V K x cv s) (fun _ s' =>
    sum_nums (s_heap s') (set_list (s_mset s')) <= set_nm (s_mset s') /\
    (s_next s' = s_next s -> set_nm (s_mset s') = sum_nums (s_heap s') (set_list (s_mset s')))).
Proof.
  intros N0 Lx I E P. eapply hp_mono; [apply (matching_spec FO V K kf wf mt CO VO N x cv s ex N0 Lx I E P)|].
  intros [] s' (MA & I' & _ & _ & (LE & _) & _). split; [exact LE|]. intros HN. eapply matching_exact; eassumption.
Qed.
(** A supervised training trial: [s1] is the state in which the match set is updated (the sizes
    with set_nm (s_mset s1)); no rule having been created, this is the exact numerosity. *)
Lemma C17_trial_lemma N x y s : 0 <= N -> (ea_tournament K = true -> FO) -> Good K kf N wf s -> xok K dom x -> s_explore s = true ->
  Z.of_nat (length y) = y_dim K -> N + 1 <= 2 ^ 53 ->
  hpost FO (supervised_trial V K x y None s) (fun _ s' => exists s1 a cs b c s2,
    update_steps V K wf MSET x y true s1 a cs b c /\ ea_rel V K wf MSET c s2 /\ finished s2 s' /\
    (s_next s1 = s_next s -> set_nm (s_mset s1) = sum_nums (s_heap s1) (set_list (s_mset s1)))).
Proof.
  intros N0 HT G Lx EX Ly B53.
  eapply hp_mono; [apply (supervised_trial_spec FO V K kf wf mt CO VO HT N x y None s N0 G Lx); [auto|discriminate]|].
  intros [] s' ((s1 & s2 & s3 & MA & PR & LE & FI) & _). rewrite EX in LE. destruct LE as (a & cs & b & c & US & ER).
  cbn [answer] in PR. destruct (pa_frame V K wf _ _ _ PR) as (X2 & G2 & M2).
  exists s2, a, cs, b, c, s3. spl; try assumption. intros HN.
  pose proof (G2 MSET) as EM. cbn [get_set] in EM. rewrite EM, (pa_rel_sum V K wf _ _ _ PR).
  apply (matching_exact x true (start s)); [reflexivity|exact MA|]. change (s_next s1 = s_next s). congruence.
Qed.
(** Reinforcement learning: the sets are cleaned immediately before they are updated. *)
Lemma C17_improve_lemma w x y cur (s s' : st B) : improve V K wf w x y cur s s' -> exists s1 a cs b c,
  update_steps V K wf w x y cur s1 a cs b c /\ (if s_explore s then ea_rel V K wf w c s' else s' = c) /\
  set_nm (get_set w s1) = sum_nums (s_heap s1) (set_list (get_set w s1)) /\
  set_list (get_set w s1) = filter (fun l => negb (num_of (s_heap s) l =? 0)) (set_list (get_set w s)) /\ s_heap s1 = s_heap s.
Proof.
  intros (a & cs & b & c & U & E). exists (validated w s), a, cs, b, c. unfold validated in *. rewrite get_with_eq.
  spl; try assumption; try reflexivity.
  all: try (destruct w; reflexivity).
Qed.
Lemma C17_rl_lemma N state a reward done s : y_dim K = 1 -> vla0_is_ub K = false -> (ea_tournament K = true -> FO) ->
  0 <= N -> N + 2 <= 2 ^ 53 -> Inv N s [] -> act_ok s (s_mset s) ->
  sub_ok s (s_prev_aset s) -> s_aset s = empty_set -> set_nm (s_pset s) <= POP_SIZE K ->
  xok K dom state -> (set_list (s_prev_aset s) <> [] -> xok K dom (s_prev_state s)) -> Z.of_nat (length (s_pa s)) = n_actions K ->
  hpost FO (rl_update V K state a reward done s) (fun _ s' => exists s2,
    (set_list (s_prev_aset s) <> [] -> exists t s1 u cs b c,
       update_steps V K wf PREV_ASET (s_prev_state s) [t] false s1 u cs b c /\ (if s_explore s then ea_rel V K wf PREV_ASET c s2 else s2 = c) /\
       set_nm (s_prev_aset s1) = sum_nums (s_heap s1) (set_list (s_prev_aset s1))) /\
    (done = true -> exists s1 u cs b c,
       update_steps V K wf ASET state [reward] true s1 u cs b c /\ (if s_explore s2 then ea_rel V K wf ASET c s' else s' = c) /\
       set_nm (s_aset s1) = sum_nums (s_heap s1) (set_list (s_aset s1)))).
Proof.
  intros Y1 HV HT N0 N2 I AO SO EA PN Lx Lp LP.
  eapply hp_mono; [apply (rl_update_spec FO V K kf wf mt CO VO HT Y1 HV N); assumption|].
  intros [] s' ((s2 & U0 & U1 & U2) & _). exists s2. split.
  - intros NE. destruct (U1 NE) as (best & _ & IM). destruct (C17_improve_lemma _ _ _ _ _ _ IM) as (s1 & u & cs & b & c & A1 & A2 & A3 & _).
    exists (fadd (s_prev_reward s) (fmul (GAMMA K) best)), s1, u, cs, b, c. auto.
  - intros ->. destruct (C17_improve_lemma _ _ _ _ _ _ U2) as (s1 & u & cs & b & c & A1 & A2 & A3 & _).
    exists s1, u, cs, b, c. auto.
Qed.

(** ** C18 *)
Lemma C18_lemma N x s ex : xok K dom x -> Inv N s ex -> act_ok s (s_mset s) ->
  hpost FO (pa_build V K x s) (fun _ s' => exists cs,
    map (s_heap s') (set_list (s_mset s)) = map Some cs /\
    Z.of_nat (length (s_pa s')) = n_actions K * y_dim K /\ Z.of_nat (length (s_nr s')) = n_actions K * y_dim K /\
    (forall a j, 0 <= a < n_actions K -> 0 <= j < y_dim K ->
       let adv := filter (fun c => c_action c =? a) cs in
       let num := fold_left (fun z c => fadd z (fmul (nth (Z.to_nat j) (c_prediction c) f0) (c_fit c))) adv f0 in
       let den := fold_left (fun z c => fadd z (c_fit c)) adv f0 in
       nth (Z.to_nat (a * y_dim K + j)) (s_nr s') f0 = den /\
       nth (Z.to_nat (a * y_dim K + j)) (s_pa s') f0 = if feq den f0 then f0 else fdiv num den) /\
    (forall l, In l (set_list (s_mset s)) -> exists c c', s_heap s l = Some c /\ s_heap s' l = Some c' /\ predicted V K wf x c c') /\
    (forall l, ~ In l (set_list (s_mset s)) -> s_heap s' l = s_heap s l) /\
    (forall w, get_set w s' = get_set w s) /\ s_next s' = s_next s /\ misc s' = misc (with_pa (s_pa s') (s_nr s') s)).
Proof.
  intros Lx I AO. eapply hp_mono; [apply (pa_build_spec FO V K kf N wf mt CO VO x s ex Lx I AO)|].
  intros [] s' (PR & _). destruct (pa_frame V K wf _ _ _ PR) as (X2 & G2 & M2).
  destruct PR as (s1 & cs & pa & nr & (h' & g & -> & TI & TO) & Ecs & PO & ->). exists cs. sst. spl; try assumption.
  - apply (pk_len _ _ _ _ PO).
  - apply (pk_nlen _ _ _ _ PO).
  - intros a j Ha Hj. cbv zeta.
    assert (EN : forall z, pa_num cs a j z = fold_left (fun z c => fadd z (fmul (nth (Z.to_nat j) (c_prediction c) f0) (c_fit c))) (filter (fun c => c_action c =? a) cs) z).
    { clear. unfold pa_num. induction cs as [|c r IH]; intros z; [reflexivity|]. cbn [fold_left filter]. destruct (c_action c =? a); cbn [fold_left]; apply IH. }
    assert (ED : forall z, pa_den cs a z = fold_left (fun z c => fadd z (c_fit c)) (filter (fun c => c_action c =? a) cs) z).
    { clear. unfold pa_den. induction cs as [|c r IH]; intros z; [reflexivity|]. cbn [fold_left filter]. destruct (c_action c =? a); cbn [fold_left]; apply IH. }
    rewrite <- EN, <- ED. split; [apply (pk_nr _ _ _ _ PO)|apply (pk_pa _ _ _ _ PO)]; assumption.
Qed.

(** ** C19 *)
Lemma den_advocated (cs : list (cl B)) a : feq (pa_den cs a f0) f0 = false -> exists c, In c cs /\ c_action c = a.
Proof.
  assert (H : forall (cs : list (cl B)) z, (forall c, In c cs -> c_action c <> a) -> pa_den cs a z = z).
  { induction cs0 as [|c r IH]; intros z H; [reflexivity|]. cbn. destruct (Z.eqb_spec (c_action c) a) as [E|_].
    - exfalso. apply (H c); [left; reflexivity|exact E].
    - apply IH. intros d Hd. apply H. right. exact Hd. }
  intros F. destruct (existsb (fun c => c_action c =? a) cs) eqn:E.
  - apply existsb_exists in E. destruct E as (c & Ic & Ec). exists c. split; [exact Ic|lia].
  - rewrite H in F; [vm_compute in F; discriminate|]. intros c Ic Ec.
    assert (existsb (fun c => c_action c =? a) cs = true) by (apply existsb_exists; exists c; split; [exact Ic|lia]). congruence.
Qed.
Lemma C19_decision_lemma N x s : FO -> y_dim K = 1 -> 0 <= N -> xok K dom x -> Inv N s [] ->
  s_mset s = empty_set -> set_nm (s_pset s) <= POP_SIZE K ->
  hpost FO (rl_decision V K x s) (fun a s' => 0 <= a < n_actions K /\ Z.of_nat (length (s_pa s')) = n_actions K /\
    let best := forall b, 0 <= b < n_actions K -> fgt (nth (Z.to_nat b) (s_pa s') f0) (nth (Z.to_nat a) (s_pa s') f0) = false in
    let represented := exists l c, In l (set_list (s_mset s')) /\ s_heap s' l = Some c /\ c_action c = a in
    (s_explore s = false -> best) /\
    (s_explore s = true -> exists u, rout (rand_uniform f0 f1) u /\
       (flt u (P_EXPLORE K) = true -> represented) /\ (flt u (P_EXPLORE K) = false -> best))).
Proof.
  intros HF Y1 N0 Lx I E PN.
  eapply hp_mono; [apply (decision_spec FO V K kf wf mt CO VO Y1 N x s HF N0 Lx I E PN)|].
  intros a s' ((s1 & s2 & g & MA & PR & -> & D1 & D2) & Ha & _ & _ & _ & _ & LP & _). split; [exact Ha|]. split; [exact LP|]. cbv zeta. split.
  - intros X. destruct (D1 X) as (_ & H). exact H.
  - intros X. destruct (D2 X) as (u & Ru & H1 & H2). exists u. spl; [exact Ru| |intros U; apply (H2 U)].
    intros U. destruct (H1 U) as (_ & NZ). destruct PR as (s1' & cs & pa & nr & (h' & g' & -> & _ & _) & Ecs & PO & ->). sst.
    pose proof (pk_nr _ _ _ _ PO a 0 Ha ltac:(lia)) as EN. rewrite Y1 in EN. replace (a * 1 + 0) with a in EN by lia.
    unfold vals_at in NZ. rewrite EN in NZ. destruct (den_advocated _ _ NZ) as (c & Ic & Ea).
    destruct (map_heap_in _ _ _ _ Ecs Ic) as (l & Il & El). exists l, c. auto.
Qed.
End S.
(** ** C07 with the choice and the effect spelt out. *)
Lemma C07_full_lemma {B : Type} (FO : Prop) (V : vtab B) (K : cfg) (kf : Z) (wf : B -> Prop) : cfg_ok K kf ->
  forall N (s : st B) (ex : list loc), Inv K kf N wf s ex -> set_list (s_pset s) <> [] ->
  hpost FO (clset_pset_del V K s) (fun _ s' => exists i l c cs,
    let never c := (c_mtotal c =? 0) && (M_PROBATION K <? c_age c) in
    map (s_heap s) (set_list (s_pset s)) = map Some cs /\
    nth_error (set_list (s_pset s)) i = Some l /\ s_heap s l = Some c /\
    (existsb never cs = true -> never c = true /\ forall j d, (j < i)%nat -> nth_error cs j = Some d -> never d = false) /\
    (existsb never cs = false -> wheel_choice V K (s_error s) (set_nm (s_pset s)) cs i) /\
    s_heap s' l = Some (set_num (c_num c - 1) c) /\ (forall l', l' <> l -> s_heap s' l' = s_heap s l') /\
    set_list (s_pset s') = (if c_num c =? 1 then filter (fun l' => negb (Nat.eqb l' l)) (set_list (s_pset s)) else set_list (s_pset s)) /\
    set_sz (s_pset s') = (if c_num c =? 1 then set_sz (s_pset s) - 1 else set_sz (s_pset s)) /\
    set_nm (s_pset s') = set_nm (s_pset s) - 1 /\
    set_list (s_kset s') = (if c_num c =? 1 then l :: set_list (s_kset s) else set_list (s_kset s)) /\
    (forall w, w <> PSET -> w <> KSET -> get_set w s' = get_set w s) /\ s_next s' = s_next s /\ misc s' = misc s).
Proof.
  intros CO N s ex I NE. eapply hp_mono; [apply (pset_del_spec FO V K kf N wf CO s ex I NE)|].
  intros [] s' (i & l & c & (cs & Ecs & CH) & D).
  exists i, l, c, cs. cbv zeta.
  destruct D as [d1 d2 d3 d4 d5 d6 d7 d8].
  assert (ND : NoDup (set_list (s_pset s))).
  { pose proof (i_nodup I) as ND. unfold owned in ND. apply NoDup_app_iff in ND. tauto. }
  destruct (map_heap_nth _ _ _ _ _ Ecs d1) as (c' & En & Ec'). rewrite d2 in Ec'. injection Ec' as <-.
  spl; try assumption.
  - intros H. destruct CH as [(c0 & E0 & U & F)|(F & W)].
    + rewrite En in E0. injection E0 as <-. split; [exact U|exact F].
    + exfalso. apply existsb_exists in H. destruct H as (d & Id & Hd). rewrite Forall_forall in F. specialize (F d Id).
      unfold unmatched in F. congruence.
  - intros H. destruct CH as [(c0 & E0 & U & F)|(F & W)]; [exfalso|exact W].
    assert (existsb (fun c => (c_mtotal c =? 0) && (M_PROBATION K <? c_age c)) cs = true).
    { apply existsb_exists. exists c0. split; [eapply nth_error_In; eassumption|exact U]. }
    congruence.
  - rewrite d3. unfold upd. rewrite Nat.eqb_refl. reflexivity.
  - intros l' Hl. rewrite d3. unfold upd. destruct (Nat.eqb_spec l' l); [contradiction|]. reflexivity.
  - rewrite d7. destruct (c_num c =? 1); [|reflexivity]. cbn [set_list]. apply remove_nth_filter; assumption.
  - rewrite d7. destruct (c_num c =? 1); reflexivity.
  - rewrite d7. destruct (c_num c =? 1); reflexivity.
  - rewrite d8. destruct (c_num c =? 1); reflexivity.
Qed.

(** Redrawing until the fitness sum of the action is not zero never ends if all are zero. *)
Lemma C19_loops_lemma (K : cfg) fuel (nr : list f64) : 1 <= n_actions K <= int_max -> n_actions K <= Z.of_nat (length nr) ->
  (forall a, 0 <= a < n_actions K -> feq (nth (Z.to_nat a) nr f0) f0 = true) ->
  forall g, pa_rand_action K fuel nr g = OutOfFuel.
Proof.
  intros HN HL HZ. induction fuel as [|n IH]; intros g; [reflexivity|]. cbn [pa_rand_action]. unfold bind.
  pose proof (rp_uniform_int False (n_actions K) ltac:(lia) g) as H.
  destruct (rand_uniform_int 0 (n_actions K) g) as [(a, g1)| | |] eqn:Eg; try contradiction.
  - cbn in H. destruct (Z.ltb_spec a 0); [lia|].
    assert (LT : (Z.to_nat a < length nr)%nat) by lia.
    destruct (nth_error nr (Z.to_nat a)) as [v|] eqn:En; [|apply nth_error_None in En; lia].
    specialize (HZ a ltac:(lia)). rewrite (nth_error_nth nr _ f0 En) in HZ. rewrite HZ. apply IH.
  - exfalso. clear -Eg. unfold rand_uniform_int, bind, rand_uniform, genrand, ret, rub in Eg. destruct g; cbn in Eg. destruct (to_int _); discriminate.
Qed.
