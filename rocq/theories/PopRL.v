(** * Reinforcement-learning trials. *)
From Coq Require Import ZArith Bool List Lia Permutation.
From Flocq Require Import Core BinarySingleNaN.
From Verif Require Import Outcome F64 F64Facts F64Bounds Rng RngFacts Pop PopSpec PopInv PopSel PopDel
  PopCover PopMatch PopMset PopUpdate PopEA PopPA PopTrial PopFit.
Import ListNotations.
Open Scope Z_scope.

Arguments env_reset {E} _ _.
Arguments env_get_state {E} _ _.
Arguments env_execute {E} _ _ _.
Arguments env_is_done {E} _ _.
Arguments env_max_payoff {E} _ _.
Arguments env_multistep {E} _.

Section RL.
Context {B : Type} (FO : Prop) (V : vtab B) (K : cfg) (kf : Z) (wf : B -> Prop) (mt : B -> list f64 -> Prop).
Hypothesis CO : cfg_ok K kf.
Context {dom : list f64 -> Prop}.
Hypothesis VO : vt_ok (dom := dom) FO V K wf mt.
Hypothesis HT : ea_tournament K = true -> FO.
(** The reward is a single number, so the system has one output. *)
Hypothesis Y1 : y_dim K = 1.
(** The action set may be emptied by deletion; a zero-length array is then declared
    (clset.c:207), which is only harmless if the compiler allows it. *)
Hypothesis HV : vla0_is_ub K = false.
Notation Inv N := (Inv K kf N wf).
Notation Good N := (Good K kf N wf).

(** ** Rules never leave population and kill set during a trial. *)
Definition keeps (s s' : st B) : Prop := forall l,
  In l (set_list (s_pset s)) \/ In l (set_list (s_kset s)) -> In l (set_list (s_pset s')) \/ In l (set_list (s_kset s')).
Lemma keeps_trans s1 s2 s3 : keeps s1 s2 -> keeps s2 s3 -> keeps s1 s3.
Proof. intros A C l H. apply C, A, H. Qed.
Lemma live_keeps N N' s s' : Inv N s [] -> Inv N' s' [] -> s_prev_pset s' = s_prev_pset s ->
  (forall l, In l (set_list (s_pset s)) \/ In l (set_list (s_kset s)) -> s_heap s' l <> None) -> keeps s s'.
Proof.
  intros I I' E H l Hl. pose proof (H l Hl) as L. apply (i_live I') in L. unfold owned in L. rewrite E in L.
  rewrite !in_app_iff in L. destruct L as [L|[L|[L|[]]]]; auto.
  exfalso. destruct (owned_disj _ _ _ _ (i_nodup I)) as (_ & _ & _ & _ & D1 & D2 & D3).
  destruct Hl as [Hl|Hl]; [exact (proj1 (proj2 (D1 l Hl)) L)|exact (proj1 (D2 l Hl) L)].
Qed.
Lemma sub_keeps s s' C : keeps s s' -> sub_ok s C -> sub_ok s' C.
Proof. intros A (S1 & S2 & S3). split; [exact S1|split; [exact S2|]]. intros l Hl. apply A, S3, Hl. Qed.
Lemma act_sub (s : st B) C : act_ok s C -> sub_ok s C.
Proof. intros (S1 & S2 & S3). split; [exact S1|split; [exact S2|]]. intros l Hl. left. apply S3, Hl. Qed.
Lemma sub_empty (s : st B) : sub_ok s empty_set.
Proof. split; [constructor|split; [reflexivity|intros l []]]. Qed.
Lemma inv_live_PK N s ex l : Inv N s ex -> In l (set_list (s_pset s)) \/ In l (set_list (s_kset s)) -> s_heap s l <> None.
Proof. intros I [H|H]; [apply (inv_live_P I H)|apply (inv_live_K I H)]. Qed.

Lemma touches_live R ls (s s' : st B) l : touches_all R ls s s' -> s_heap s l <> None -> s_heap s' l <> None.
Proof.
  intros (h' & g & -> & A & C) H. sst. destruct (in_dec Nat.eq_dec l ls) as [I|I].
  - destruct (A l I) as (c & c' & _ & -> & _). discriminate.
  - rewrite (C l I). exact H.
Qed.
Lemma update_live w x y cur s a cs b s' l : update_steps V K wf w x y cur s a cs b s' -> s_heap s l <> None -> s_heap s' l <> None.
Proof.
  intros (T1 & _ & T2 & H) L. assert (L2 : s_heap b l <> None) by (eapply touches_live; [exact T2|]; eapply touches_live; eassumption).
  destruct (SET_SUBSUMPTION K).
  - destruct H as [_ -> |sub c _ _ -> |sub c D sa _ _ _ A ->]; try exact L2.
    replace (s_heap _) with (s_heap sa) by (destruct w; reflexivity).
    rewrite (ab_heap _ _ _ _ A). destruct (s_heap b l); [discriminate|congruence].
  - subst s'. exact L2.
Qed.
Lemma ea_live N w s s' l : Inv N s [] -> ea_rel V K wf w s s' -> In l (set_list (s_pset s)) \/ In l (set_list (s_kset s)) -> s_heap s' l <> None.
Proof.
  intros I E H. pose proof (inv_live_PK _ _ _ _ I H) as L.
  destruct E as [_ -> |cs _ _ _ -> |cs cs1 p q g s1 s2 _ _ _ T _ _ _ _ G _ _ SH _ _]; try exact L.
  destruct (touches_all_pset _ _ _ _ T) as (M1 & X1 & G1).
  assert (P1 : s_pset s1 = s_pset s) by (apply (G1 PSET)). assert (K1 : s_kset s1 = s_kset s) by (apply (G1 KSET)).
  assert (L1 : s_heap s1 l <> None) by (eapply touches_live; [exact T|exact L]).
  assert (L2 : s_heap s2 l <> None).
  { destruct H as [H|H].
    - destruct (gr_old _ _ G l) as (E & _); [sst; rewrite P1; exact H|]. rewrite E. sst. destruct (s_heap s1 l); [discriminate|congruence].
    - rewrite (gr_out _ _ G l); [exact L1| |left; sst; rewrite K1; exact H]. sst. rewrite X1. apply (i_next I), L. }
  rewrite (sh_heap _ _ SH). destruct (s_heap s2 l); [discriminate|congruence].
Qed.
Lemma matching_live N x cv s s' l : Inv N s [] -> matching V K wf mt x cv s s' -> s_heap s l <> None -> s_heap s' l <> None.
Proof.
  intros I (s1 & s2 & cs & MR & _ & _ & EV & _ & _ & _ & ->) L. change (s_heap s2 l <> None).
  assert (L1 : s_heap s1 l <> None).
  { destruct (in_dec Nat.eq_dec l (set_list (s_pset s))) as [H|H].
    - destruct (mr_in _ _ _ _ _ _ _ _ MR l H) as (c & c' & _ & -> & _). discriminate.
    - rewrite (mr_out _ _ _ _ _ _ _ _ MR l H). exact L. }
  rewrite (ev_old _ _ _ _ _ _ EV l).
  - destruct (s_heap s1 l); [discriminate|congruence].
  - rewrite (mr_next _ _ _ _ _ _ _ _ MR). apply (i_next I), L.
Qed.

(** ** Updating a set of surviving rules. *)
Definition validated (w : sel) (s : st B) : st B :=
  with_set w (exact_set (s_heap s) (alive (s_heap s) (set_list (get_set w s)))) s.
Definition improve (w : sel) (x y : list f64) (cur : bool) (s s' : st B) : Prop :=
  exists a cs b c, update_steps V K wf w x y cur (validated w s) a cs b c /\
    if s_explore s then ea_rel V K wf w c s' else s' = c.

Lemma alive_act N s C : Inv N s [] -> sub_ok s C -> act_ok s (exact_set (s_heap s) (alive (s_heap s) (set_list C))).
Proof.
  intros I (S1 & S2 & S3). unfold act_ok, exact_set. cbn [set_list set_sz set_nm]. split; [|split; [reflexivity|]].
  - apply NoDup_filter, S1.
  - intros l Hl. unfold alive in Hl. apply filter_In in Hl. destruct Hl as (Hl & A).
    destruct (S3 l Hl) as [H|H]; [exact H|]. destruct (i_k I) as (_ & _ & KZ). rewrite (KZ l H) in A. discriminate.
Qed.
Lemma alive_nm N s C : Inv N s [] -> sub_ok s C -> set_nm (s_pset s) <= POP_SIZE K ->
  let E := exact_set (s_heap s) (alive (s_heap s) (set_list C)) in
  set_list E <> [] -> 1 <= set_nm E <= POP_SIZE K.
Proof.
  intros I SO PN E NE. destruct (alive_act N s C I SO) as (A1 & _ & A3). fold E in A1, A3.
  assert (L : Z.of_nat (length (set_list E)) <= sum_nums (s_heap s) (set_list E)).
  { apply sum_nums_len. intros l Hl. apply (inv_num_pos I (A3 l Hl)). }
  assert (U : sum_nums (s_heap s) (set_list E) <= sum_nums (s_heap s) (set_list (s_pset s))).
  { apply sum_nums_incl; [exact A1|exact A3|]. intros l Hl. pose proof (inv_num_pos I Hl). lia. }
  rewrite <- (so_num (i_p I)) in U. change (set_nm E) with (sum_nums (s_heap s) (set_list E)).
  destruct (set_list E); [congruence|]. cbn [length] in L. lia.
Qed.

Lemma Inv_validated N w s ex : w <> PSET -> w <> KSET -> w <> PREV_PSET -> Inv N s ex -> Inv N (validated w s) ex.
Proof. intros W1 W2 W3 I. destruct w; try congruence; exact I. Qed.

Lemma improve_spec N w x y cur s : 0 <= N -> N + 1 <= 2 ^ 53 -> Inv N s [] -> sub_ok s (get_set w s) ->
  w <> PSET -> w <> KSET -> w <> PREV_PSET -> set_nm (s_pset s) <= POP_SIZE K ->
  xok K dom x -> Z.of_nat (length y) = 1 ->
  hpost FO ((clset_validate w ;;; clset_update V K w x y cur ;;; (ex <~ mget s_explore ;; if ex : bool then ea V K w else mret tt)) s)
    (fun _ s' => improve w x y cur s s' /\ Inv (N + 1) s' [] /\ set_nm (s_pset s') <= POP_SIZE K /\ keeps s s' /\
       (forall v, v <> PSET -> v <> KSET -> v <> w -> get_set v s' = get_set v s) /\
       misc s' = misc (if s_explore s then tick s else s) /\ sub_ok s' (get_set w s')).
Proof.
  intros N0 N1 I SO W1 W2 W3 PN Lx Ly. assert (PK := ok_pop _ _ CO). unfold int_max in PK.
  assert (LV : forall l, In l (set_list (get_set w s)) -> s_heap s l <> None).
  { intros l Hl. destruct SO as (_ & _ & SUB). apply (inv_live_PK N s [] l I), SUB, Hl. }
  unfold mbind at 1. rewrite validate_eq by exact LV. fold (validated w s).
  pose proof (Inv_validated N w s [] W1 W2 W3 I) as I0.
  assert (GW : get_set w (validated w s) = exact_set (s_heap s) (alive (s_heap s) (set_list (get_set w s)))) by (destruct w; reflexivity).
  assert (HP : s_heap (validated w s) = s_heap s) by (destruct w; reflexivity).
  assert (GV : forall v, v <> w -> get_set v (validated w s) = get_set v s) by (intros v D; unfold validated; rewrite get_with_ne by congruence; reflexivity).
  assert (PP : s_pset (validated w s) = s_pset s) by (apply (GV PSET); congruence).
  assert (KK : s_kset (validated w s) = s_kset s) by (apply (GV KSET); congruence).
  assert (MV : misc (validated w s) = misc s) by (destruct w; reflexivity).
  assert (AO : act_ok (validated w s) (get_set w (validated w s))).
  { rewrite GW. destruct (alive_act N s _ I SO) as (A1 & A2 & A3). unfold act_ok. rewrite PP. auto. }
  eapply hp_bind; [apply (clset_update_spec FO V K kf wf mt CO VO N w x y cur (validated w s) []); try assumption|].
  - rewrite GW. intros NE. pose proof (alive_nm N s _ I SO PN NE). lia.
  - congruence.
  - rewrite PP. lia.
  - rewrite Y1. exact Ly.
  - intros [] s1 ((a & cs & b & ST & _) & I1 & AO1 & NM1). rewrite PP in NM1.
    destruct (update_frame _ _ _ _ _ _ _ _ _ _ _ _ W1 ST) as (M1 & X1 & G1). rewrite MV in M1.
    assert (K1 : keeps s s1).
    { apply (live_keeps N (N + 1)); try assumption.
      - pose proof (G1 PREV_PSET ltac:(discriminate) ltac:(discriminate) ltac:(congruence)) as E.
        rewrite GV in E by congruence. exact E.
      - intros l Hl. eapply update_live; [exact ST|]. rewrite HP. apply (inv_live_PK N s [] l I Hl). }
    apply hp_bind_get. assert (EX : s_explore s1 = s_explore s) by (unfold misc in M1; congruence). rewrite EX.
    destruct (s_explore s) eqn:EE.
    + assert (PL : set_sz (get_set w s1) <= int_max).
      { destruct AO1 as (ND & -> & SUB). unfold int_max. transitivity (set_nm (s_pset s1)); [|lia].
        transitivity (sum_nums (s_heap s1) (set_list (get_set w s1))).
        - apply sum_nums_len. intros l Hl. apply (inv_num_pos I1 (SUB _ Hl)).
        - rewrite (so_num (i_p I1)). apply sum_nums_incl; [exact ND|exact SUB|]. intros l Hl. pose proof (inv_num_pos I1 Hl). lia. }
      eapply hp_mono; [apply (ea_spec FO V K kf (N + 1) wf mt CO VO ltac:(lia) w s1 [] HT I1 AO1 W1 PL)|].
      intros [] s' (E & I'). destruct (ea_frame _ _ _ _ _ _ E) as (M2 & G2).
      assert (K2 : keeps s1 s').
      { apply (live_keeps (N + 1) (N + 1)); try assumption.
        - apply (G2 PREV_PSET); discriminate.
        - intros l Hl. exact (ea_live (N + 1) w s1 s' l I1 E Hl). }
      spl.
      * exists a, cs, b, s1. split; [exact ST|]. rewrite EE. exact E.
      * exact I'.
      * apply (ea_limit _ _ _ _ _ _ E). lia.
      * eapply keeps_trans; eassumption.
      * intros v D1 D2 D3. rewrite (G2 v D1 D2), (G1 v D1 D2 D3). apply GV, D3.
      * rewrite M2. unfold misc, tick in *. sst. congruence.
      * rewrite (G2 w W1 W2). apply (sub_keeps s1 s' _ K2). apply act_sub, AO1.
    + apply hp_ret. spl.
      * exists a, cs, b, s1. split; [exact ST|]. rewrite EE. reflexivity.
      * exact I1.
      * lia.
      * exact K1.
      * intros v D1 D2 D3. rewrite G1 by assumption. apply GV, D3.
      * exact M1.
      * apply act_sub, AO1.
Qed.

(** ** Choosing an action. *)
Definition is_best (pa : list f64) (a : Z) : Prop :=
  0 <= a < n_actions K /\ forall b, 0 <= b < n_actions K -> fgt (vals_at pa b) (vals_at pa a) = false.
Definition is_present (nr : list f64) (a : Z) : Prop := 0 <= a < n_actions K /\ feq (vals_at nr a) f0 = false.
Definition decides (x : list f64) (a : Z) (s s' : st B) : Prop := exists s1 s2 g,
  matching V K wf mt x true s s1 /\ pa_rel V K wf x s1 s2 /\ s' = with_rng g s2 /\
  (s_explore s = false -> is_best (s_pa s') a) /\
  (s_explore s = true -> exists u, rout (rand_uniform f0 f1) u /\
     (flt u (P_EXPLORE K) = true -> is_present (s_nr s') a) /\ (flt u (P_EXPLORE K) = false -> is_best (s_pa s') a)).

Lemma pa_size_1 cs pa nr : pa_ok (B:=B) K cs pa nr -> Z.of_nat (length pa) = n_actions K /\ Z.of_nat (length nr) = n_actions K.
Proof. intros [A1 A2 _ _]. rewrite Y1 in *. lia. Qed.

Lemma pa_rel_sum x s s' : pa_rel V K wf x s s' -> sum_nums (s_heap s') (set_list (s_mset s)) = sum_nums (s_heap s) (set_list (s_mset s)).
Proof.
  intros (s1' & cs & pa & nr & T & _ & _ & ->). apply sum_nums_ext. intros l Hl. sst.
  destruct T as (h' & g & -> & A & _). sst. destruct (A l Hl) as (c & c' & E1 & E2 & (b & p & -> & _)).
  unfold num_of. rewrite E1, E2. reflexivity.
Qed.

(** Matching with covering and building the prediction array, as in rl_fit and rl_decision. *)
Lemma see_spec {C} N x s (k : M B C) (Q : C -> st B -> Prop) : 0 <= N -> xok K dom x -> Inv N s [] ->
  s_mset s = empty_set -> set_nm (s_pset s) <= POP_SIZE K ->
  (forall s1 s2, matching V K wf mt x true s s1 -> pa_rel V K wf x s1 s2 -> Inv N s2 [] -> set_nm (s_pset s2) <= POP_SIZE K ->
     act_ok s2 (s_mset s2) -> keeps s s2 -> Z.of_nat (length (s_pa s2)) = n_actions K -> Z.of_nat (length (s_nr s2)) = n_actions K ->
     (forall v, v <> PSET -> v <> KSET -> v <> MSET -> get_set v s2 = get_set v s) ->
     s_explore s2 = s_explore s -> (s_prev_reward s2, s_prev_pred s2, s_prev_state s2) = (s_prev_reward s, s_prev_pred s, s_prev_state s) ->
     hpost FO (k s2) Q) ->
  hpost FO ((clset_match V K x true ;;; pa_build V K x ;;; k) s) Q.
Proof.
  intros N0 Lx I E0 PN H.
  eapply hp_bind; [apply (matching_spec FO V K kf wf mt CO VO N x true s [] N0 Lx I E0 PN)|].
  intros [] s1 (MA & I1 & PN1 & AO1 & MB1 & NE1 & _).
  eapply hp_bind; [apply (pa_build_spec FO V K kf N wf mt CO VO x s1 [] Lx I1 AO1)|].
  intros [] s2 (PR & I2). destruct (matching_frame _ _ _ _ _ _ _ _ MA) as (G1 & z & cs & M1).
  destruct (pa_frame _ _ _ _ _ _ PR) as (X2 & G2 & M2).
  assert (PP : s_pset s2 = s_pset s1) by (apply (G2 PSET)). assert (KK : s_kset s2 = s_kset s1) by (apply (G2 KSET)).
  assert (MM : s_mset s2 = s_mset s1) by (apply (G2 MSET)).
  apply (H s1 s2); try assumption.
  - rewrite PP. exact PN1.
  - unfold act_ok. rewrite PP, MM. exact AO1.
  - apply (live_keeps N N); try assumption.
    + pose proof (G2 PREV_PSET) as E1. rewrite (G1 PREV_PSET) in E1 by discriminate. exact E1.
    + intros l Hl. destruct PR as (s1' & cs' & pa & nr & T & _ & _ & ->). sst. eapply touches_live; [exact T|].
      eapply matching_live; [exact I|exact MA|]. apply (inv_live_PK N s [] l I Hl).
  - destruct PR as (s1' & cs' & pa & nr & T & _ & PO & ->). apply (pa_size_1 _ _ _ PO).
  - destruct PR as (s1' & cs' & pa & nr & T & _ & PO & ->). apply (pa_size_1 _ _ _ PO).
  - intros v D1 D2 D3. rewrite G2. apply G1; assumption.
  - unfold misc, match_stats in M1, M2. sst. congruence.
  - unfold misc, match_stats in M1, M2. sst. congruence.
Qed.

Lemma uniform01 : rpost FO (rand_uniform f0 f1) (fun _ => True).
Proof. intros g. rewrite rand_uniform_eq. exact Logic.I. Qed.

Lemma decision_spec N x s : FO -> 0 <= N -> xok K dom x -> Inv N s [] ->
  s_mset s = empty_set -> set_nm (s_pset s) <= POP_SIZE K ->
  hpost FO (rl_decision V K x s) (fun a s' => decides x a s s' /\ 0 <= a < n_actions K /\ Inv N s' [] /\ set_nm (s_pset s') <= POP_SIZE K /\
     act_ok s' (s_mset s') /\ keeps s s' /\ Z.of_nat (length (s_pa s')) = n_actions K /\
     (forall v, v <> PSET -> v <> KSET -> v <> MSET -> get_set v s' = get_set v s) /\
     s_explore s' = s_explore s /\ (s_prev_reward s', s_prev_pred s', s_prev_state s') = (s_prev_reward s, s_prev_pred s, s_prev_state s)).
Proof.
  intros HF N0 Lx I E0 PN. assert (NA := ok_n_actions _ _ CO). unfold rl_decision.
  apply (see_spec N); try assumption. intros s1 s2 MA PR I2 PN2 AO2 K2 L1 L2 G2 EX PS.
  apply hp_bind_get. apply hp_bind_get. apply hp_bind_get. rewrite EX.
  assert (FIN : forall a g, 0 <= a < n_actions K ->
     (s_explore s = false -> is_best (s_pa s2) a) ->
     (s_explore s = true -> exists u, rout (rand_uniform f0 f1) u /\
        (flt u (P_EXPLORE K) = true -> is_present (s_nr s2) a) /\ (flt u (P_EXPLORE K) = false -> is_best (s_pa s2) a)) ->
     decides x a s (with_rng g s2) /\ 0 <= a < n_actions K /\ Inv N (with_rng g s2) [] /\ set_nm (s_pset (with_rng g s2)) <= POP_SIZE K /\
     act_ok (with_rng g s2) (s_mset (with_rng g s2)) /\ keeps s (with_rng g s2) /\ Z.of_nat (length (s_pa (with_rng g s2))) = n_actions K /\
     (forall v, v <> PSET -> v <> KSET -> v <> MSET -> get_set v (with_rng g s2) = get_set v s) /\
     s_explore (with_rng g s2) = s_explore s /\ (s_prev_reward (with_rng g s2), s_prev_pred (with_rng g s2), s_prev_state (with_rng g s2)) = (s_prev_reward s, s_prev_pred s, s_prev_state s)).
  { intros a g Ha H1 H2. split; [exists s1, s2, g; auto 10|]. split; [exact Ha|]. split; [exact I2|]. split; [exact PN2|].
    split; [exact AO2|]. split; [exact K2|]. split; [exact L1|]. split; [|split; [exact EX|exact PS]].
    intros v D1 D2 D3. rewrite <- G2 by assumption. destruct v; reflexivity. }
  destruct (s_explore s).
  - eapply hp_bind; [eapply hp_rand with (P := fun u => rout (rand_uniform f0 f1) u);
      [eapply rp_mono; [apply rp_rout, uniform01|intros u (_ & U); exact U]|]|].
    + intros u g U. exact (conj U (ex_intro _ g eq_refl) : (fun u s' => rout (rand_uniform f0 f1) u /\ exists g, s' = with_rng g s2) u (with_rng g s2)).
    + intros u s' (U & g & ->). destruct (flt u (P_EXPLORE K)) eqn:FL.
      * eapply hp_rand; [apply (rand_action_rpost K); [exact HF|exact NA|lia]|].
        intros a g' (Ha & Hp). apply (FIN a g' Ha); [discriminate|]. intros _. exists u. split; [exact U|].
        rewrite FL. split; [intros _; split; assumption|discriminate].
      * eapply hp_rand; [apply (best_action_rpost K); [exact NA|lia]|].
        intros a g' (Ha & Hp). apply (FIN a g' Ha); [discriminate|]. intros _. exists u. split; [exact U|].
        rewrite FL. split; [discriminate|intros _; split; assumption].
  - eapply hp_rand; [apply (best_action_rpost K); [exact NA|lia]|].
    intros a g' (Ha & Hp). apply (FIN a g' Ha); [|discriminate]. intros _. split; assumption.
Qed.

(** ** Updating. *)
Definition act_set (a : Z) (s : st B) : st B :=
  let ls := rev (filter (with_action (s_heap s) a) (set_list (s_mset s))) in
  with_stats (s_error s) (s_mset_size s)
    (fadd (s_aset_size s) (fmul (fsub (of_Z (Z.of_nat (length ls))) (s_aset_size s)) (BETA K))) (s_mfrac s)
    (with_set ASET (exact_set (s_heap s) ls) s).
Definition top_value (pa : list f64) (v : f64) : Prop := In v pa /\ forall u, In u pa -> fgt u v = false.
Definition update_rel (state : list f64) (a : Z) (reward : f64) (done : bool) (s s' : st B) : Prop := exists s2,
  (set_list (s_prev_aset s) = [] -> s2 = act_set a s) /\
  (set_list (s_prev_aset s) <> [] -> exists best, top_value (s_pa s) best /\
     improve PREV_ASET (s_prev_state s) [fadd (s_prev_reward s) (fmul (GAMMA K) best)] false (act_set a s) s2) /\
  (if done then improve ASET state [reward] true s2 s' else s' = s2).

Lemma rl_update_spec N state a reward done s : 0 <= N -> N + 2 <= 2 ^ 53 -> Inv N s [] -> act_ok s (s_mset s) ->
  sub_ok s (s_prev_aset s) -> s_aset s = empty_set -> set_nm (s_pset s) <= POP_SIZE K ->
  xok K dom state -> (set_list (s_prev_aset s) <> [] -> xok K dom (s_prev_state s)) -> Z.of_nat (length (s_pa s)) = n_actions K ->
  hpost FO (rl_update V K state a reward done s) (fun _ s' => update_rel state a reward done s s' /\ Inv (N + 2) s' [] /\
    set_nm (s_pset s') <= POP_SIZE K /\ sub_ok s' (s_aset s') /\ s_prev_pset s' = s_prev_pset s /\
    s_pa s' = s_pa s /\ s_prev_reward s' = s_prev_reward s /\ s_prev_pred s' = s_prev_pred s /\ s_explore s' = s_explore s).
Proof.
  intros N0 N1 I AO SO E0 PN Lx Lp La. assert (NA := ok_n_actions _ _ CO). unfold rl_update.
  unfold mbind at 1. rewrite action_eq; [|intros l Hl; destruct AO as (_ & _ & SUB); apply (inv_live_P I (SUB _ Hl))|exact E0].
  cbv zeta. fold (act_set a s). set (s1 := act_set a s).
  assert (I1 : Inv N s1 []) by exact I.
  assert (A1 : sub_ok s1 (s_aset s1)).
  { destruct AO as (ND & SZ & SUB). split; [|split; [reflexivity|]].
    - unfold s1, act_set. sst. unfold exact_set. cbn [set_list]. apply NoDup_rev, NoDup_filter, ND.
    - intros l Hl. left. unfold s1, act_set, exact_set in Hl. sst. apply in_rev, filter_In in Hl. apply SUB, Hl. }
  apply hp_bind_get. change (s_prev_aset s1) with (s_prev_aset s).
  assert (MS1 : s_pa s1 = s_pa s /\ s_prev_reward s1 = s_prev_reward s /\ s_prev_pred s1 = s_prev_pred s /\ s_explore s1 = s_explore s /\ s_prev_pset s1 = s_prev_pset s)
    by (repeat split).
  eapply hp_bind with (P := fun _ s2 =>
     ((set_list (s_prev_aset s) = [] -> s2 = s1) /\
      (set_list (s_prev_aset s) <> [] -> exists best, top_value (s_pa s) best /\
        improve PREV_ASET (s_prev_state s) [fadd (s_prev_reward s) (fmul (GAMMA K) best)] false s1 s2)) /\
     Inv (N + 1) s2 [] /\ set_nm (s_pset s2) <= POP_SIZE K /\ sub_ok s2 (s_aset s2) /\
     (s_pa s2 = s_pa s /\ s_prev_reward s2 = s_prev_reward s /\ s_prev_pred s2 = s_prev_pred s /\ s_explore s2 = s_explore s /\ s_prev_pset s2 = s_prev_pset s)).
  { destruct (set_list (s_prev_aset s)) as [|l r] eqn:EP.
    - apply hp_ret. spl; try assumption; try apply MS1; try reflexivity; try congruence.
      eapply Inv_mono; [|exact I1]. lia.
    - apply hp_bind_get. change (s_pa s1) with (s_pa s).
      assert (NE : s_pa s <> []) by (intros X; rewrite X in La; cbn in La; lia).
      destruct (pa_best_val_spec (s_pa s) NE) as (best & EB & TB). unfold mbind at 1. unfold mlift. rewrite EB.
      apply hp_bind_get. apply hp_bind_get. change (s_prev_reward s1) with (s_prev_reward s). change (s_prev_state s1) with (s_prev_state s).
      eapply hp_mono; [apply (improve_spec N PREV_ASET); try assumption; try discriminate; [lia|apply Lp; discriminate|reflexivity]|].
      intros [] s2 (IM & I2 & PN2 & K2 & G2 & M2 & SO2). spl; try assumption.
      + discriminate.
      + intros _. exists best. split; [exact TB|exact IM].
      + pose proof (G2 ASET ltac:(discriminate) ltac:(discriminate) ltac:(discriminate)) as GA. cbn [get_set] in GA. rewrite GA.
        apply (sub_keeps s1 s2 _ K2 A1).
      + destruct (s_explore s1); unfold misc, tick in M2; sst; (transitivity (s_pa s1); [congruence|reflexivity]).
      + destruct (s_explore s1); unfold misc, tick in M2; sst; (transitivity (s_prev_reward s1); [congruence|reflexivity]).
      + destruct (s_explore s1); unfold misc, tick in M2; sst; (transitivity (s_prev_pred s1); [congruence|reflexivity]).
      + destruct (s_explore s1) eqn:EE; unfold misc, tick in M2; sst; (transitivity (s_explore s1); [congruence|reflexivity]).
      + apply (G2 PREV_PSET); discriminate. }
  intros [] s2 ((U1 & U2) & I2 & PN2 & A2 & (F1 & F2 & F3 & F4 & F5)). destruct done.
  - eapply hp_mono; [apply (improve_spec (N + 1) ASET); try assumption; try discriminate; try lia; reflexivity|].
    intros [] s3 (IM & I3 & PN3 & K3 & G3 & M3 & SO3). replace (N + 1 + 1) with (N + 2) in I3 by lia. spl; try assumption.
    + exists s2. auto.
    + transitivity (s_prev_pset s2); [apply (G3 PREV_PSET); discriminate|exact F5].
    + rewrite <- F1. destruct (s_explore s2); unfold misc, tick in M3; sst; congruence.
    + rewrite <- F2. destruct (s_explore s2); unfold misc, tick in M3; sst; congruence.
    + rewrite <- F3. destruct (s_explore s2); unfold misc, tick in M3; sst; congruence.
    + rewrite <- F4. destruct (s_explore s2) eqn:EE; unfold misc, tick in M3; sst; congruence.
  - apply hp_ret. spl; try assumption.
    + exists s2. auto.
    + eapply Inv_mono; [|exact I2]. lia.
Qed.

(** ** The system error reported for a step. *)
Definition td_error (a : Z) (reward : f64) (done : bool) (max_p : f64) (s : st B) : f64 :=
  let p := vals_at (s_pa s) a in
  let e1 := match set_list (s_prev_aset s) with
            | [] => f0
            | _ => fadd f0 (fdiv (loss_ptr K [s_prev_pred s] [fadd (s_prev_reward s) (fmul (GAMMA K) p)]) max_p)
            end in
  if done then fadd e1 (fdiv (loss_ptr K [p] [reward]) max_p) else e1.
Lemma rl_error_eq a reward done max_p s : 0 <= a < n_actions K -> Z.of_nat (length (s_pa s)) = n_actions K ->
  rl_error K a reward done max_p s = Ok (td_error a reward done max_p s, record_error K (td_error a reward done max_p s) s).
Proof.
  intros Ha La. unfold rl_error. unfold mbind at 1. unfold mget at 1. cbv beta iota. unfold mbind at 1. unfold mlift.
  rewrite (pa_val_eq K) by lia. reflexivity.
Qed.

Definition stepped (state : list f64) (a : Z) (reward : f64) (s : st B) : st B :=
  with_prev reward (vals_at (s_pa s) a) state (with_set PREV_ASET (s_aset s) (with_set MSET empty_set s)).
Lemma rl_end_step_eq state a reward (s : st B) : 0 <= a < n_actions K -> Z.of_nat (length (s_pa s)) = n_actions K ->
  xok K dom state -> rl_end_step K state a reward s = Ok (tt, stepped state a reward s).
Proof.
  intros Ha La (Ls & _). unfold rl_end_step, clset_free, clset_init, mbind, mmod, mget, mlift. sst.
  rewrite (pa_val_eq K) by lia.
  destruct (Z.ltb_spec (Z.of_nat (length state)) (x_dim K)); [lia|].
  rewrite firstn_all2 by lia. unfold stepped. sst. reflexivity.
Qed.

(** ** Environments and trials. *)
Section Env.
Context {E : Type} (VE : env E) (einv : E -> Prop).
(** During a trial [erun] holds: perceiving yields an input, and then any action can be executed. *)
Definition env_runs (erun : E -> Prop) : Prop := forall e, erun e -> rpost FO (env_get_state VE e) (fun r => xok K dom (snd r) /\
  forall a, 0 <= a < n_actions K -> rpost FO (env_execute VE (fst r) a) (fun q => erun (fst q))).
(** Between trials [einv] holds; a reset prepares a trial. *)
Definition env_ok : Prop := exists erun : E -> Prop, env_runs erun /\ (forall e, erun e -> einv e) /\
  forall e, einv e -> rpost FO (env_reset VE e) erun.

Definition RLI (N : Z) (s : st B) : Prop := Inv N s [] /\ set_nm (s_pset s) <= POP_SIZE K /\ set_nm (s_prev_pset s) <= POP_SIZE K /\
  sub_ok s (s_prev_aset s) /\ (set_list (s_prev_aset s) <> [] -> xok K dom (s_prev_state s)).

Definition step_rel (e : E) (s : st B) (e' : E) (reward : f64) (done : bool) (err : f64) (s' : st B) : Prop :=
  exists e0 x g0 a s1 s2 g, rout (env_get_state VE e) (e0, x) /\
    decides x a (with_rng g0 (with_set ASET empty_set (with_set MSET empty_set s))) s1 /\
    0 <= a < n_actions K /\ rout (env_execute VE e0 a) (e', reward) /\ done = env_is_done VE e' /\
    update_rel x a reward done (with_rng g s1) s2 /\
    err = td_error a reward done (env_max_payoff VE e') s2 /\
    s' = stepped x a reward (record_error K err s2).

Section Run.
Context (erun : E -> Prop).
Hypothesis ER : env_runs erun.
Lemma rl_step_spec N e s : FO -> erun e -> 0 <= N -> N + 2 <= 2 ^ 53 -> RLI N s ->
  hpost FO (rl_step V K VE e s) (fun r s' => let '(e', reward, done, err) := r in
     step_rel e s e' reward done err s' /\ erun e' /\ RLI (N + 2) s' /\ s_explore s' = s_explore s).
Proof.
  intros HF He N0 N1 (I & PN & PN' & SO & Lp). unfold rl_step, rl_init_step, clset_init.
  unfold mbind at 1. unfold mbind at 1. unfold mmod. cbv beta iota zeta.
  eapply hp_bind; [eapply hp_rand; [apply rp_rout, (ER e He)|]|].
  { intros r g (He' & Ro).
    exact (conj He' (conj Ro (ex_intro _ g eq_refl)) : (fun r s' => (xok K dom (snd r) /\ forall a, 0 <= a < n_actions K -> rpost FO (env_execute VE (fst r) a) (fun q => erun (fst q))) /\ rout (env_get_state VE e) r /\
      exists g, s' = with_rng g (with_set ASET empty_set (with_set MSET empty_set s))) r (with_rng g (with_set ASET empty_set (with_set MSET empty_set s)))). }
  intros (e0, x) s0' ((Lx & He0) & Rs & g0 & ->). cbn [fst snd] in He0, Lx.
  set (s0 := with_rng g0 (with_set ASET empty_set (with_set MSET empty_set s))).
  eapply hp_bind; [apply (decision_spec N x s0 HF N0 Lx); [exact I|reflexivity|exact PN]|].
  intros a s1 (DE & Ha & I1 & PN1 & AO1 & K1 & L1 & G1 & EX1 & PS1).
  eapply hp_bind; [eapply hp_rand; [apply rp_rout, (He0 a Ha)|]|].
  { intros r g (He' & Ro).
    exact (conj He' (conj Ro (ex_intro _ g eq_refl)) : (fun r s' => erun (fst r) /\ rout (env_execute VE e0 a) r /\ exists g, s' = with_rng g s1) r (with_rng g s1)). }
  intros (e', reward) s1' (He' & Ro & g & ->). cbn [fst] in He'.
  assert (Es0 : s_prev_state s1 = s_prev_state s0 /\ s_prev_reward s1 = s_prev_reward s0 /\ s_prev_pred s1 = s_prev_pred s0) by (repeat split; congruence).
  eapply hp_bind; [apply (rl_update_spec N _ a reward (env_is_done VE e') (with_rng g s1)); try assumption|].
  - pose proof (G1 PREV_ASET ltac:(discriminate) ltac:(discriminate) ltac:(discriminate)) as GP. cbn [get_set] in GP.
    sst. rewrite GP. apply (sub_keeps s0 s1 _ K1 SO).
  - apply (G1 ASET); discriminate.
  - sst. destruct Es0 as (-> & _). intros NE. apply Lp. intros X. apply NE.
    rewrite (G1 PREV_ASET ltac:(discriminate) ltac:(discriminate) ltac:(discriminate) : s_prev_aset s1 = s_prev_aset s0). exact X.
  - intros [] s2 (U & I2 & PN2 & A2 & PP2 & PA2 & PR2 & PD2 & EX2).
    assert (L2 : Z.of_nat (length (s_pa s2)) = n_actions K) by (rewrite PA2; exact L1).
    unfold mbind at 1. rewrite rl_error_eq by assumption.
    set (err := td_error a reward (env_is_done VE e') (env_max_payoff VE e') s2).
    unfold mbind at 1. rewrite rl_end_step_eq by assumption. apply hp_ret. split; [|split; [exact He'|split]].
    + exists e0, x, g0, a, s1, s2, g. auto 12.
    + unfold RLI, stepped, record_error. sst. split; [exact I2|split; [exact PN2|split; [|split; [exact A2|intros _; exact Lx]]]].
      rewrite PP2. pose proof (G1 PREV_PSET ltac:(discriminate) ltac:(discriminate) ltac:(discriminate)) as GP. cbn [get_set] in GP.
      rewrite GP. exact PN'.
    + unfold stepped, record_error. sst. rewrite EX2. exact EX1.
Qed.

(** A run of at most [n] steps; [errs] are the errors of its steps, [r] the reward before it. *)
Inductive run_rel : nat -> E -> st B -> f64 -> list f64 -> E -> st B -> f64 -> Prop :=
| run_limit e s r : run_rel 0 e s r [] e s r
| run_done n e s r e' r' err s' : step_rel e s e' r' true err s' -> run_rel (S n) e s r [err] e' s' r'
| run_more n e s r e' r' err s' errs e'' s'' r'' : step_rel e s e' r' false err s' ->
    run_rel n e' s' r' errs e'' s'' r'' -> run_rel (S n) e s r (err :: errs) e'' s'' r''.

Lemma rl_loop_spec n : forall N e r steps err s, FO -> erun e -> 0 <= N -> N + 2 * Z.of_nat n <= 2 ^ 53 -> RLI N s ->
  hpost FO (rl_loop V K VE n e r steps err s) (fun q s' => let '(e', r', steps', err') := q in
     exists errs, run_rel n e s r errs e' s' r' /\ steps' = steps + Z.of_nat (length errs) /\ err' = fold_left fadd errs err /\
       erun e' /\ RLI (N + 2 * Z.of_nat n) s').
Proof.
  induction n as [|n IH]; intros N e r steps err s HF He N0 N1 R.
  - apply hp_ret. exists []. spl; try reflexivity; try assumption; [constructor|cbn [length]; lia|].
    replace (N + 2 * Z.of_nat 0) with N by lia. exact R.
  - cbn [rl_loop]. eapply hp_bind; [apply (rl_step_spec N e s HF He N0 ltac:(lia) R)|].
    intros (((e', r'), done), er) s1 (ST & He' & R1 & _). destruct done.
    + apply hp_ret. exists [er]. spl; try reflexivity; try assumption; [constructor; exact ST|].
      destruct R1 as (A1 & A2 & A3 & A4 & A5). split; [eapply Inv_mono; [|exact A1]; lia|auto].
    + eapply hp_mono; [apply (IH (N + 2) e' r' (steps + 1) (fadd err er) s1 HF He'); [lia|lia|exact R1]|].
      intros (((e2, r2), st2), er2) s2 (errs & RU & -> & -> & He2 & R2). exists (er :: errs). spl; try assumption; try reflexivity.
      * eapply run_more; eassumption.
      * cbn [length]. lia.
      * replace (N + 2 * Z.of_nat (S n)) with (N + 2 + 2 * Z.of_nat n) by lia. exact R2.
Qed.
End Run.
Hypothesis EO : env_ok.

Definition begun (s : st B) : st B := with_set KSET empty_set (with_set PREV_ASET empty_set (with_prev f0 f0 (zeros (x_dim K)) s)).
Definition ended (s s' : st B) : Prop := exists h', freed (set_list (s_kset s)) (s_heap s) h' /\
  s' = with_set KSET empty_set (with_heap h' (s_next s) (with_set PREV_ASET empty_set s)).
(** A whole trial: the environment is reset, at most TELETRANSPORTATION steps are taken and
    all rules removed during the trial are freed at its end. *)
Definition rl_trial_rel (e : E) (explore : bool) (s : st B) (e' : E) (perf err : f64) (s' : st B) : Prop :=
  exists e1 g s2 r errs, rout (env_reset VE e) e1 /\
    run_rel (Z.to_nat (TELETRANSPORTATION K)) e1 (begun (with_explore explore (with_rng g s))) f0 errs e' s2 r /\
    ended s2 s' /\ err = fdiv (fold_left fadd errs f0) (of_Z (Z.of_nat (length errs))) /\
    perf = (if env_multistep VE then of_Z (Z.of_nat (length errs)) else if fgt r f0 then f1 else f0).

Lemma zeros_len n : 0 <= n -> Z.of_nat (length (zeros n)) = n.
Proof. intros H. unfold zeros. rewrite repeat_length. lia. Qed.

Lemma init_trial_eq (s : st B) : rl_init_trial K s = Ok (tt, begun s).
Proof.
  assert (X := ok_x_dim _ _ CO). unfold rl_init_trial. destruct (Z.ltb_spec (x_dim K) 1); [lia|]. reflexivity.
Qed.
Lemma end_trial_spec N s : Inv N s [] -> set_nm (s_pset s) <= POP_SIZE K -> set_nm (s_prev_pset s) <= POP_SIZE K ->
  exists s', rl_end_trial s = Ok (tt, s') /\ ended s s' /\ Good N s'.
Proof.
  intros I P1 P2. unfold rl_end_trial, clset_free, clset_init. unfold mbind, mmod.
  destruct (owned_disj _ _ _ _ (i_nodup I)) as (_ & NDK & _).
  destruct (kill_spec KSET (with_set PREV_ASET empty_set s) NDK) as (h' & EK & FK).
  { intros l Hl. apply (inv_live_K I Hl). }
  rewrite EK. eexists. split; [reflexivity|]. split; [exists h'; split; [exact FK|reflexivity]|].
  constructor; sst; [|exact P1|exact P2]. apply (inv_kill_K K kf wf N s [] h' I FK).
Qed.

Lemma rl_trial_spec N e explore s : FO -> einv e -> 0 <= N -> 0 <= TELETRANSPORTATION K -> N + 2 * TELETRANSPORTATION K <= 2 ^ 53 -> Good N s ->
  hpost FO (rl_trial V K VE e explore s) (fun q s' => let '(e', perf, err) := q in
     rl_trial_rel e explore s e' perf err s' /\ einv e' /\ Good (N + 2 * TELETRANSPORTATION K) s').
Proof.
  intros HF He N0 T0 N1 G. unfold rl_trial. assert (X := ok_x_dim _ _ CO). destruct EO as (erun & ER & RI & RS).
  eapply hp_bind; [eapply hp_rand; [apply rp_rout, (RS e He)|]|].
  { intros r g (He' & Ro).
    exact (conj He' (conj Ro (ex_intro _ g eq_refl)) : (fun r s' => erun r /\ rout (env_reset VE e) r /\ exists g, s' = with_rng g s) r (with_rng g s)). }
  intros e1 s1 (He1 & Ro & g & ->). apply hp_bind_mod. unfold mbind at 1. rewrite init_trial_eq.
  set (s1 := begun (with_explore explore (with_rng g s))).
  assert (R1 : RLI N s1).
  { unfold RLI. split; [exact (g_inv G)|split; [exact (g_lim G)|split; [exact (g_lim_prev G)|split; [apply sub_empty|]]]].
    intros NE. exfalso. apply NE. reflexivity. }
  eapply hp_bind; [apply (rl_loop_spec erun ER _ N e1 f0 0 f0 s1 HF He1 N0); [|exact R1]; lia|].
  intros (((e2, r2), st2), er2) s2 (errs & RU & -> & -> & He2 & (I2 & PN2 & PQ2 & _)). apply RI in He2.
  destruct (end_trial_spec _ s2 I2 PN2 PQ2) as (s3 & EE & ED & G3).
  unfold mbind at 1. rewrite EE. rewrite Z2Nat.id in G3 by assumption. rewrite Z.add_0_l.
  assert (RR : forall perf, perf = (if env_multistep VE then of_Z (Z.of_nat (length errs)) else if fgt r2 f0 then f1 else f0) ->
     rl_trial_rel e explore s e2 perf (fdiv (fold_left fadd errs f0) (of_Z (Z.of_nat (length errs)))) s3).
  { intros perf EP. exists e1, g, s2, r2, errs. auto. }
  destruct (env_multistep VE) eqn:EM.
  - apply hp_ret. split; [apply RR; reflexivity|auto].
  - apply hp_ret. split; [apply RR; reflexivity|auto].
Qed.

(** xcs_rl_exp: explore and exploit trials alternate. *)
Fixpoint exp_rel (n : nat) (e : E) (tperf : f64) (s : st B) (e' : E) (tperf' : f64) (s' : st B) : Prop :=
  match n with
  | O => e' = e /\ tperf' = tperf /\ s' = s
  | S n' => exists e1 p1 r1 s1 e2 p2 r2 s2, rl_trial_rel e true s e1 p1 r1 s1 /\ rl_trial_rel e1 false s1 e2 p2 r2 s2 /\
      exp_rel n' e2 (fadd tperf p2) s2 e' tperf' s'
  end.
Lemma rl_exp_loop_spec n : forall N e tp s, FO -> einv e -> 0 <= N -> 0 <= TELETRANSPORTATION K ->
  N + 4 * TELETRANSPORTATION K * Z.of_nat n <= 2 ^ 53 -> Good N s ->
  hpost FO (rl_exp_loop V K VE n e tp s) (fun q s' => exp_rel n e tp s (fst q) (snd q) s' /\ einv (fst q) /\
     Good (N + 4 * TELETRANSPORTATION K * Z.of_nat n) s').
Proof.
  induction n as [|n IH]; intros N e tp s HF He N0 T0 N1 G.
  - apply hp_ret. split; [repeat split|]. split; [exact He|]. replace (N + _) with N by lia. exact G.
  - cbn [rl_exp_loop]. eapply hp_bind; [apply (rl_trial_spec N e true s HF He N0 T0 ltac:(nia) G)|].
    intros ((e1, p1), r1) s1 (T1 & He1 & G1). cbn [fst snd].
    eapply hp_bind; [apply (rl_trial_spec (N + 2 * TELETRANSPORTATION K) e1 false s1 HF He1 ltac:(lia) T0 ltac:(nia) G1)|].
    intros ((e2, p2), r2) s2 (T2 & He2 & G2). cbn [fst snd].
    eapply hp_mono; [apply (IH (N + 4 * TELETRANSPORTATION K) e2 _ s2 HF He2 ltac:(lia) T0 ltac:(nia))|].
    + replace (N + 4 * TELETRANSPORTATION K) with (N + 2 * TELETRANSPORTATION K + 2 * TELETRANSPORTATION K) by lia. exact G2.
    + intros (e', tp') s' (EX & He' & G'). cbn [fst snd] in *. split; [|split; [exact He'|]].
      * exists e1, p1, r1, s1, e2, p2, r2, s2. auto.
      * replace (N + 4 * TELETRANSPORTATION K * Z.of_nat (S n)) with (N + 4 * TELETRANSPORTATION K + 4 * TELETRANSPORTATION K * Z.of_nat n) by lia. exact G'.
Qed.
End Env.

(** ** xcs_rl_fit *)
Definition rl_fit_rel (state : list f64) (a : Z) (reward : f64) (err : f64) (s s' : st B) : Prop := exists s1 s2 s3 s4,
  matching V K wf mt state true (with_set ASET empty_set (with_set MSET empty_set (begun s))) s1 /\
  pa_rel V K wf state s1 s2 /\
  err = loss_ptr K [vals_at (s_pa s2) a] [reward] /\
  update_rel state a reward true (with_explore true s2) s3 /\
  ended (stepped state a reward s3) s4 /\ s' = record_error K err s4.

Lemma rl_fit_spec N state a reward s : 0 <= N -> N + 2 <= 2 ^ 53 -> Good N s -> xok K dom state ->
  0 <= a < n_actions K ->
  hpost FO (rl_fit V K state a reward s) (fun err s' => rl_fit_rel state a reward err s s' /\ Good (N + 2) s').
Proof.
  intros N0 N1 G Lx Ha. assert (X := ok_x_dim _ _ CO). unfold rl_fit. unfold mbind at 1. rewrite init_trial_eq.
  unfold rl_init_step, clset_init. unfold mbind at 1. unfold mbind at 1. unfold mmod at 1. cbv beta iota.
  unfold mmod at 1.
  set (s0 := with_set ASET empty_set (with_set MSET empty_set (begun s))).
  apply (see_spec N); try assumption; try reflexivity; [exact (g_inv G)|exact (g_lim G)|].
  intros s1 s2 MA PR I2 PN2 AO2 K2 L1 L2 G2 EX PS. apply hp_bind_get.
  unfold mbind at 1. unfold mlift. rewrite (pa_val_eq K) by lia. apply hp_bind_mod.
  assert (PA0 : s_prev_aset s2 = empty_set) by (apply (G2 PREV_ASET); discriminate).
  eapply hp_bind; [apply (rl_update_spec N state a reward true (with_explore true s2)); try assumption|].
  - sst. rewrite PA0. apply sub_empty.
  - apply (G2 ASET); discriminate.
  - sst. rewrite PA0. intros NE. exfalso. apply NE. reflexivity.
  - intros [] s3 (U & I3 & PN3 & A3 & PP3 & PA3 & PR3 & PD3 & EX3).
    unfold mbind at 1. rewrite rl_end_step_eq; [|assumption|rewrite PA3; exact L1|assumption].
    assert (QQ : set_nm (s_prev_pset s3) <= POP_SIZE K).
    { rewrite PP3. sst. pose proof (G2 PREV_PSET ltac:(discriminate) ltac:(discriminate) ltac:(discriminate)) as GP. cbn [get_set] in GP.
      rewrite GP. apply (g_lim_prev G). }
    destruct (end_trial_spec (N + 2) (stepped state a reward s3) I3 PN3 QQ) as (s4 & EE & ED & G4).
    unfold mbind at 1. rewrite EE. apply hp_bind_mod. apply hp_ret. split.
    + exists s1, s2, s3, s4. auto 10.
    + destruct G4 as [A1 A2 A4]. constructor; assumption.
Qed.
Lemma rl_fit_bad_action N state a reward s : 0 <= N -> Good N s -> xok K dom state ->
  ~ 0 <= a < n_actions K -> hpost FO (rl_fit V K state a reward s) (fun _ _ => False).
Proof.
  intros N0 G Lx Ha. assert (X := ok_x_dim _ _ CO). unfold rl_fit. unfold mbind at 1. rewrite init_trial_eq.
  unfold rl_init_step, clset_init. unfold mbind at 1. unfold mbind at 1. unfold mmod at 1. cbv beta iota.
  unfold mmod at 1.
  apply (see_spec N); try assumption; try reflexivity; [exact (g_inv G)|exact (g_lim G)|].
  intros s1 s2 MA PR I2 PN2 AO2 K2 L1 L2 G2 EX PS. apply hp_bind_get.
  unfold mbind at 1. unfold mlift. rewrite (pa_val_out K) by lia. exact Logic.I.
Qed.
End RL.
