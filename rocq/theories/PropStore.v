(** * C33: storing the population and going back to it. *)
From Coq Require Import ZArith Bool List Reals Lia Lra.
From Flocq Require Import Core BinarySingleNaN.
From Verif Require Import Outcome F64 F64Facts F64Bounds Rng RngFacts Pop PopSpec PopInv PopSel PopTrial PopFit PopRL PopOps PopSeq PopKeep
  Arr Cond Blas Pred Loss Comp ArrFacts SamFacts TernFacts RectFacts EllipFacts BlasFacts PredFacts CompFacts PropPop PropFrame Demo DemoEx PropRef.
Import ListNotations.
Open Scope Z_scope.

Section Trip.
Context {B : Type} (FO : Prop) (V : vtab B) (K : cfg) (kf : Z) (wf : B -> Prop) (mt : B -> list f64 -> Prop) {dom : list f64 -> Prop}.
Context {E : Type} (VE : env E) (einv : E -> Prop).
Notation Good N := (Good K kf N wf).
(** The rules of a set, in order. *)
Definition rules_of (S : cset) (s : st B) : list (option (cl B)) := map (s_heap s) (set_list S).

Lemma listing ls : forall (h h' : loc -> option (cl B)) n,
  (forall i l, nth_error ls i = Some l -> exists c d, h l = Some c /\ h' (n + i)%nat = Some d /\ stored V K c d) ->
  exists cs ds, map h ls = map Some cs /\ map h' (seq n (length ls)) = map Some ds /\ Forall2 (stored V K) cs ds.
Proof.
  induction ls as [|l r IH]; intros h h' n H.
  - exists [], []. repeat split; constructor.
  - destruct (H 0%nat l eq_refl) as (c & d & E1 & E2 & ST). rewrite Nat.add_0_r in E2.
    destruct (IH h h' (S n)) as (cs & ds & A & C & D).
    { intros i l' Hi. destruct (H (S i) l' Hi) as (c' & d' & F1 & F2 & F3). exists c', d'.
      replace (S n + i)%nat with (n + S i)%nat by lia. auto. }
    exists (c :: cs), (d :: ds). cbn [map length seq]. rewrite E1, E2, A, C. repeat split. constructor; assumption.
Qed.

Hypothesis CO : cfg_ok K kf.
Hypothesis VO : vt_ok (dom := dom) FO V K wf mt.
(** What storing leaves behind. *)
Lemma store_result N s : Good N s ->
  hpost FO (store_pset V K s) (fun _ s1 => Good N s1 /\ exists cs ds,
    rules_of (s_pset s) s = map Some cs /\ rules_of (s_prev_pset s1) s1 = map Some (rev ds) /\ Forall2 (stored V K) cs ds /\
    s_pset s1 = s_pset s /\ rules_of (s_pset s) s1 = map Some cs /\
    set_sz (s_prev_pset s1) = set_sz (s_pset s) /\ set_nm (s_prev_pset s1) = set_nm (s_pset s)).
Proof.
  intros G. pose proof (g_inv G) as I0. eapply hp_mono; [apply (store_spec FO V K kf wf mt CO VO N s G)|].
  intros [] s1 ((h' & FR & ST) & G1). split; [exact G1|]. pose proof (g_inv G1) as I1. destruct ST as [a1 a2 a3 a4 a5 a6 a7].
  change (s_next (with_set PREV_PSET empty_set (with_heap h' (s_next s) s))) with (s_next s) in *.
  change (s_heap (with_set PREV_PSET empty_set (with_heap h' (s_next s) s))) with h' in *.
  change (s_prev_pset (with_set PREV_PSET empty_set (with_heap h' (s_next s) s))) with empty_set in *.
  cbn [empty_set set_list set_nm] in a5, a6. rewrite app_nil_r in a5.
  destruct (owned_disj _ _ _ _ (i_nodup I0)) as (_ & _ & _ & _ & D1 & _).
  assert (KP : forall l, In l (set_list (s_pset s)) -> h' l = s_heap s l).
  { intros l Hl. rewrite FR. destruct (existsb (Nat.eqb l) (set_list (s_prev_pset s))) eqn:X; [|reflexivity].
    apply existsb_exists in X. destruct X as (l' & Hl' & Q). apply Nat.eqb_eq in Q. subst l'. destruct (D1 l Hl) as (_ & D & _). tauto. }
  assert (M : map h' (set_list (s_pset s)) = rules_of (s_pset s) s) by (apply map_ext_in; exact KP).
  destruct (listing _ _ _ _ a7) as (cs & ds & L1 & L2 & L3). exists cs, ds.
  assert (LE : length (set_list (s_prev_pset s1)) = length (set_list (s_pset s))) by (rewrite a5, rev_length, seq_length; reflexivity).
  split; [congruence|]. split.
  { unfold rules_of. rewrite a5, !map_rev. f_equal. exact L2. }
  split; [exact L3|]. split; [exact (a3 PSET ltac:(discriminate))|]. split.
  { unfold rules_of. rewrite <- L1. apply map_ext_in. intros l Hl. apply a4. apply (i_next I0), (inv_live_P I0 Hl). }
  split.
  { rewrite (so_size (i_q I1)), (so_size (i_p I0)), LE. reflexivity. }
  rewrite a6, (so_num (i_p I0)), Z.add_0_l. apply sum_nums_ext. intros l Hl. unfold num_of. rewrite (KP l Hl). reflexivity.
Qed.

Hypothesis HT : ea_tournament K = true -> FO.
Hypothesis EO : env_ok FO K (dom := dom) VE einv.
(** Storing, anything but storing and retrieving, and then retrieving. *)
Lemma C33_lemma os N s : 0 <= N -> Forall (op_ok (dom := dom) FO K kf wf einv) os -> Forall passive os -> N + costs K os <= 2 ^ 53 ->
  Good N s -> set_list (s_pset s) <> [] ->
  hpost FO ((store_pset V K ;;; run_ops V K VE os ;;; retrieve_pset)%m s) (fun _ s' =>
    Good (N + costs K os) s' /\
    set_sz (s_pset s') = set_sz (s_pset s) /\ set_nm (s_pset s') = set_nm (s_pset s) /\ s_prev_pset s' = empty_set /\
    exists cs ds, rules_of (s_pset s) s = map Some cs /\ rules_of (s_pset s') s' = map Some (rev ds) /\ Forall2 (stored V K) cs ds).
Proof.
  intros N0 F PA LE G NE. eapply hp_bind; [apply (store_result N s G)|].
  intros [] s1 (G1 & cs & ds & R1 & R2 & R3 & R4 & R5 & R6 & R7).
  eapply hp_bind; [apply (ops_guards FO V K kf wf mt CO VO HT VE einv EO os N s1 N0 F PA LE G1)|].
  intros [] s2 ((Q1 & Q2) & G2).
  destruct (retrieve_spec K kf wf CO (N + costs K os) s2 G2) as (s' & E' & (_ & RR) & G'). rewrite E'. cbn [hpost]. split; [exact G'|].
  assert (NQ : set_list (s_prev_pset s2) <> []).
  { rewrite Q1. intros Z0. pose proof (so_size (i_q (g_inv G1))) as S1. pose proof (so_size (i_p (g_inv G))) as S2.
    rewrite Z0 in S1. destruct (set_list (s_pset s)); [congruence|]. cbn [length] in *. lia. }
  destruct (RR NQ) as (h' & FR & ->). cbn [with_set with_heap s_pset s_prev_pset]. rewrite Q1.
  split; [exact R6|]. split; [exact R7|]. split; [reflexivity|]. exists cs, ds. split; [exact R1|]. split; [|exact R3].
  rewrite <- R2. unfold rules_of. cbn [s_heap with_set with_heap]. apply map_ext_in. intros l Hl. rewrite FR.
  destruct (owned_disj _ _ _ _ (i_nodup (g_inv G2))) as (_ & _ & _ & _ & D1 & _).
  destruct (existsb (Nat.eqb l) (set_list (s_pset s2))) eqn:X; [|apply Q2, Hl].
  apply existsb_exists in X. destruct X as (l' & Hl' & Q). apply Nat.eqb_eq in Q. subst l'. destruct (D1 l Hl') as (_ & D & _).
  rewrite Q1 in D. tauto.
Qed.
(** Nothing stored, or an empty population stored: going back changes nothing. *)
Lemma C33_empty_lemma os N s : 0 <= N -> Forall (op_ok (dom := dom) FO K kf wf einv) os -> Forall passive os -> N + costs K os <= 2 ^ 53 ->
  Good N s -> set_list (s_pset s) = [] ->
  hpost FO ((store_pset V K ;;; run_ops V K VE os)%m s) (fun _ s' => retrieve_pset s' = Ok (tt, s')).
Proof.
  intros N0 F PA LE G NE. eapply hp_bind; [apply (store_result N s G)|].
  intros [] s1 (G1 & cs & ds & R1 & R2 & R3 & R4 & R5 & R6 & R7).
  eapply hp_mono; [apply (ops_guards FO V K kf wf mt CO VO HT VE einv EO os N s1 N0 F PA LE G1)|].
  intros [] s2 ((Q1 & Q2) & G2).
  destruct (retrieve_spec K kf wf CO (N + costs K os) s2 G2) as (s' & E' & (RR & _) & _). rewrite E'.
  rewrite RR; [reflexivity|]. rewrite Q1. pose proof (so_size (i_q (g_inv G1))) as S1. pose proof (so_size (i_p (g_inv G))) as S2.
  rewrite NE in S2. destruct (set_list (s_prev_pset s1)); [reflexivity|]. cbn [length] in *. lia.
Qed.
End Trip.

(** ** What the copy of a rule is. *)
Section Copy.
Context {C A P : Type} (K : cfg) (VC : condT C) (VA : actT A) (VP : predT P)
  (wc : C -> Prop) (wa : A -> Prop) (wp : P -> Prop).
Lemma C33_rule_lemma sc sa c d : cond_honest VC wc sc -> act_honest VA wa sa -> wf_pay wc wa wp (c_body c) ->
  stored (join VC VA VP) K c d ->
  c_err d = c_err c /\ c_fit d = c_fit c /\ c_num d = c_num c /\ c_exp d = c_exp c /\ c_size d = c_size c /\ c_time d = c_time c /\
  c_age d = c_age c /\ c_mtotal d = c_mtotal c /\ c_action d = c_action c /\
  y_cond (c_body d) = y_cond (c_body c) /\ y_act (c_body d) = y_act (c_body c) /\
  c_prediction d = repeat f0 (Z.to_nat (y_dim K)) /\
  exists p q, y_pred (c_body c) = Some p /\ y_pred (c_body d) = Some q /\ wp p /\ rout (q_copy VP p) q.
Proof.
  intros HC HA ((cc & Ec & Wc) & (a & Ea & Wa) & (p & Ep & Wp)) (b1 & b2 & b3 & H1 & H2 & H3 & ->).
  cbn in H1, H2, H3. apply (rout_j1 _ _ _ _ Ea) in H1. apply rout_j2 in H1. destruct H1 as (a' & H1 & ->).
  apply (ha_copy _ _ _ HA _ _ Wa) in H1. subst a'.
  apply (rout_j1 _ _ _ _ Ec) in H2. apply rout_j2 in H2. destruct H2 as (c' & H2 & ->).
  apply (hc_copy _ _ _ HC _ _ Wc) in H2. subst c'.
  apply (rout_j1 _ _ _ _ Ep) in H3. apply rout_j2 in H3. destruct H3 as (p' & H3 & ->).
  cbn. repeat split; try congruence. exists p, p'. auto.
Qed.
End Copy.
Lemma C33_nlms_lemma K R p q : 1 <= x_dim K -> 1 <= y_dim K -> wf_nlms K R p -> rout (q_copy (nlms_pred K R) p) q ->
  nl_n q = nl_n p /\ nl_weights q = nl_weights p /\ nl_mu q = nl_mu p /\ nl_eta q = nl_eta p /\ wf_nlms K R q.
Proof.
  intros HX HY W H. cbn in H. eapply rout_t in H; [|apply (nlms_copy_ok _ K R _ (src_any (lm K)) HX HY p W)]. destruct H as (D & -> & -> & ->).
  pose proof (proj1 D). pose proof (proj1 W). repeat split; try congruence; apply D.
Qed.
Lemma C33_rls_lemma K R p q : 1 <= x_dim K -> 1 <= y_dim K -> wf_rls K R p -> rout (q_copy (rls_pred K R) p) q ->
  rl_n q = rl_n p /\ rl_weights q = rl_weights p /\ wf_rls K R q /\
  exists r, rls_init K R = Ok r /\ rl_matrix q = rl_matrix r.
Proof.
  intros HX HY W H. cbn in H. apply rout_lift in H. destruct (rls_copy_ok K R HX HY p W) as (d & E & D & W2 & F).
  rewrite E in H. injection H as ->. split; [|split; [exact W2|split; [exact D|]]].
  - pose proof (proj1 D). pose proof (proj1 W). congruence.
  - unfold rls_copy in E. destruct (rls_init K R) as [r| | |]; try discriminate. exists r. split; [reflexivity|]. cbn [obind] in E.
    destruct (overwrite (rl_weights r) (rl_weights p)); try discriminate. cbn [obind] in E. injection E as <-. reflexivity.
Qed.

(** ** Two rules with constant predictions: order and predictions are lost. *)
Definition cbody : Type := payload rect actint unit.
Definition const_tab K := join (rect_cond K (demo_cpar COND_TYPE_HYPERRECTANGLE_CSR)) (integer_act K) (constant_pred K).
Definition const_wf K := wf_pay (P := unit) (wf_rect K) (act_wf K) (fun _ => True).
Definition const_mt K := mt_pay (A := actint) (P := unit) (box K (demo_cpar COND_TYPE_HYPERRECTANGLE_CSR)).
Lemma const_tab_ok FO : vt_ok (dom := any_x) FO (const_tab K2) K2 (const_wf K2) (const_mt K2).
Proof.
  apply join_ok; [apply rect_ok; [cbn; lia|reflexivity]|apply integer_ok; cbn; unfold int_max; lia|apply constant_ok; cbn; lia].
Qed.
Definition crule (e p : Z) : cl cbody := mkCl f0 fhalf 1 e f1 0 false [of_Z p] 1 e e
  (mkPay (Some (mkRect (q2 1 2 1 2) (q2 2 5 2 5) [lit 1 10])) (Some (mkAct 1 [lit 1 10])) (Some tt)).
Definition cops : list (op (B := cbody) (E := nat)) := [OInsert (crule 1 10); OInsert (crule 2 20)].
(** Experience and predictions of the rules of the population, in order. *)
Definition csee (s : st cbody) : list (option (Z * list (option Z))) :=
  map (option_map (fun c => (c_exp c, map to_int (c_prediction c)))) (rules_of (s_pset s) s).
Lemma C33_refuted_lemma :
  exists (B : Type) (V : vtab B) (K : cfg) (wf : B -> Prop) (mt : B -> list f64 -> Prop) (N : Z) (s s' : st B),
    cfg_ok K 0 /\ vt_ok (dom := any_x) False V K wf mt /\ Good K 0 N wf s /\
    (store_pset V K ;;; retrieve_pset)%m s = Ok (tt, s') /\
    map (option_map (fun c => (c_exp c, map to_int (c_prediction c)))) (rules_of (s_pset s) s) = [Some (2, [Some 20]); Some (1, [Some 10])] /\
    map (option_map (fun c => (c_exp c, map to_int (c_prediction c)))) (rules_of (s_pset s') s') = [Some (1, [Some 0]); Some (2, [Some 0])].
Proof.
  assert (H : hpost False ((xcsf_init (const_tab K2) K2 ;;; run_ops (const_tab K2) K2 corridor cops)%m (blank_state 1)) (fun _ s => Good K2 0 3 (const_wf K2) s)).
  { apply (life_spec False (const_tab K2) K2 0 (const_wf K2) (const_mt K2) K2_ok (const_tab_ok False) ltac:(discriminate) corridor (fun _ => True) (corridor_K2 False) cops).
    - intros l. reflexivity.
    - assert (Q : forall e p, 0 <= e -> op_ok (dom := any_x) False K2 0 (const_wf K2) (E := nat) (fun _ => True) (OInsert (crule e p))).
      { intros e p He. cbn [op_ok]. split; [|cbn; lia]. constructor; cbn; try lia; try reflexivity.
        - destruct (fle_01_in fhalf eq_refl eq_refl) as (F & X). split; [exact F|split; [reflexivity|apply X]].
        - split; [reflexivity|]. rewrite f1_R. cbn. lra.
        - unfold const_wf, wf_pay. cbn. split; [|split].
          + eexists. split; [reflexivity|]. unfold wf_rect, len. cbn. auto.
          + eexists. split; [reflexivity|]. unfold act_wf. cbn. lia.
          + eexists. split; [reflexivity|exact I]. }
      apply Forall_cons; [apply Q; lia|]. apply Forall_cons; [apply Q; lia|apply Forall_nil].
    - vm_compute. discriminate. }
  assert (X : match (xcsf_init (const_tab K2) K2 ;;; run_ops (const_tab K2) K2 corridor cops)%m (blank_state 1) with
              | Ok (_, s) => match (store_pset (const_tab K2) K2 ;;; retrieve_pset)%m s with Ok (_, s') => Some (csee s, csee s') | _ => None end
              | _ => None end = Some ([Some (2, [Some 20]); Some (1, [Some 10])], [Some (1, [Some 0]); Some (2, [Some 0])])) by (vm_compute; reflexivity).
  destruct ((xcsf_init (const_tab K2) K2 ;;; run_ops (const_tab K2) K2 corridor cops)%m (blank_state 1)) as [[[] s]| | |]; try discriminate X.
  cbn [hpost] in H. destruct ((store_pset (const_tab K2) K2 ;;; retrieve_pset)%m s) as [[[] s']| | |] eqn:Y; try discriminate X.
  exists cbody, (const_tab K2), K2, (const_wf K2), (const_mt K2), 3, s, s'.
  split; [exact K2_ok|]. split; [apply const_tab_ok|]. split; [exact H|]. split; [exact Y|]. injection X as X1 X2. auto.
Qed.
