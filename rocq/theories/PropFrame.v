(** * What predicting and reproducing without change leave alone (C15, C16). *)
From Coq Require Import ZArith Bool List Reals Lia Lra Permutation.
From Flocq Require Import Core BinarySingleNaN.
From Verif Require Import Outcome F64 F64Facts F64Bounds Rng RngFacts Pop PopSpec PopInv PopSel PopDel
  PopCover PopMatch PopMset PopUpdate PopEA PopPA PopTrial PopFit Arr ArrFacts Sam SamFacts Cond Blas Pred
  TernFacts RectFacts EllipFacts PredFacts Comp CompFacts.
Import ListNotations.
Open Scope Z_scope.

Lemma rout_post {A} FO (m : RM A) (P : A -> Prop) a : rpost FO m P -> rout m a -> P a.
Proof. intros H (g & g' & E). specialize (H g). rewrite E in H. exact H. Qed.
Lemma rout_bind {A C} (m : RM A) (k : A -> RM C) c : rout (bind m k) c -> exists a, rout m a /\ rout (k a) c.
Proof.
  intros (g & g' & E). unfold bind in E. destruct (m g) as [[a g1]| | |] eqn:Em; try discriminate.
  exists a. split; [exists g, g1; exact Em|exists g1, g'; exact E].
Qed.
Lemma rout_ret {A} (a b : A) : rout (ret a) b -> b = a.
Proof. intros (g & g' & E). unfold ret in E. congruence. Qed.
Lemma rout_need {T} (o : option T) t : rout (need o) t -> o = Some t.
Proof. intros (g & g' & E). destruct o; cbn in E; [unfold ret in E; congruence|discriminate]. Qed.
Lemma rout_lift {A} (o : outcome A) a : rout (lift o) a -> o = Ok a.
Proof. intros (g & g' & E). unfold lift in E. destruct o; congruence. Qed.

Lemma Forall2_impl {A C} (P Q : A -> C -> Prop) l l' : (forall a c, P a c -> Q a c) -> Forall2 P l l' -> Forall2 Q l l'.
Proof. intros H F. induction F; constructor; auto. Qed.

(** ** Prediction leaves the rules alone. *)
Section Keep.
Context {B : Type} (FO : Prop) (V : vtab B) (K : cfg) (kf : Z) (wf : B -> Prop) (mt : B -> list f64 -> Prop)
  {dom : list f64 -> Prop} (CO : cfg_ok K kf) (VO : vt_ok (dom := dom) FO V K wf mt) (HT : ea_tournament K = true -> FO).
(** [R] relates what a rule carries before and after (payload and cached prediction). *)
Context (R : B * list f64 -> B * list f64 -> Prop).
Record keeps : Prop := {
  kp_refl : forall p, R p p;
  kp_trans : forall p q r, R p q -> R q r -> R p r;
  kp_match : forall b v x r, wf b -> xok K dom x -> rout (v_cond_match V b x) r -> R (b, v) (fst r, v);
  kp_act : forall b v x r, wf b -> xok K dom x -> rout (v_act_compute V b x) r -> R (b, v) (fst r, v);
  kp_pred : forall b v x r, wf b -> Z.of_nat (length v) = y_dim K -> xok K dom x -> rout (v_pred_compute V b v x) r -> R (b, v) r;
  kp_mt : forall b v b' v' x, R (b, v) (b', v') -> mt b' x -> mt b x
}.
Record same_rule (c c' : cl B) : Prop := {
  sm_num : c_num c' = c_num c; sm_fit : c_fit c' = c_fit c; sm_err : c_err c' = c_err c;
  sm_exp : c_exp c' = c_exp c; sm_size : c_size c' = c_size c; sm_time : c_time c' = c_time c;
  sm_body : R (c_body c, c_prediction c) (c_body c', c_prediction c')
}.
Record kept (s s' : st B) : Prop := {
  kt_pset : s_pset s' = s_pset s; kt_prev : s_prev_pset s' = s_prev_pset s;
  kt_next : s_next s' = s_next s; kt_time : s_time s' = s_time s;
  kt_in : forall l, In l (set_list (s_pset s)) -> exists c c', s_heap s l = Some c /\ s_heap s' l = Some c' /\ same_rule c c';
  kt_out : forall l, ~ In l (set_list (s_pset s)) -> s_heap s' l = s_heap s l
}.
Hypothesis KP : keeps.

Lemma same_refl c : same_rule c c.
Proof. constructor; try reflexivity. apply (kp_refl KP). Qed.
Lemma same_trans a b c : same_rule a b -> same_rule b c -> same_rule a c.
Proof. intros [] []. constructor; try congruence. eapply (kp_trans KP); eassumption. Qed.
Lemma kept_refl N s : Good K kf N wf s -> kept s s.
Proof.
  intros G. constructor; try reflexivity. intros l Hl.
  destruct (s_heap s l) as [c|] eqn:E; [exists c, c; auto using same_refl|]. exfalso.
  exact (inv_live_P (g_inv G) Hl E).
Qed.
Lemma kept_trans a b c : kept a b -> kept b c -> kept a c.
Proof.
  intros H1 H2. constructor.
  - rewrite (kt_pset _ _ H2). apply H1.
  - rewrite (kt_prev _ _ H2). apply H1.
  - rewrite (kt_next _ _ H2). apply H1.
  - rewrite (kt_time _ _ H2). apply H1.
  - intros l Hl. destruct (kt_in _ _ H1 l Hl) as (c1 & c2 & E1 & E2 & S1).
    rewrite <- (kt_pset _ _ H1) in Hl. destruct (kt_in _ _ H2 l Hl) as (c3 & c4 & E3 & E4 & S2).
    rewrite E2 in E3. injection E3 as <-. exists c1, c4. spl; try assumption. eapply same_trans; eassumption.
  - intros l Hl. rewrite (kt_out _ _ H2) by (rewrite (kt_pset _ _ H1); exact Hl). apply (kt_out _ _ H1), Hl.
Qed.

Lemma matched_same x c c' : wf (c_body c) -> xok K dom x -> PopMset.matched V K wf mt x c c' -> same_rule c c'.
Proof.
  intros W Lx M. destruct (ma_run _ _ _ _ _ _ _ M) as (b & R1 & R2).
  constructor; try apply M. rewrite (ma_pred _ _ _ _ _ _ _ M).
  eapply (kp_trans KP); [apply (kp_match KP _ _ _ _ W Lx R1)|]. cbn [fst].
  destruct (c_m c'); [|rewrite R2; apply (kp_refl KP)].
  pose proof (rout_post _ _ _ _ (vo_match _ _ _ _ _ VO _ _ W Lx) R1) as (Wb & _).
  apply (kp_act KP _ _ _ _ Wb Lx R2).
Qed.
Lemma predicted_same x c c' : wf (c_body c) -> Z.of_nat (length (c_prediction c)) = y_dim K -> xok K dom x ->
  PopUpdate.predicted V K wf x c c' -> same_rule c c'.
Proof.
  intros W L Lx (b & p & -> & Wb & Lp & R1). constructor; try reflexivity. apply (kp_pred KP _ _ _ _ W L Lx R1).
Qed.

(** One prediction with cover values given. *)
Lemma trial_kept N x y cv s s' : Good K kf N wf s -> xok K dom x -> s_explore s = false ->
  trial_rel V K wf mt x y (Some cv) s s' -> kept s s' /\
  ((forall l c, In l (set_list (s_pset s)) -> s_heap s l = Some c -> ~ mt (c_body c) x) ->
     s_pa s' = firstn (Z.to_nat (n_actions K * y_dim K)) cv).
Proof.
  intros G Lx E (s1 & s2 & s3 & M & A & L & (h' & F & ->)). rewrite E in L. subst s3.
  destruct M as (s1a & s1b & cs & MR & NC & _ & _ & _ & _ & _ & E1).
  cbn [needs_cover andb] in NC. rewrite (NC eq_refl) in *. clear NC s1b.
  set (s0 := start s) in *.
  assert (P0 : set_list (s_pset s0) = set_list (s_pset s)) by reflexivity.
  assert (GS : forall w, get_set w s1 = get_set w s1a) by (intros w; subst s1; destruct w; reflexivity).
  assert (H1 : s_heap s1 = s_heap s1a) by (subst s1; reflexivity).
  assert (EP : s_pset s1 = s_pset s) by (change (get_set PSET s1 = get_set PSET s0); rewrite GS; apply (mr_sets _ _ _ _ _ _ _ _ MR); discriminate).
  assert (EK : s_kset s1 = empty_set) by (change (get_set KSET s1 = get_set KSET s0); rewrite GS; apply (mr_sets _ _ _ _ _ _ _ _ MR); discriminate).
  assert (EQ : s_prev_pset s1 = s_prev_pset s) by (change (get_set PREV_PSET s1 = get_set PREV_PSET s0); rewrite GS; apply (mr_sets _ _ _ _ _ _ _ _ MR); discriminate).
  assert (EN : s_next s1 = s_next s) by (subst s1; apply (mr_next _ _ _ _ _ _ _ _ MR)).
  assert (ET : s_time s1 = s_time s).
  { subst s1. pose proof (mr_misc _ _ _ _ _ _ _ _ MR) as Q. unfold misc in Q. injection Q. intros. cbn in *. congruence. }
  assert (WF : forall l c, s_heap s l = Some c -> rule_ok K kf N wf c) by (intros l c Hc; apply (i_ok (g_inv G) _ _ Hc)).
  assert (K1 : kept s s1).
  { constructor; try assumption.
    - intros l Hl. destruct (mr_in _ _ _ _ _ _ _ _ MR l Hl) as (c & c' & Ec & Ec' & Mc). exists c, c'. rewrite H1. spl; try assumption.
      apply (matched_same x); [apply (ro_body (WF l c Ec))|exact Lx|exact Mc].
    - intros l Hl. rewrite H1. apply (mr_out _ _ _ _ _ _ _ _ MR), Hl. }
  assert (MS : set_list (s_mset s1) = rev (filter (flagged (s_heap s1a)) (set_list (s_pset s)))).
  { change (set_list (get_set MSET s1) = rev (filter (flagged (s_heap s1a)) (set_list (s_pset s)))). rewrite GS. cbn [get_set].
    rewrite (mr_m _ _ _ _ _ _ _ _ MR). cbn [set_list s0]. change (s_mset (start s)) with (@empty_set). cbn [empty_set set_list]. apply app_nil_r. }
  assert (K2 : kept s1 s2).
  { destruct (answer_frame V K wf _ _ _ _ A) as (N2 & G2 & M2).
    assert (T2 : s_time s2 = s_time s1) by (unfold misc in M2; injection M2; intros; cbn in *; congruence).
    assert (ID : s2 = with_pa (s_pa s2) (s_nr s2) s1 -> kept s1 s2).
    { intros ->. constructor; try reflexivity. intros l Hl. rewrite EP in Hl.
      destruct (kt_in _ _ K1 l Hl) as (c & c' & _ & Ec' & _). exists c', c'. auto using same_refl. }
    assert (PR : pa_rel V K wf x s1 s2 -> kept s1 s2).
    { intros (s1' & cs' & pa & nr & (h1 & g1 & -> & TI & TO) & _ & _ & E2). 
      assert (H2 : s_heap s2 = h1) by (subst s2; reflexivity).
      constructor; try (subst s2; reflexivity).
      - intros l Hl. rewrite EP in Hl. destruct (kt_in _ _ K1 l Hl) as (c & c' & Ec & Ec' & S). rewrite H2.
        destruct (in_dec Nat.eq_dec l (set_list (s_mset s1))) as [I|I].
        + destruct (TI l I) as (d & d' & Ed & Ed' & Pd). rewrite Ec' in Ed. injection Ed as <-. exists c', d'. spl; try assumption.
          assert (OK : rule_ok K kf N wf c').
          { destruct (mr_in _ _ _ _ _ _ _ _ MR l Hl) as (c0 & c0' & Ec0 & Ec0' & Mc). rewrite H1, Ec0' in Ec'. injection Ec' as ->.
            eapply matched_ok; [exact Mc|]. apply (WF l _ Ec0). }
          apply (predicted_same x); [apply (ro_body OK)|apply (ro_pred OK)|exact Lx|exact Pd].
        + rewrite (TO l I), Ec'. exists c', c'. auto using same_refl.
      - intros l Hl. rewrite H2. apply TO. intros I. apply Hl. rewrite EP. rewrite MS in I. apply in_rev in I. apply filter_In in I. apply I. }
    destruct A as (A0 & A1). destruct (set_list (s_mset s1)) as [|z r] eqn:EM; [apply ID; rewrite (A0 eq_refl); reflexivity|apply PR, A1; discriminate]. }
  pose proof (kept_trans _ _ _ K1 K2) as K12.
  assert (EK2 : s_kset s2 = empty_set) by (destruct (answer_frame V K wf _ _ _ _ A) as (_ & G2 & _); change (get_set KSET s2 = empty_set); rewrite G2; exact EK).
  split.
  - assert (FH : forall l, h' l = s_heap s2 l) by (intros l; rewrite (F l), EK2; reflexivity).
    constructor; try (apply K12).
    + intros l Hl. destruct (kt_in _ _ K12 l Hl) as (c & c' & Ec & Ec' & S). exists c, c'. spl; try assumption. sst. rewrite FH. exact Ec'.
    + intros l Hl. sst. rewrite FH. apply (kt_out _ _ K12), Hl.
  - intros NM. sst. destruct A as (A0 & _). rewrite A0; [reflexivity|]. rewrite MS.
    destruct (filter (flagged (s_heap s1a)) (set_list (s_pset s))) as [|z r] eqn:EF; [reflexivity|exfalso].
    assert (I : In z (filter (flagged (s_heap s1a)) (set_list (s_pset s)))) by (rewrite EF; left; reflexivity).
    apply filter_In in I. destruct I as (Iz & Fz). destruct (mr_in _ _ _ _ _ _ _ _ MR z Iz) as (c & c' & Ec & Ec' & Mc).
    unfold flagged in Fz. rewrite Ec' in Fz. apply (ma_m _ _ _ _ _ _ _ Mc) in Fz.
    apply (NM z c Iz Ec). destruct (matched_same x c c' (ro_body (WF z c Ec)) Lx Mc) as [_ _ _ _ _ _ S]. eapply (kp_mt KP); eassumption.
Qed.

Definition no_match (s : st B) (x : list f64) : Prop :=
  forall l c, In l (set_list (s_pset s)) -> s_heap s l = Some c -> ~ mt (c_body c) x.
Lemma kept_no_match s s' x : kept s s' -> no_match s x -> no_match s' x.
Proof.
  intros H NM l c' Hl Ec' Mx. rewrite (kt_pset _ _ H) in Hl. destruct (kt_in _ _ H l Hl) as (c & c2 & Ec & Ec2 & S).
  rewrite Ec' in Ec2. injection Ec2 as <-. apply (NM l c Hl Ec). destruct S as [_ _ _ _ _ _ S]. eapply (kp_mt KP); eassumption.
Qed.
Notation given cv := (firstn (Z.to_nat (n_actions K * y_dim K)) cv).

Lemma predict_rows_kept N xs cv : forall s, 0 <= N -> Good K kf N wf s -> s_explore s = false -> Forall (xok K dom) xs ->
  n_actions K * y_dim K <= Z.of_nat (length cv) ->
  hpost FO (predict_rows V K xs (Some cv) s) (fun ps s' => kept s s' /\ Good K kf N wf s' /\
    Forall2 (fun x p => no_match s x -> p = given cv) xs ps).
Proof.
  induction xs as [|x xs IH]; intros s N0 G E F HC.
  - apply hp_ret. spl; [eapply kept_refl, G|exact G|constructor].
  - cbn [predict_rows]. inversion F as [|? ? F1 F2]; subst.
    eapply hp_bind; [apply (exploit_Good FO V K kf wf mt CO VO HT N); try assumption; intros c Ec; injection Ec as <-; exact HC|].
    intros [] s1 (TR & G1). apply hp_bind_get. destruct (trial_kept N _ _ _ _ _ G F1 E TR) as (K1 & P1).
    eapply hp_bind; [apply IH; try assumption; rewrite (trial_explore V K wf mt _ _ _ _ _ TR); exact E|].
    intros ps s' (K2 & G' & P2). apply hp_ret. spl; [eapply kept_trans; eassumption|exact G'|]. constructor; [exact P1|].
    eapply Forall2_impl; [|exact P2]. intros a p H NM. apply H. eapply kept_no_match; eassumption.
Qed.
Lemma C16_predict N xs cv s : 0 <= N -> Good K kf N wf s -> Forall (xok K dom) xs ->
  n_actions K * y_dim K <= Z.of_nat (length cv) ->
  hpost FO (supervised_predict V K xs (Some cv) s) (fun ps s' => kept s s' /\
    Forall2 (fun x p => no_match s x -> p = given cv) xs ps).
Proof.
  intros N0 G F HC. unfold supervised_predict. apply hp_bind_mod.
  assert (G0 : Good K kf N wf (with_explore false s)) by (eapply Good_ext; [exact G| | | |]; reflexivity).
  eapply hp_mono; [apply (predict_rows_kept N xs cv _ N0 G0 eq_refl F HC)|].
  intros ps s' (K1 & _ & P). split; [|exact P]. destruct K1. constructor; assumption.
Qed.

Lemma score_rows_kept N rows cv : forall err s, 0 <= N -> Good K kf N wf s -> s_explore s = false ->
  Forall (fun r => xok K dom (fst r)) rows -> n_actions K * y_dim K <= Z.of_nat (length cv) ->
  hpost FO (score_rows V K rows (Some cv) err s) (fun _ s' => kept s s' /\ Good K kf N wf s').
Proof.
  induction rows as [|(x, y) xs IH]; intros err s N0 G E F HC.
  - apply hp_ret. spl; [eapply kept_refl, G|exact G].
  - cbn [score_rows]. inversion F as [|? ? F1 F2]; subst.
    eapply hp_bind; [apply (exploit_Good FO V K kf wf mt CO VO HT N); try assumption; intros c Ec; injection Ec as <-; exact HC|].
    intros [] s1 (TR & G1). apply hp_bind_get. destruct (trial_kept N _ _ _ _ _ G F1 E TR) as (K1 & P1).
    eapply hp_mono; [apply IH; try assumption; rewrite (trial_explore V K wf mt _ _ _ _ _ TR); exact E|].
    intros e s' (K2 & G'). spl; [eapply kept_trans; eassumption|exact G'].
Qed.
Lemma C16_score N d cv s : 0 <= N -> Good K kf N wf s -> data_ok (dom := dom) K d ->
  n_actions K * y_dim K <= Z.of_nat (length cv) ->
  hpost FO (supervised_score V K d (Some cv) s) (fun _ s' => kept s s').
Proof.
  intros N0 G (D1 & D2 & D3 & D4) HC. unfold supervised_score. apply hp_bind_mod.
  assert (G0 : Good K kf N wf (with_explore false s)) by (eapply Good_ext; [exact G| | | |]; reflexivity).
  assert (F : Forall (fun r => xok K dom (fst r)) (combine (in_x d) (in_y d))).
  { apply Forall_forall. intros (x, y) I. apply in_combine_l in I. rewrite Forall_forall in D3. apply D3, I. }
  eapply hp_bind; [apply (score_rows_kept N _ cv f0 _ N0 G0 eq_refl F HC)|].
  intros e s' (K1 & _). apply hp_ret. destruct K1. constructor; assumption.
Qed.
Lemma score_n_loop_kept N n : forall d cv err s, 0 <= N -> Good K kf N wf s -> s_explore s = false -> data_ok (dom := dom) K d ->
  n_actions K * y_dim K <= Z.of_nat (length cv) ->
  hpost FO (score_n_loop V K n d (Some cv) err s) (fun _ s' => kept s s' /\ Good K kf N wf s').
Proof.
  induction n as [|n IH]; intros d cv err s N0 G E D HC.
  - apply hp_ret. spl; [eapply kept_refl, G|exact G].
  - cbn [score_n_loop]. apply (sampled_spec (dom := dom) FO K d 0 true s); [exact D|lia|].
    intros x y s1 SA Lx Ly H1 H2 H3 H4 H5.
    assert (G1 : Good K kf N wf s1) by (eapply Good_ext; eassumption).
    assert (T1 : s_time s1 = s_time s) by (destruct SA as (i & g & _ & _ & _ & _ & ->); reflexivity).
    eapply hp_bind; [apply (exploit_Good FO V K kf wf mt CO VO HT N); try assumption; [congruence|intros c Ec; injection Ec as <-; exact HC]|].
    intros [] s2 (TR & G2). apply hp_bind_get. destruct (trial_kept N _ _ _ _ _ G1 Lx (eq_trans H5 E) TR) as (K1 & P1).
    assert (K0 : kept s s2).
    { destruct K1 as [A1 A2 A3 A4 A5 A6]. constructor; try congruence; rewrite <- H3, <- H1; assumption. }
    eapply hp_mono; [apply IH; try assumption; rewrite (trial_explore V K wf mt _ _ _ _ _ TR); congruence|].
    intros e s' (K2 & G'). spl; [eapply kept_trans; eassumption|exact G'].
Qed.
Lemma C16_score_n N d n cv s : 0 <= N -> Good K kf N wf s -> data_ok (dom := dom) K d ->
  n_actions K * y_dim K <= Z.of_nat (length cv) ->
  hpost FO (supervised_score_n V K d n (Some cv) s) (fun _ s' => kept s s').
Proof.
  intros N0 G D HC. unfold supervised_score_n. destruct (n_samples d <? n); [apply (C16_score N); assumption|].
  apply hp_bind_mod. assert (G0 : Good K kf N wf (with_explore false s)) by (eapply Good_ext; [exact G| | | |]; reflexivity).
  eapply hp_bind; [apply (score_n_loop_kept N _ d cv f0 _ N0 G0 eq_refl D HC)|].
  intros e s' (K1 & _). apply hp_ret. destruct K1. constructor; assumption.
Qed.
End Keep.

(** ** Rules assembled from parts: which data prediction leaves alone. *)
Section KeepJoin.
Context {C A P : Type} (K : cfg) {dom : list f64 -> Prop} (VC : condT C) (VA : actT A) (VP : predT P)
  (wc : C -> Prop) (mc : C -> list f64 -> Prop) (wa : A -> Prop) (wp : P -> Prop).
(** Matching does not touch the condition, computing does not touch the action. *)
Definition cond_static : Prop := forall c x r, wc c -> xok K dom x -> rout (k_match VC c x) r -> fst r = c.
Definition act_static : Prop := forall a x r, wa a -> xok K dom x -> rout (i_compute VA a x) r -> fst r = a.
(** [pk]: what a predictor has learnt is the same. *)
Definition pred_static (pk : P * list f64 -> P * list f64 -> Prop) : Prop :=
  (forall p, pk p p) /\ (forall p q r, pk p q -> pk q r -> pk p r) /\
  forall p v x r, wp p -> Z.of_nat (length v) = y_dim K -> xok K dom x -> rout (q_compute VP p v x) r -> pk (p, v) r.
(** The same condition and action, and the same learnt data. *)
Definition carried (pk : P * list f64 -> P * list f64 -> Prop) (b b' : payload C A P * list f64) : Prop :=
  y_cond (fst b') = y_cond (fst b) /\ y_act (fst b') = y_act (fst b) /\
  match y_pred (fst b), y_pred (fst b') with
  | Some p, Some p' => pk (p, snd b) (p', snd b')
  | None, None => True
  | _, _ => False
  end.
Lemma keeps_join pk : cond_static -> act_static -> pred_static pk ->
  keeps (dom := dom) (join VC VA VP) K (wf_pay wc wa wp) (mt_pay mc) (carried pk).
Proof.
  intros HC HA (Pr & Pt & HP).
  assert (RF : forall p, carried pk p p).
  { intros (b, v). split; [reflexivity|]. split; [reflexivity|]. cbn. destruct (y_pred b); [apply Pr|exact I]. }
  constructor.
  - exact RF.
  - intros (b1, v1) (b2, v2) (b3, v3) (A1 & A2 & A3) (B1 & B2 & B3). unfold carried in *. cbn [fst snd] in *.
    spl; try congruence. destruct (y_pred b1), (y_pred b2), (y_pred b3); try contradiction; [eapply Pt; eassumption|exact I].
  - intros b v x r W Lx H. cbn in H. destruct W as ((c & Ec & Wc) & _ & _). rewrite Ec in H.
    apply rout_bind in H. destruct H as (c0 & H0 & H). apply rout_ret in H0. subst c0.
    apply rout_bind in H. destruct H as (r0 & H0 & H). apply rout_ret in H. subst r. pose proof (HC _ _ _ Wc Lx H0) as E.
    unfold carried. cbn [fst snd set_cond y_cond y_act y_pred]. rewrite E. spl; try congruence. destruct (y_pred b); [apply Pr|exact I].
  - intros b v x r W Lx H. cbn in H. destruct W as (_ & (a & Ea & Wa) & _). rewrite Ea in H.
    apply rout_bind in H. destruct H as (c0 & H0 & H). apply rout_ret in H0. subst c0.
    apply rout_bind in H. destruct H as (r0 & H0 & H). apply rout_ret in H. subst r. pose proof (HA _ _ _ Wa Lx H0) as E.
    unfold carried. cbn [fst snd set_act y_cond y_act y_pred]. rewrite E. spl; try congruence. destruct (y_pred b); [apply Pr|exact I].
  - intros b v x r W L Lx H. cbn in H. destruct W as (_ & _ & (p & Ep & Wp)). rewrite Ep in H.
    apply rout_bind in H. destruct H as (c0 & H0 & H). apply rout_ret in H0. subst c0.
    apply rout_bind in H. destruct H as (r0 & H0 & H). apply rout_ret in H. subst r. pose proof (HP _ _ _ _ Wp L Lx H0) as E.
    unfold carried. cbn [fst snd set_pred y_cond y_act y_pred]. spl; try reflexivity. rewrite Ep. destruct r0. exact E.
  - intros b v b' v' x (A1 & _) (c & Ec & M). cbn in A1. exists c. split; [congruence|exact M].
Qed.
End KeepJoin.

(** Every modelled part is static. *)
Section Static.
Context (K : cfg) (P : cpar) (R : ppar) (HX : 1 <= x_dim K) (HY : 1 <= y_dim K).
Lemma dummy_static dom wc : cond_static (dom := dom) K dummy_cond wc.
Proof. intros c x r _ _ H. apply rout_ret in H. subst. destruct c. reflexivity. Qed.
Lemma pure_match_static {T} dom (VC : condT T) (m : T -> list f64 -> outcome bool) wc :
  (forall c x, k_match VC c x = (b <- lift (m c x) ;; ret (c, b))%rng) -> cond_static (dom := dom) K VC wc.
Proof.
  intros E c x r _ _ H. rewrite E in H. apply rout_bind in H. destruct H as (b & _ & H). apply rout_ret in H. subst. reflexivity.
Qed.
Lemma ternary_static dom wc : cond_static (dom := dom) K (ternary_cond K P) wc.
Proof. eapply pure_match_static. reflexivity. Qed.
Lemma rect_static dom wc : cond_static (dom := dom) K (rect_cond K P) wc.
Proof. eapply pure_match_static. reflexivity. Qed.
Lemma ellip_static dom wc : cond_static (dom := dom) K (ellip_cond K P) wc.
Proof. eapply pure_match_static. reflexivity. Qed.
Lemma integer_static dom wa : act_static (dom := dom) K (integer_act K) wa.
Proof. intros c x r _ _ H. apply rout_ret in H. subst. reflexivity. Qed.
(** A constant predictor's data is the rule's prediction itself. *)
Lemma constant_static dom wp : pred_static (dom := dom) K (constant_pred K) wp (fun p q => snd q = snd p).
Proof.
  split; [reflexivity|]. split; [congruence|]. intros p v x r _ _ _ H. apply rout_ret in H. subst. reflexivity.
Qed.
Definition nlms_kept (p q : nlms * list f64) : Prop :=
  nl_n (fst q) = nl_n (fst p) /\ nl_weights (fst q) = nl_weights (fst p) /\ nl_mu (fst q) = nl_mu (fst p) /\ nl_eta (fst q) = nl_eta (fst p).
Lemma nlms_static dom : pp_type R = PRED_TYPE_NLMS_LINEAR \/ pp_type R = PRED_TYPE_NLMS_QUADRATIC ->
  pred_static (dom := dom) K (nlms_pred K R) (wf_nlms K R) nlms_kept.
Proof.
  intros T. split; [repeat split|]. split; [intros p q r (A1 & A2 & A3 & A4) (B1 & B2 & B3 & B4); unfold nlms_kept; spl; congruence|].
  intros p v x r W L (Lx & _) H. cbn in H. apply rout_lift in H.
  destruct (nlms_compute_ok K R HX HY T p v x W L Lx) as (c' & v' & E & W' & _ & E1 & E2 & E3 & _).
  rewrite E in H. injection H as <-. unfold nlms_kept. cbn [fst]. spl; try assumption. destruct W as (-> & _), W' as (-> & _). reflexivity.
Qed.
Definition rls_kept (p q : rls * list f64) : Prop :=
  rl_n (fst q) = rl_n (fst p) /\ rl_weights (fst q) = rl_weights (fst p) /\ rl_matrix (fst q) = rl_matrix (fst p).
Lemma rls_static dom : pp_type R = PRED_TYPE_RLS_LINEAR \/ pp_type R = PRED_TYPE_RLS_QUADRATIC ->
  pred_static (dom := dom) K (rls_pred K R) (wf_rls K R) rls_kept.
Proof.
  intros T. split; [repeat split|]. split; [intros p q r (A1 & A2 & A3) (B1 & B2 & B3); unfold rls_kept; spl; congruence|].
  intros p v x r W L (Lx & _) H. cbn in H. apply rout_lift in H.
  destruct (rls_compute_ok K R HX HY T p v x W L Lx) as (c' & v' & E & W' & _ & E1 & E2 & _).
  rewrite E in H. injection H as <-. unfold rls_kept. cbn [fst]. spl; try assumption. destruct W as (-> & _), W' as (-> & _). reflexivity.
Qed.
End Static.

(** ** Offspring reported as unchanged equal their parent. *)
Section Honest.
Context {C A P : Type} (FO : Prop) (K : cfg) (kf N : Z) {dom : list f64 -> Prop} (VC : condT C) (VA : actT A) (VP : predT P)
  (wc : C -> Prop) (mc : C -> list f64 -> Prop) (wa : A -> Prop) (wp : P -> Prop).
Record cond_honest (same : C -> C -> Prop) : Prop := {
  hc_copy : forall c d, wc c -> rout (k_copy VC c) d -> d = c;
  hc_cross : forall c1 c2 r, wc c1 -> wc c2 -> rout (k_crossover VC c1 c2) r -> snd r = false -> fst r = (c1, c2);
  hc_mutate : forall c r, wc c -> rout (k_mutate VC c) r -> snd r = false -> same c (fst r)
}.
Record act_honest (same : A -> A -> Prop) : Prop := {
  ha_refl : forall a, same a a;
  ha_copy : forall c d, wa c -> rout (i_copy VA c) d -> d = c;
  ha_cross : forall c1 c2 r, wa c1 -> wa c2 -> rout (i_crossover VA c1 c2) r -> snd r = false -> fst r = (c1, c2);
  ha_mutate : forall c r, wa c -> rout (i_mutate VA c) r -> snd r = false -> same c (fst r)
}.
Notation W := (wf_pay wc wa wp).
Notation J := (join VC VA VP).
Definition alike (sc : C -> C -> Prop) (sa : A -> A -> Prop) (b b' : payload C A P) : Prop :=
  exists c c' a a', y_cond b = Some c /\ y_cond b' = Some c' /\ sc c c' /\ y_act b = Some a /\ y_act b' = Some a' /\ sa a a'.
Lemma rout_j1 {T U} (o : option T) (k : T -> RM U) t r : o = Some t -> rout (bind (need o) k) r -> rout (k t) r.
Proof. intros -> H. apply rout_bind in H. destruct H as (t' & H0 & H). apply rout_ret in H0. subst. exact H. Qed.
Lemma rout_j2 {T U} (m : RM T) (f : T -> U) r : rout (bind m (fun x => ret (f x))) r -> exists x, rout m x /\ r = f x.
Proof. intros H. apply rout_bind in H. destruct H as (x & H0 & H). apply rout_ret in H. eauto. Qed.
Lemma copied_parts sc sa src b : cond_honest sc -> act_honest sa -> W src -> copied J K src b ->
  y_cond b = y_cond src /\ y_act b = y_act src.
Proof.
  intros HC HA ((c & Ec & Wc) & (a & Ea & Wa) & (p & Ep & Wp)) (b1 & b2 & H1 & H2 & H3).
  cbn in H1, H2. apply (rout_j1 _ _ _ _ Ea) in H1. apply rout_j2 in H1. destruct H1 as (a' & H1 & ->).
  apply (ha_copy _ HA _ _ Wa) in H1. subst a'.
  apply (rout_j1 _ _ _ _ Ec) in H2. apply rout_j2 in H2. destruct H2 as (c' & H2 & ->).
  apply (hc_copy _ HC _ _ Wc) in H2. subst c'.
  destruct (ea_pred_reset K); cbn in H3.
  - apply rout_j2 in H3. destruct H3 as (p' & _ & ->). cbn. split; congruence.
  - apply (rout_j1 _ _ _ _ Ep) in H3. apply rout_j2 in H3. destruct H3 as (p' & _ & ->). cbn. split; congruence.
Qed.
Lemma crossed_parts sc sa a1 a2 b1 b2 : cond_honest sc -> act_honest sa ->
  (exists c, y_cond a1 = Some c /\ wc c) -> (exists c, y_cond a2 = Some c /\ wc c) ->
  (exists c, y_act a1 = Some c /\ wa c) -> (exists c, y_act a2 = Some c /\ wa c) ->
  crossed J a1 a2 b1 b2 false ->
  y_cond b1 = y_cond a1 /\ y_cond b2 = y_cond a2 /\ y_act b1 = y_act a1 /\ y_act b2 = y_act a2.
Proof.
  intros HC HA (k1 & Ek1 & W1) (k2 & Ek2 & W2) (i1 & Ei1 & V1) (i2 & Ei2 & V2) (c1 & c2 & f1 & d1 & d2 & f2 & f3 & H1 & H2 & H3 & F).
  symmetry in F. apply orb_false_iff in F. destruct F as (F & ->). apply orb_false_iff in F. destruct F as (-> & ->).
  cbn in H1. apply (rout_j1 _ _ _ _ Ek1) in H1. apply (rout_j1 _ _ _ _ Ek2) in H1. apply rout_j2 in H1. destruct H1 as (r & H1 & E).
  injection E as E1 E2 E3. pose proof (hc_cross _ HC _ _ _ W1 W2 H1 (eq_sym E3)) as Q. destruct r as ((r1 & r2), f). cbn in Q. injection Q as -> ->.
  cbn in H2. apply rout_bind in H2. destruct H2 as (p1 & _ & H2). apply rout_bind in H2. destruct H2 as (p2 & _ & H2).
  apply rout_j2 in H2. destruct H2 as (r & _ & E). injection E as E4 E5 _. 
  assert (G1 : y_act d1 = Some i1) by (subst; exact Ei1). assert (G2 : y_act d2 = Some i2) by (subst; exact Ei2).
  cbn in H3. apply (rout_j1 _ _ _ _ G1) in H3. apply (rout_j1 _ _ _ _ G2) in H3. apply rout_j2 in H3. destruct H3 as (r' & H3 & E).
  injection E as E6 E7 E8. pose proof (ha_cross _ HA _ _ _ V1 V2 H3 (eq_sym E8)) as Q. destruct r' as ((r1' & r2'), f'). cbn in Q. injection Q as -> ->.
  subst. cbn. spl; congruence.
Qed.
Lemma mutated_parts sc sa b o : cond_honest sc -> act_honest sa ->
  (exists c, y_cond b = Some c /\ wc c) -> (exists c, y_act b = Some c /\ wa c) ->
  mutated J K b o false -> alike sc sa b o.
Proof.
  intros HC HA (k & Ek & Wk) (i & Ei & Wi) (c & f1 & d & f2 & f3 & H1 & H2 & H3 & F).
  symmetry in F. apply orb_false_iff in F. destruct F as (F & ->). apply orb_false_iff in F. destruct F as (-> & ->).
  cbn in H1. apply (rout_j1 _ _ _ _ Ek) in H1. apply rout_j2 in H1. destruct H1 as (r & H1 & E). injection E as E1 E2.
  pose proof (hc_mutate _ HC _ _ Wk H1 (eq_sym E2)) as S.
  cbn in H2. apply rout_bind in H2. destruct H2 as (p1 & _ & H2). apply rout_j2 in H2. destruct H2 as (r' & _ & E). injection E as E3 _.
  destruct (1 <? n_actions K).
  - assert (G1 : y_act d = Some i) by (subst; exact Ei). cbn in H3. apply (rout_j1 _ _ _ _ G1) in H3. apply rout_j2 in H3.
    destruct H3 as (q & H3 & E). injection E as E4 E5. pose proof (ha_mutate _ HA _ _ Wi H3 (eq_sym E5)) as S2.
    exists k, (fst r), i, (fst q). subst. spl; try assumption; reflexivity.
  - destruct H3 as (-> & _). exists k, (fst r), i, i. subst. spl; try assumption; try reflexivity. apply (ha_refl _ HA).
Qed.
Lemma bred_alike sc sa p1 p2 m1 m2 cmod o1 o2 : cond_honest sc -> act_honest sa -> W p1 -> W p2 ->
  bred J K p1 p2 cmod m1 m2 o1 o2 ->
  (cmod || m1 = false -> alike sc sa p1 o1) /\ (cmod || m2 = false -> alike sc sa p2 o2).
Proof.
  intros HC HA W1 W2 (a1 & a2 & b1 & b2 & C1 & C2 & X & M1 & M2).
  destruct (copied_parts _ _ _ _ HC HA W1 C1) as (P1 & P2). destruct (copied_parts _ _ _ _ HC HA W2 C2) as (P3 & P4).
  destruct W1 as (Wc1 & Wa1 & _), W2 as (Wc2 & Wa2 & _). rewrite <- P1 in Wc1. rewrite <- P2 in Wa1. rewrite <- P3 in Wc2. rewrite <- P4 in Wa2.
  split; intros F; apply orb_false_iff in F; destruct F as (-> & ->);
    destruct (crossed_parts _ _ _ _ _ _ HC HA Wc1 Wc2 Wa1 Wa2 X) as (Q1 & Q2 & Q3 & Q4).
  - rewrite <- Q1 in Wc1. rewrite <- Q3 in Wa1. destruct (mutated_parts _ _ _ _ HC HA Wc1 Wa1 M1) as (c & c' & a & a' & H).
    exists c, c', a, a'. rewrite <- P1, <- P2, <- Q1, <- Q3. exact H.
  - rewrite <- Q2 in Wc2. rewrite <- Q4 in Wa2. destruct (mutated_parts _ _ _ _ HC HA Wc2 Wa2 M2) as (c & c' & a & a' & H).
    exists c, c', a, a'. rewrite <- P3, <- P4, <- Q2, <- Q4. exact H.
Qed.
(** One round of reproduction: the two offspring, placed one after the other. *)
Lemma C15_lemma sc sa w p q s ex : cfg_ok K kf -> vt_ok (dom := dom) FO J K W (mt_pay mc) -> 0 <= N ->
  cond_honest sc -> act_honest sa ->
  Inv K kf N W s ex -> PopSpec.act_ok s (get_set w s) -> w <> PSET ->
  In p (set_list (s_pset s)) -> In q (set_list (s_pset s)) -> set_sz (get_set w s) <= int_max ->
  hpost FO (ea_offspring J K w p q s) (fun _ s' => exists c1 c2 d1 d2 ch1 ch2 g s1 s2,
    s_heap s p = Some c1 /\ s_heap s q = Some c2 /\
    s1 = with_rng g (with_heap (upd (upd (s_heap s) (s_next s) (Some d1)) (S (s_next s)) (Some d2)) (S (S (s_next s))) s) /\
    placed J K w p q (s_next s) d1 ch1 s1 s2 /\ placed J K w q p (S (s_next s)) d2 ch2 s2 s' /\
    (ch1 = false -> alike sc sa (c_body c1) (c_body d1)) /\ (ch2 = false -> alike sc sa (c_body c2) (c_body d2))).
Proof.
  intros CO VO HN HC HA I AO Hw Ip Iq Sz.
  pose proof (ea_loop_spec FO J K kf N W (mt_pay mc) CO VO HN 1 w p q s ex I AO Hw Ip Iq Sz) as H. cbn [ea_loop] in H.
  unfold mbind in H. destruct (ea_offspring J K w p q s) as [((), s')| | |]; try exact H. cbn in H. destruct H as (H & _). cbn.
  inversion H as [|n s0 g c1 c2 d1 d2 cmod m1 m2 s1 s2 s3 s'' E1 E2 O1 O2 BR S1 P1 P2 BR2 EQ1 EQ2 EQ3]. subst. 
  inversion BR2; subst.
  exists c1, c2, d1, d2, (cmod || m1), (cmod || m2), g, (with_rng g (with_heap (upd (upd (s_heap s) (s_next s) (Some d1)) (S (s_next s)) (Some d2)) (S (S (s_next s))) s)), s2.
  destruct (bred_alike sc sa _ _ _ _ _ _ _ HC HA (ro_body (i_ok I _ _ E1)) (ro_body (i_ok I _ _ E2)) BR) as (B1 & B2).
  spl; try assumption; reflexivity.
Qed.
End Honest.
Section HonestParts.
Context (K : cfg) (P : cpar) (HX : 1 <= x_dim K) (HN : 1 <= n_actions K <= int_max).
Notation sany := (src_any (lm K)).
Notation rt := (rt (fun _ : rng => True)).
Lemma rout_t {A} (m : RM A) (Q : A -> Prop) a : rt m Q -> rout m a -> Q a.
Proof. intros H. apply (rout_post True). eapply rp_t; [exact H|auto]. Qed.
Lemma dummy_honest wc : cond_honest dummy_cond wc (fun _ _ => True).
Proof.
  constructor.
  - intros [] [] _ _. reflexivity.
  - intros [] [] r _ _ H _. apply rout_ret in H. subst. reflexivity.
  - auto.
Qed.
Lemma ternary_honest : 1 <= cp_bits P <= 31 -> cond_honest (ternary_cond K P) (wf_tern K P) (fun c d => t_string d = t_string c).
Proof.
  intros HB. constructor.
  - intros c d _ H. apply rout_ret in H. subst. destruct c; reflexivity.
  - intros c1 c2 r W1 W2 H F. cbn in H.
    eapply rout_t in H; [|apply (ternary_crossover_ok _ K P _ sany); try assumption; lia].
    destruct r as ((d1, d2), ch). destruct H as (_ & _ & _ & _ & _ & Q & _). destruct (Q F) as (-> & ->). reflexivity.
  - intros c r W1 H F. cbn in H.
    eapply rout_t in H; [|apply (ternary_mutate_gen _ K P _ sany) with (Qm := fun _ => True); try assumption; try lia; apply mu_len, W1].
    destruct r as (d, ch). destruct H as (_ & _ & _ & Q). cbn in F |- *. subst ch.
    destruct (list_eq_dec Z.eq_dec (t_string d) (t_string c)) as [E|E]; [exact E|]. apply Q in E. discriminate.
Qed.
(** Equal coordinates in the sense of C's ==. *)
Definition same_coords (a b : list f64) : Prop := len a = len b /\ forall i, 0 <= i < len a -> feq (at_ f0 a i) (at_ f0 b i) = true.
Lemma no_change (n : Z) (a a' b b' : list f64) : len a = n -> len a' = n -> len b = n -> len b' = n ->
  (false = true <-> exists i, 0 <= i < n /\ (feq (at_ f0 a i) (at_ f0 b i) = false \/ feq (at_ f0 a' i) (at_ f0 b' i) = false)) ->
  same_coords a b /\ same_coords a' b'.
Proof.
  intros L1 L2 L3 L4 [_ H].
  split; (split; [lia|]); intros i Hi;
    match goal with |- ?f = true => destruct f eqn:E; [reflexivity|] end; apply H; exists i; (split; [lia|]); auto.
Qed.
Lemma rect_honest : cond_honest (rect_cond K P) (wf_rect K) (fun c d => same_coords (r_b1 c) (r_b1 d) /\ same_coords (r_b2 c) (r_b2 d)).
Proof.
  constructor.
  - intros c d W1 H. cbn in H. apply rout_lift in H. rewrite (rect_copy_ok K c W1) in H. congruence.
  - intros c1 c2 r W1 W2 H F. cbn in H.
    eapply rout_t in H; [|apply (rect_crossover_ok _ K P _ sany); try assumption; lia].
    destruct r as ((d1, d2), ch). destruct H as (_ & _ & _ & _ & _ & _ & Q & _). destruct (Q F) as (-> & ->). reflexivity.
  - intros c r W1 H F. cbn in H.
    eapply rout_t in H; [|apply (rect_mutate_gen _ K P _ sany) with (Qm := fun _ => True); try assumption; try lia; apply mu_len, W1].
    destruct r as (d, ch). destruct H as (W2 & _ & _ & Q). cbn in F |- *. subst ch.
    destruct W1 as (A1 & A2 & _), W2 as (B1 & B2 & _). apply (no_change (x_dim K)); assumption.
Qed.
Lemma ellip_honest : cond_honest (ellip_cond K P) (wf_ellip K)
  (fun c d => same_coords (e_center c) (e_center d) /\ same_coords (e_spread c) (e_spread d)).
Proof.
  constructor.
  - intros c d W1 H. cbn in H. apply rout_lift in H. rewrite (ellip_copy_ok K c W1) in H. congruence.
  - intros c1 c2 r W1 W2 H F. cbn in H.
    eapply rout_t in H; [|apply (ellip_crossover_ok _ K P _ sany); try assumption; lia].
    destruct r as ((d1, d2), ch). destruct H as (_ & _ & _ & _ & _ & _ & Q & _). destruct (Q F) as (-> & ->). reflexivity.
  - intros c r W1 H F. cbn in H.
    eapply rout_t in H; [|apply (ellip_mutate_gen _ K P _ sany) with (Qm := fun _ => True); try assumption; try lia; apply mu_len, W1].
    destruct r as (d, ch). destruct H as (W2 & _ & _ & Q). cbn in F |- *. subst ch.
    destruct W1 as (A1 & A2 & _), W2 as (B1 & B2 & _). apply (no_change (x_dim K)); assumption.
Qed.
Lemma integer_honest : act_honest (integer_act K) (act_wf K) (fun a b => a_action b = a_action a).
Proof.
  constructor.
  - reflexivity.
  - intros c d _ H. apply rout_ret in H. subst. destruct c; reflexivity.
  - intros c1 c2 r _ _ H _. apply rout_ret in H. subst. reflexivity.
  - intros c r W1 H F. cbn in H.
    eapply rout_t in H; [|apply (actint_mutate_gen _ K _ sany) with (Qm := fun _ => True); try assumption; try lia; apply mu_len, W1].
    destruct r as (d, ch). destruct H as (_ & _ & Q & _). cbn in F |- *. subst ch.
    destruct (Z.eq_dec (a_action d) (a_action c)) as [E|E]; [exact E|]. apply Q in E. discriminate.
Qed.
End HonestParts.
