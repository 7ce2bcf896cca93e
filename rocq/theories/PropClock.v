(** * No overflow in the EA trigger: support for C58. *)
From Coq Require Import ZArith Bool List Lia Lra Reals.
From Verif Require Import Outcome F64 F64Facts F64Bounds Rng RngFacts Pop PopSpec PopInv PopUpdate PopPA PopEA PopTrial PopFit PopRL PopOps PopSeq PopClock Clock
  Arr Cond Blas Pred Loss Comp ArrFacts SamFacts TernFacts RectFacts EllipFacts PredFacts CompFacts Demo DemoEx PropStore PropMulti.
Import ListNotations.
Open Scope Z_scope.

Section PropClock.
Context {B : Type} (FO : Prop) (V : vtab B) (K : cfg) (kf : Z) (wf : B -> Prop)
  (mt : B -> list f64 -> Prop) (CO : cfg_ok K kf) {dom : list f64 -> Prop} (VO : vt_ok (dom := dom) FO V K wf mt).

Lemma cint_ok z : 0 <= z <= int_max -> cint z = Ok z.
Proof. unfold cint, int_max. intros H. replace (-2 ^ 31 <=? z) with true by (symmetry; apply Z.leb_le; lia). replace (z <? 2 ^ 31) with true by (symmetry; apply Z.ltb_lt; lia). reflexivity. Qed.
Lemma total_time_safe (cs : list (cl B)) sum : Forall (fun c => 0 <= c_time c * c_num c <= int_max) cs ->
  total_time_c cs sum = Ok (fold_left (fun s c => fadd s (of_Z (c_time c * c_num c))) cs sum).
Proof.
  revert sum. induction cs as [|c r IH]; intros sum F; cbn [total_time_c fold_left]; [reflexivity|].
  inversion F as [|? ? F1 F2]; subst. rewrite cint_ok by exact F1. apply IH, F2.
Qed.
Lemma get_all_eq ls (s : st B) cs : map (s_heap s) ls = map Some cs -> get_all ls s = Ok (cs, s).
Proof.
  revert cs. induction ls as [|l r IH]; intros [|c cs] H; try discriminate H; [reflexivity|]. cbn [map] in H. injection H as H1 H2.
  cbn [get_all]. unfold mbind at 1. unfold get at 1. rewrite H1. unfold mbind. rewrite (IH _ H2). reflexivity.
Qed.
Lemma lookup_all N (s : st B) ex ls : Inv K kf N wf s ex -> (forall l, In l ls -> In l (set_list (s_pset s))) -> exists cs, map (s_heap s) ls = map Some cs.
Proof.
  intros I. induction ls as [|l r IH]; intros H; [exists []; reflexivity|]. destruct (IH (fun x Hx => H x (or_intror Hx))) as (cs & E).
  destruct (s_heap s l) as [c|] eqn:El; [|exfalso; apply (inv_live_P I (H l (or_introl eq_refl))), El].
  exists (c :: cs). cbn. rewrite El, E. reflexivity.
Qed.
Lemma single_num N (s : st B) ex l c : Inv K kf N wf s ex -> In l (set_list (s_pset s)) -> s_heap s l = Some c -> 1 <= c_num c <= set_nm (s_pset s).
Proof.
  intros I H E. pose proof (inv_num_pos I H) as P. unfold num_of in P. rewrite E in P. split; [exact P|].
  rewrite (so_num (i_p I)). replace (c_num c) with (sum_nums (s_heap s) [l]) by (cbn; unfold num_of; rewrite E; lia).
  apply sum_nums_incl; [constructor; [intros []|constructor]|intros x [<- |[]]; exact H|].
  intros x Hx. pose proof (inv_num_pos I Hx). lia.
Qed.

(** The trigger evaluated in unbounded integers. *)
Definition due (w : sel) (s : st B) (cs : list (cl B)) : bool :=
  negb (set_sz (get_set w s) =? 0) && negb (flt (fsub (of_Z (s_time s + 1)) (mean_time cs (set_nm (get_set w s)))) (ea_theta K)).

Lemma C58_step_lemma T N w s ex : Inv K kf N wf s ex -> PopSpec.act_ok s (get_set w s) -> set_nm (s_pset s) <= POP_SIZE K ->
  stamped T s -> POP_SIZE K * Z.max (s_time s + 1) T <= int_max ->
  exists cs, map (s_heap s) (set_list (get_set w s)) = map Some cs /\ trigger_c K w s = Ok (due w s cs).
Proof.
  intros I (ND & SZ & SUB) PN (S0 & S) H. destruct (lookup_all N s ex _ I SUB) as (cs & Ecs). exists cs. split; [exact Ecs|].
  pose proof (proj1 (ok_pop _ _ CO)) as P0. unfold trigger_c. rewrite cint_ok by nia. unfold due.
  destruct (set_sz (get_set w s) =? 0); [reflexivity|]. rewrite (get_all_eq _ _ _ Ecs). rewrite total_time_safe; [reflexivity|].
  apply Forall_forall. intros c Hc. apply (in_map Some) in Hc. rewrite <- Ecs in Hc. apply in_map_iff in Hc. destruct Hc as (l & E & Hl).
  destruct (S l c E) as (J1 & _). destruct (single_num N s ex l c I (SUB l Hl) E) as (L1 & L2). split; [apply Z.mul_nonneg_nonneg; lia|].
  transitivity (Z.max (s_time s + 1) T * POP_SIZE K); [|lia]. apply Z.mul_le_mono_nonneg; lia.
Qed.

(** A training trial up to the EA. *)
Definition before_ea (x y : list f64) : M B unit :=
  (clset_init MSET ;;; clset_init KSET ;;; clset_match V K x true ;;; pa_build V K x ;;; clset_update V K MSET x y true)%m.
Lemma p_before T e t x y : pres T e e t 0 (before_ea x y) any.
Proof.
  unfold before_ea, clset_init. eapply p_bind0; [apply p_set|intros ? ? ? _]. eapply p_bind0; [apply p_set|intros ? ? ? _].
  eapply p_bind0; [apply p_match|intros ? ? ? _]. eapply p_bind0; [apply p_pa|intros ? ? ? _]. apply p_update.
Qed.
Lemma C58_split_lemma T x y s : stamped T s -> s_explore s = true ->
  supervised_trial V K x y None s = (before_ea x y ;;; ea V K MSET ;;; clset_kill KSET ;;; clset_free MSET)%m s.
Proof.
  intros S X. unfold supervised_trial, before_ea, mbind, clset_init.
  change (mmod (with_set MSET empty_set) s) with (Ok (tt, with_set MSET empty_set s)). cbv beta iota.
  change (mmod (with_set KSET empty_set) (with_set MSET empty_set s)) with (Ok (tt, with_set KSET empty_set (with_set MSET empty_set s))). cbv beta iota.
  set (s0 := with_set KSET empty_set (with_set MSET empty_set s)).
  destruct (clset_match V K x true s0) as [[[] s1]| | |] eqn:E1; try reflexivity.
  destruct (pa_build V K x s1) as [[[] s2]| | |] eqn:E2; try reflexivity.
  destruct (p_match V K T true 0 x true s0 tt s1 (proj1 S) S X E1) as (S1 & X1 & _).
  destruct (p_pa V K T true 0 x s1 tt s2 (proj1 S1) S1 X1 E2) as (S2 & X2 & _).
  unfold mget. rewrite X2. destruct (clset_update V K MSET x y true s2) as [[[] s3]| | |]; reflexivity.
Qed.
Lemma before_spec N x y s : 0 <= N -> N + 1 <= 2 ^ 53 -> Good K kf N wf s -> xok K dom x -> Z.of_nat (length y) = y_dim K ->
  hpost FO (before_ea x y s) (fun _ c => Inv K kf (N + 1) wf c [] /\ PopSpec.act_ok c (s_mset c) /\ set_nm (s_pset c) <= POP_SIZE K).
Proof.
  intros N0 N1 G Lx Ly. assert (NA := ok_n_actions _ _ CO). assert (PK := ok_pop _ _ CO). unfold int_max in PK, NA.
  unfold before_ea, clset_init. apply hp_bind_mod. apply hp_bind_mod.
  change (with_set KSET empty_set (with_set MSET empty_set s)) with (start s).
  assert (I0 : Inv K kf N wf (start s) []) by apply (g_inv G).
  assert (PN0 : set_nm (s_pset (start s)) <= POP_SIZE K) by apply (g_lim G).
  eapply hp_bind; [apply (matching_spec FO V K kf wf mt CO VO N x true (start s) [] N0 Lx I0 eq_refl PN0)|].
  intros [] s1 (MA & I1 & PN1 & AO1 & MB1 & NE1 & _).
  eapply hp_bind; [apply (pa_build_spec FO V K kf N wf mt CO VO x s1 [] Lx I1 AO1)|].
  intros [] s2 (PR & I2). destruct (pa_frame V K wf _ _ _ PR) as (X2 & G2 & M2).
  pose proof (G2 PSET) as P2. pose proof (G2 MSET) as MM2. cbn [get_set] in P2, MM2.
  assert (AO2 : PopSpec.act_ok s2 (s_mset s2)) by (unfold PopSpec.act_ok; rewrite P2, MM2; exact AO1).
  eapply hp_mono; [apply (clset_update_spec FO V K kf wf mt CO VO N MSET x y true s2 [] N0 N1 I2 AO2); try discriminate; try assumption|].
  - intros _. change (get_set MSET s2) with (s_mset s2). rewrite MM2. specialize (NE1 eq_refl). destruct AO1 as (_ & SZ & SUB).
    assert (Z.of_nat (length (set_list (s_mset s1))) <= sum_nums (s_heap s1) (set_list (s_mset s1))).
    { apply sum_nums_len. intros l Hl. apply (inv_num_pos I1 (SUB _ Hl)). }
    destruct (set_list (s_mset s1)); [congruence|]. cbn [length] in *. lia.
  - intros _. change (get_set MSET s2) with (s_mset s2). rewrite MM2. apply NE1. reflexivity.
  - rewrite P2. lia.
  - intros [] c (_ & I3 & AO3 & E). split; [exact I3|]. split; [exact AO3|]. rewrite E, P2. exact PN1.
Qed.
Lemma C58_trial_lemma T N x y s : 0 <= N -> N + 1 <= 2 ^ 53 -> Good K kf N wf s -> stamped T s ->
  xok K dom x -> Z.of_nat (length y) = y_dim K -> POP_SIZE K * Z.max (s_time s + 1) T <= int_max ->
  hpost FO (before_ea x y s) (fun _ c => exists cs, map (s_heap c) (set_list (s_mset c)) = map Some cs /\ trigger_c K MSET c = Ok (due MSET c cs)).
Proof.
  intros N0 N1 G S Lx Ly H. pose proof (before_spec N x y s N0 N1 G Lx Ly) as P.
  destruct (before_ea x y s) as [[[] c]| | |] eqn:E; cbn [hpost] in *; try exact P. destruct P as (I & AO & PN).
  destruct (p_before T (s_explore s) 0 x y s tt c (proj1 S) S eq_refl E) as (S1 & _ & C & _).
  apply (C58_step_lemma T (N + 1) MSET c [] I AO PN S1). replace (s_time c) with (s_time s) by lia. exact H.
Qed.
Context {E : Type} (VE : env E) (einv : E -> Prop) (EO : env_ok (dom := dom) FO K VE einv) (HT : ea_tournament K = true -> FO).
Lemma C58_life_lemma T os (s : st B) : (forall l, s_heap s l = None) ->
  Forall (op_ok (dom := dom) FO K kf wf einv) os -> Forall (op_stamped T) os -> costs K os <= 2 ^ 53 ->
  hpost FO ((xcsf_init V K ;;; run_ops V K VE os)%m s) (fun _ s' =>
    Good K kf (costs K os) wf s' /\ stamped T s' /\ s_time s' <= all_ticks K os).
Proof.
  intros HE F F2 LE. pose proof (life_spec FO V K kf wf mt CO VO HT VE einv EO os s HE F LE) as P.
  destruct ((xcsf_init V K ;;; run_ops V K VE os)%m s) as [[[] s']| | |] eqn:X; cbn [hpost] in *; try exact P.
  destruct (life_stamped V K T VE os s s' HE F2 X) as (A1 & A2). split; [exact P|]. split; [exact A1|lia].
Qed.
End PropClock.

Section Training.
Context {B : Type} (FO : Prop) (V : vtab B) (K : cfg) (kf : Z) (wf : B -> Prop)
  (mt : B -> list f64 -> Prop) (CO : cfg_ok K kf) {dom : list f64 -> Prop} (VO : vt_ok (dom := dom) FO V K wf mt).
Context {E : Type} (VE : env E) (einv : E -> Prop) (EO : env_ok (dom := dom) FO K VE einv) (HT : ea_tournament K = true -> FO).
Lemma C58_training_lemma T os x y (s : st B) : (forall l, s_heap s l = None) ->
  Forall (op_ok (dom := dom) FO K kf wf einv) os -> Forall (op_stamped T) os -> costs K os + 1 <= 2 ^ 53 ->
  xok K dom x -> Z.of_nat (length y) = y_dim K -> POP_SIZE K * Z.max (all_ticks K os + 1) T <= int_max ->
  hpost FO ((xcsf_init V K ;;; run_ops V K VE os ;;; before_ea V K x y)%m s) (fun _ c =>
    exists cs, map (s_heap c) (set_list (s_mset c)) = map Some cs /\ trigger_c K MSET c = Ok (due K MSET c cs)).
Proof.
  intros HE F F2 LE Lx Ly H. pose proof (C58_life_lemma FO V K kf wf mt CO VO VE einv EO HT T os s HE F F2 ltac:(lia)) as P.
  pose proof (proj1 (ok_pop _ _ CO)) as P0.
  assert (A : forall s', (xcsf_init V K ;;; run_ops V K VE os ;;; before_ea V K x y)%m s' = ((xcsf_init V K ;;; run_ops V K VE os) ;;; before_ea V K x y)%m s').
  { intros s'. unfold mbind. destruct (xcsf_init V K s') as [[? ?]| | |]; reflexivity. }
  rewrite A. eapply hp_bind; [exact P|]. intros [] s' (G & S & Ht).
  assert (N0 : 0 <= costs K os). { clear -F. induction F as [|o r H _ IH]; cbn [costs fold_right]; [lia|]. fold (costs K r). pose proof (cost_nonneg FO K kf wf einv _ H). lia. }
  apply (C58_trial_lemma FO V K kf wf mt CO VO T (costs K os)); try assumption.
  transitivity (POP_SIZE K * Z.max (all_ticks K os + 1) T); [|exact H]. apply Z.mul_le_mono_nonneg_l; lia.
Qed.
End Training.

(** A population limit of 2000 and one rule of that numerosity, stamped in trial 1073742. *)
Definition Kbig : cfg := demo_cfg 1 1 2000 false true false false.
Definition veteran : cl body := set_time 1073742 (set_num 2000 whole).
Lemma C58_refuted_lemma :
  exists (x y : list f64) (s c : st body), Good Kbig 0 5 (rect_wf Kbig) s /\ stamped 1073742 s /\
    before_ea (rect_tab Kbig) Kbig x y s = Ok (tt, c) /\ trigger_c Kbig MSET c = UB IntOverflow.
Proof.
  exists [f0; f0], [f1].
  assert (OKS : Forall (op_ok (dom := any_x) False Kbig 0 (rect_wf Kbig) (fun _ : nat => True)) [OInsert veteran]).
  { apply Forall_cons; [|apply Forall_nil]. cbn [op_ok]. split; [|cbn; lia]. constructor; cbn; try lia; try reflexivity.
      + destruct (fle_01_in fhalf eq_refl eq_refl) as (F & X). split; [exact F|split; [reflexivity|apply X]].
      + split; [reflexivity|]. rewrite f1_R. cbn. lra.
      + unfold rect_wf, wf_pay. cbn. split; [|split].
        * eexists. split; [reflexivity|]. unfold wf_rect, len. cbn. auto.
        * eexists. split; [reflexivity|]. unfold act_wf. cbn. lia.
        * eexists. split; [reflexivity|]. unfold wf_nlms, len. cbn. auto. }
  pose proof (C58_life_lemma (dom := any_x) False (rect_tab Kbig) Kbig 0 (rect_wf Kbig) (rect_mt Kbig)
      ltac:(apply demo_cfg_ok; unfold int_max; lia) ltac:(apply rect_tab_ok; cbn; unfold int_max; lia) chain (fun _ => True)
      (chain_ok False 1 1 2000 false true false false) ltac:(discriminate) 1073742 [OInsert veteran] (blank_state 1) (fun l => eq_refl) OKS) as H.
  assert (X : match (xcsf_init (rect_tab Kbig) Kbig ;;; run_ops (rect_tab Kbig) Kbig chain [OInsert veteran])%m (blank_state 1) with
              | Ok (_, s) => match before_ea (rect_tab Kbig) Kbig [f0; f0] [f1] s with
                 | Ok (_, c) => match trigger_c Kbig MSET c with UB IntOverflow => true | _ => false end
                 | _ => false end
              | _ => false end = true) by (vm_compute; reflexivity).
  destruct ((xcsf_init (rect_tab Kbig) Kbig ;;; run_ops (rect_tab Kbig) Kbig chain [OInsert veteran])%m (blank_state 1)) as [[[] s]| | |]; try discriminate X.
  destruct H as (G & S & _).
  { apply Forall_cons; [|apply Forall_nil]. cbn. unfold J. cbn. lia. }
  { vm_compute. discriminate. }
  destruct (before_ea (rect_tab Kbig) Kbig [f0; f0] [f1] s) as [[[] c]| | |] eqn:Y; try discriminate X.
  exists s, c. split; [exact G|]. split; [exact S|]. split; [exact Y|]. destruct (trigger_c Kbig MSET c) as [| |k|] eqn:Z; try discriminate X. destruct k; try discriminate X. exact Z.
Qed.
