(** * Python fitting: number of trials, early stopping. *)
From Coq Require Import ZArith Bool List Reals Lia Lra.
From Flocq Require Import Core BinarySingleNaN.
From Verif Require Import Outcome F64 F64Facts F64Bounds Rng RngFacts Pop PopSpec PopInv PopSel PopTrial PopFit PopRL PopOps PopSeq PopKeep PropMulti PropStore Clock Py PopTick.
Import ListNotations.
Open Scope Z_scope.

(** ** The number of epochs. *)
Lemma fceil_R (x : f64) : is_finite x = true -> is_finite (fceil x) = true /\ B2R (fceil x) = IZR (Zceil (B2R x)).
Proof.
  intros Fx. destruct (Bnearbyint_correct 53 1024 _ mode_UP x) as (H1 & H2 & _).
  split; [unfold fceil; rewrite H2; exact Fx|]. unfold fceil. rewrite H1.
  change (round_mode mode_UP) with Zceil. unfold round, F2R, scaled_mantissa, cexp, FIX_exp; simpl.
  rewrite !Rmult_1_r. reflexivity.
Qed.
Definition total_epochs (mx pf : Z) : Z := (mx + pf - 1) / pf.
Lemma epochs_bounds mx pf : 1 <= mx -> 1 <= pf -> (total_epochs mx pf - 1) * pf < mx <= total_epochs mx pf * pf.
Proof.
  intros H1 H2. unfold total_epochs. pose proof (Z.div_mod (mx + pf - 1) pf ltac:(lia)). pose proof (Z.mod_pos_bound (mx + pf - 1) pf ltac:(lia)). nia.
Qed.
Lemma fmt_mant m j : 0 <= j <= 1074 -> Z.abs m < 2 ^ 53 -> generic_format radix2 fexp64 (IZR m * bpow radix2 (- j)).
Proof.
  intros Hj Hm. apply generic_format_FLT. exists (Float radix2 m (- j)); cbn [Fnum Fexp].
  - unfold F2R. cbn. reflexivity.
  - exact Hm.
  - change (SpecFloat.emin 53 1024) with (-1074). lia.
Qed.
(** The quotient is rounded, but not across an integer. *)
Lemma rnd_quot_ceil mx pf : 1 <= mx <= int_max -> 1 <= pf <= int_max -> Zceil (rnd (IZR mx / IZR pf)) = total_epochs mx pf.
Proof.
  unfold int_max. intros H1 H2. pose proof (epochs_bounds mx pf ltac:(lia) ltac:(lia)) as EB. set (n := total_epochs mx pf) in *.
  assert (P : (0 < IZR pf)%R) by (apply IZR_lt; lia). assert (N0 : 1 <= n) by nia.
  apply Zceil_imp. split.
  - set (j := Z.log2_up pf). assert (J0 : 0 <= j) by apply Z.log2_up_nonneg.
    assert (J1 : pf <= 2 ^ j).
    { destruct (Z.eq_dec pf 1) as [-> |]; [apply (Z.pow_le_mono_r 2 0 j); lia|]. apply Z.log2_up_spec. lia. }
    assert (J2 : 2 ^ j < 2 * pf).
    { destruct (Z.eq_dec pf 1) as [-> |NE]; [unfold j; cbn; lia|]. pose proof (Z.log2_up_spec pf ltac:(lia)) as (S1 & _). fold j in S1.
      assert (1 <= j) by (unfold j; apply (Z.log2_up_le_mono 2 pf); lia). replace j with (Z.succ (Z.pred j)) by lia. rewrite Z.pow_succ_r by lia. lia. }
    assert (J3 : j <= 1074) by (apply (Z.pow_le_mono_r_iff 2); [lia|lia|]; transitivity (2 ^ 32); [lia|apply Z.pow_le_mono_r; lia]).
    set (y := (IZR ((n - 1) * 2 ^ j + 1) * bpow radix2 (- j))%R).
    assert (FY : generic_format radix2 fexp64 y).
    { apply fmt_mant; [lia|]. nia. }
    assert (EY : y = (IZR (n - 1) + bpow radix2 (- j))%R).
    { unfold y. rewrite plus_IZR, mult_IZR. change (2 ^ j)%Z with (Zpower (radix_val radix2) j); rewrite (IZR_Zpower radix2 j J0), Rmult_plus_distr_r, Rmult_assoc, <- bpow_plus.
      replace (j + - j)%Z with 0%Z by lia. cbn [bpow]. lra. }
    assert (QY : (y <= IZR mx / IZR pf)%R).
    { rewrite EY. apply Rmult_le_reg_r with (IZR pf); [exact P|]. unfold Rdiv. rewrite Rmult_assoc, Rinv_l, Rmult_1_r by lra.
      rewrite Rmult_plus_distr_r, <- mult_IZR.
      assert (bpow radix2 (- j) * IZR pf <= 1)%R.
      { apply Rmult_le_reg_r with (bpow radix2 j); [apply bpow_gt_0|]. rewrite Rmult_1_l, Rmult_assoc, (Rmult_comm (IZR pf)), <- Rmult_assoc, <- bpow_plus.
        replace (- j + j)%Z with 0%Z by lia. cbn [bpow]. rewrite Rmult_1_l, <- (IZR_Zpower radix2 j J0). apply IZR_le. exact J1. }
      assert (IZR ((n - 1) * pf) + 1 <= IZR mx)%R by (rewrite <- plus_IZR; apply IZR_le; lia). lra. }
    apply Rlt_le_trans with y.
    + rewrite EY. pose proof (bpow_gt_0 radix2 (- j)). lra.
    + rewrite <- (round_generic radix2 fexp64 ZnearestE y FY). apply (rnd_le _ _ QY).
  - rewrite <- (rnd_IZR n). 2: { unfold total_epochs in n. assert (n <= mx) by nia. lia. }
    apply rnd_le. apply Rmult_le_reg_r with (IZR pf); [exact P|]. unfold Rdiv. rewrite Rmult_assoc, Rinv_l, Rmult_1_r, <- mult_IZR by lra. apply IZR_le. lia.
Qed.
Lemma n_epochs_eq mx pf : 1 <= mx <= int_max -> 1 <= pf <= int_max -> n_epochs mx pf = Ok (total_epochs mx pf).
Proof.
  intros H1 H2. pose proof (rnd_quot_ceil mx pf H1 H2) as RQ. unfold int_max in *. unfold n_epochs.
  destruct (of_Z_fin mx ltac:(lia)) as (F1 & E1). destruct (of_Z_fin pf ltac:(lia)) as (F2 & E2).
  assert (P : (1 <= IZR pf)%R) by (apply IZR_le; lia). assert (Q : (0 <= IZR mx / IZR pf <= IZR (2 ^ 31))%R).
  { assert (0 <= IZR mx <= IZR (2 ^ 31))%R by (split; apply IZR_le; lia). split.
    - apply Rmult_le_pos; [lra|]. left. apply Rinv_0_lt_compat. lra.
    - apply Rmult_le_reg_r with (IZR pf); [lra|]. unfold Rdiv. rewrite Rmult_assoc, Rinv_l, Rmult_1_r by lra. nra. }
  assert (L31 : (IZR (2 ^ 31) < bnd)%R) by (change (IZR (2 ^ 31)) with (bpow radix2 31); apply bpow_lt; lia).
  destruct (fdiv_R (of_Z mx) (of_Z pf) F1 F2) as (FD & ED).
  - rewrite E2. lra.
  - rewrite E1, E2. apply (Rabs_between 0 (IZR (2 ^ 31))); [|pose proof bnd_pos; lra|exact L31].
    split; [apply rnd_ge_0; lra|]. rewrite <- (rnd_IZR (2 ^ 31)) by lia. apply rnd_le. lra.
  - rewrite E1, E2 in ED. destruct (fceil_R _ FD) as (FC & EC). rewrite ED, RQ in EC. rewrite (to_int_R _ _ FC EC).
    pose proof (epochs_bounds mx pf ltac:(lia) ltac:(lia)). assert (1 <= total_epochs mx pf <= mx) by nia.
    unfold in_int, int_min, int_max. destruct (Z.leb_spec (- 2 ^ 31) (total_epochs mx pf)); [|lia]. destruct (Z.leb_spec (total_epochs mx pf) (2 ^ 31 - 1)); [reflexivity|lia].
Qed.

(** The number of trials all epochs together run. *)
Definition total_trials (mx pf : Z) : Z := total_epochs mx pf * Z.min mx pf.
Lemma total_small mx pf : 1 <= mx <= pf -> total_trials mx pf = mx.
Proof.
  intros H. unfold total_trials. rewrite Z.min_l by lia. pose proof (epochs_bounds mx pf ltac:(lia) ltac:(lia)).
  assert (total_epochs mx pf = 1) by nia. lia.
Qed.
Lemma total_large mx pf : 1 <= pf <= mx -> total_trials mx pf = total_epochs mx pf * pf.
Proof. intros H. unfold total_trials. rewrite Z.min_r by lia. reflexivity. Qed.
Lemma total_bounds mx pf : 1 <= mx -> 1 <= pf -> mx <= total_trials mx pf < mx + pf /\ (total_trials mx pf = mx <-> mx <= pf \/ (pf | mx)).
Proof.
  intros H1 H2. pose proof (epochs_bounds mx pf H1 H2) as EB. destruct (Z.le_ge_cases mx pf) as [L|L].
  - rewrite total_small by lia. split; [lia|]. split; [left; exact L|reflexivity].
  - rewrite total_large by lia. split; [lia|]. split.
    + intros E. right. exists (total_epochs mx pf). lia.
    + intros [L'|(k & E)]; [assert (mx = pf) by lia; subst mx; assert (total_epochs pf pf = 1) by nia; lia|]. assert (total_epochs mx pf = k) by nia. lia.
Qed.

Section Count.
Context {B : Type} (V : vtab B) (K : cfg).
Lemma C55_count_lemma mx pf d val shuffle warm p calls' p' (s s' : st B) : 1 <= mx <= int_max -> 1 <= pf <= int_max ->
  py_fit V K mx pf d val shuffle warm [] p s = Ok ((calls', p'), s') ->
  s_time s' = (if warm then s_time s else 0) + total_trials mx pf /\ p_counter p' = p_counter p + total_epochs mx pf.
Proof.
  intros H1 H2 E. unfold py_fit in E. apply mbind_ok in E. destruct E as ([] & s1 & E1 & E). apply mbind_ok in E. destruct E as (n & s2 & E2 & E).
  rewrite (n_epochs_eq mx pf H1 H2) in E2. injection E2 as <- <-. apply mbind_ok in E. destruct E as ([c1 p1] & s3 & E3 & E).
  assert (T1 : s_time s1 = if warm then s_time s else 0).
  { destruct warm; [injection E1 as <-; reflexivity|]. apply mbind_ok in E1. destruct E1 as ([] & s0 & _ & E1). apply init_time in E1. exact E1. }
  apply fit_loop_epochs in E3; [|unfold epoch_trials; lia]. destruct E3 as (m & _ & T3 & C3 & _ & D3). destruct (D3 eq_refl) as (-> & ->).
  cbn [callbacks_finish] in E. injection E as _ <- <-. pose proof (epochs_bounds mx pf ltac:(lia) ltac:(lia)). assert (1 <= total_epochs mx pf) by nia.
  rewrite Z2Nat.id in T3, C3 by lia. rewrite T3, T1. split; [reflexivity|exact C3].
Qed.
End Count.

(** ** What an epoch does. *)
Section Epochs.
Context (FO : Prop) {B : Type} (V : vtab B) (K : cfg) (kf : Z) (wf : B -> Prop) (mt : B -> list f64 -> Prop) {dom : list f64 -> Prop}.
Hypothesis CO : cfg_ok K kf.
Hypothesis VO : vt_ok (dom := dom) FO V K wf mt.
Hypothesis HT : ea_tournament K = true -> FO.
Notation Good N := (Good K kf N wf).

Lemma cint_ok z : 0 <= z <= int_max -> cint z = Ok z.
Proof. unfold cint, int_max. intros H. destruct (Z.leb_spec (- 2 ^ 31) z); [|lia]. destruct (Z.ltb_spec z (2 ^ 31)); [reflexivity|lia]. Qed.
Lemma hp_lift_ok {A C} (a : A) (k : A -> M B C) s Q : hpost FO (k a s) Q -> hpost FO (mbind (mlift (Ok a)) k s) Q.
Proof. intros H. exact H. Qed.

Lemma zeros_cover : cover_ok K (Some (zeros (pa_size K))).
Proof. intros cv [= <-]. unfold zeros. rewrite repeat_length. unfold pa_size. pose proof (ok_n_actions _ _ CO). pose proof (ok_y_dim _ _ CO). rewrite Z2Nat.id; nia. Qed.

Lemma epoch_spec N d val shuffle nt i s : 0 <= N -> 0 <= nt -> N + nt <= 2 ^ 53 -> Good N s -> data_ok (dom := dom) K d -> (forall t, val = Some t -> data_ok (dom := dom) K t) ->
  0 <= i * nt <= int_max ->
  hpost FO (epoch V K d val shuffle nt i s) (fun ev u => guards s u /\ Good (N + nt) u /\
    (val = None -> exists rows es, Z.of_nat (length es) = nt /\ length rows = length es /\ Forall (fun r => 0 <= r < n_samples d) rows /\
      (shuffle = false -> rows = map (fun k => (i * nt + Z.of_nat k) mod n_samples d) (seq 0 (length es))) /\
      trained V K wf mt d None shuffle (i * nt) rows es s u /\ fst ev = fdiv (fold_left fadd es f0) (of_Z nt))).
Proof.
  intros N0 n0 LE G D DV HI. unfold epoch. rewrite (cint_ok _ HI). apply hp_lift_ok.
  eapply hp_bind; [apply (fit_spec FO V K kf wf mt CO VO HT N d None shuffle (i * nt) nt s); try assumption; try lia; discriminate|].
  intros e s1 (es & L & F & Ee & G1). destruct (trained_of V K wf mt _ _ _ _ _ _ _ F) as (rows & R1 & R2 & R3 & R4).
  assert (U1 : guards s s1) by (apply (frame_fit_many V K wf mt d None shuffle es _ _ _ F), (Good_away K kf wf N s G)).
  destruct val as [t|].
  - eapply hp_bind; [apply (score_spec FO V K kf wf mt CO VO HT (N + nt) t (Some (zeros (pa_size K))) s1); try lia; [exact G1|apply DV; reflexivity|apply zeros_cover]|].
    intros v s2 (es2 & _ & F2 & _ & G2). apply hp_ret. split; [|split; [exact G2|discriminate]].
    eapply guards_trans; [exact U1|]. assert (FR : frame Wp s1 s2).
    { eapply frame_trans; [|eapply frame_scoring, F2]. apply frame_ext; try reflexivity; try (intros v'; destruct v'; reflexivity). }
    apply FR, (Good_away K kf wf _ s1 G1).
  - cbn beta iota. unfold mbind, mret. cbn [hpost]. split; [exact U1|]. split; [exact G1|]. intros _. exists rows, es. auto 10.
Qed.

(** Without validation data and callbacks: one trial per row, over all epochs. *)
Lemma trained_app d test sh r1 : forall e1 r2 e2 cnt s s1 s2, length r1 = length e1 -> trained V K wf mt d test sh cnt r1 e1 s s1 ->
  trained V K wf mt d test sh (cnt + Z.of_nat (length e1)) r2 e2 s1 s2 -> trained V K wf mt d test sh cnt (r1 ++ r2) (e1 ++ e2) s s2.
Proof.
  induction r1 as [|r r1 IH]; intros [|e e1] r2 e2 cnt s s1 s2 L T1 T2; try discriminate L.
  - cbn in T1. subst s1. cbn in T2. rewrite Z.add_0_r in T2. exact T2.
  - cbn [trained] in T1. destruct T1 as (x & y & g & sa & sb & A1 & A2 & A3 & A4 & A5 & A6). cbn [app trained].
    exists x, y, g, sa, sb. repeat (split; [assumption|]). eapply IH; [injection L; auto|exact A6|].
    cbn [length] in T2. replace (cnt + 1 + Z.of_nat (length e1)) with (cnt + Z.of_nat (S (length e1))) by lia. exact T2.
Qed.
Lemma fit_loop_rows d shuffle nt n : 0 <= nt -> data_ok (dom := dom) K d -> forall N i p s, 0 <= N -> N + Z.of_nat n * nt <= 2 ^ 53 -> Good N s -> 0 <= i -> 0 <= p_counter p ->
  (i + Z.of_nat n) * nt <= int_max -> (p_counter p + Z.of_nat n) * nt <= int_max -> p_counter p + Z.of_nat n <= int_max ->
  hpost FO (fit_loop V K n i nt d None shuffle [] p s) (fun r s' => fst r = [] /\ Good (N + Z.of_nat n * nt) s' /\
    exists rows es, Z.of_nat (length es) = Z.of_nat n * nt /\ length rows = length es /\ Forall (fun r => 0 <= r < n_samples d) rows /\
      (shuffle = false -> rows = map (fun k => (i * nt + Z.of_nat k) mod n_samples d) (seq 0 (length es))) /\
      trained V K wf mt d None shuffle (i * nt) rows es s s').
Proof.
  intros Hnt D. induction n as [|n IH]; intros N i p s N0 LE G Hi Hc O1 O2 O3; cbn [fit_loop].
  - apply hp_ret. split; [reflexivity|]. split; [replace (N + Z.of_nat 0 * nt) with N by lia; exact G|]. exists [], []. cbn. repeat split; auto; lia.
  - eapply hp_bind; [apply (epoch_spec N d None shuffle nt i s); auto; try nia; discriminate|].
    intros ev s1 (_ & G1 & HV). destruct (HV eq_refl) as (r1 & e1 & L1 & L2 & L3 & L4 & L5 & _).
    unfold update_metrics. rewrite (cint_ok (1 + p_counter p)) by lia. cbn [obind]. rewrite (cint_ok ((1 + p_counter p) * nt)) by nia. cbn [obind].
    apply hp_lift_ok. cbn [callbacks_run]. unfold mbind at 1. unfold mret at 1. cbn beta iota.
    eapply hp_mono; [apply (IH (N + nt) (i + 1)); cbn [p_counter]; auto; nia|].
    intros r s' (R0 & G' & rows & es & M1 & M2 & M3 & M4 & M5). split; [exact R0|]. split; [replace (N + Z.of_nat (S n) * nt) with (N + nt + Z.of_nat n * nt) by lia; exact G'|].
    exists (r1 ++ rows), (e1 ++ es). rewrite !app_length. split; [lia|]. split; [lia|]. split; [apply Forall_app; auto|]. split.
    + intros Sh. rewrite (L4 Sh), (M4 Sh), seq_app, map_app. f_equal. rewrite <- (map_id (seq (0 + length e1) (length es))).
      replace (0 + length e1)%nat with (length e1) by lia.
      assert (SS : forall a b, seq a b = map (fun k => (a + k)%nat) (seq 0 b)).
      { clear. intros a b. revert a. induction b as [|b IHb]; intros a; [reflexivity|]. cbn [seq map]. f_equal; [lia|]. rewrite (IHb (S a)), (IHb 1%nat), map_map. apply map_ext. intros. lia. }
      rewrite (SS (length e1)), !map_map. apply map_ext. intros k. f_equal. nia.
    + eapply trained_app; [exact L2|exact L5|]. replace (i * nt + Z.of_nat (length e1)) with ((i + 1) * nt) by nia. exact M5.
Qed.
Lemma C55_rows_lemma N mx pf d shuffle p s : 1 <= mx <= int_max -> 1 <= pf <= int_max -> 0 <= N -> N + total_trials mx pf <= 2 ^ 53 -> Good N s -> data_ok (dom := dom) K d ->
  0 <= p_counter p -> (p_counter p + total_epochs mx pf) * Z.min mx pf <= int_max -> p_counter p + total_epochs mx pf <= int_max ->
  hpost FO (py_fit V K mx pf d None shuffle true [] p s) (fun _ s' => Good (N + total_trials mx pf) s' /\
    exists rows es, Z.of_nat (length es) = total_trials mx pf /\ length rows = length es /\ Forall (fun r => 0 <= r < n_samples d) rows /\
      (shuffle = false -> rows = map (fun k => Z.of_nat k mod n_samples d) (seq 0 (length es))) /\
      trained V K wf mt d None shuffle 0 rows es s s').
Proof.
  intros H1 H2 N0 LE G D C0 O2 O3. pose proof (epochs_bounds mx pf ltac:(lia) ltac:(lia)) as EB. assert (E1 : 1 <= total_epochs mx pf) by nia.
  unfold py_fit. unfold mbind at 1. unfold mret at 1. cbn beta iota. rewrite (n_epochs_eq mx pf H1 H2). apply hp_lift_ok.
  unfold total_trials in *. eapply hp_bind; [apply (fit_loop_rows d shuffle (epoch_trials mx pf) (Z.to_nat (total_epochs mx pf)) ltac:(unfold epoch_trials; lia) D N); unfold epoch_trials in *; rewrite ?Z2Nat.id by lia; auto; try lia; try nia|]. unfold epoch_trials.
  intros [c p'] s' (E0 & G' & rows & es & M1 & M2 & M3 & M4 & M5). cbn [fst] in E0. subst c. cbn [callbacks_finish]. apply hp_ret. rewrite Z2Nat.id in G', M1 by lia.
  split; [exact G'|]. exists rows, es. repeat (split; [assumption|]). exact M5.
Qed.
End Epochs.
