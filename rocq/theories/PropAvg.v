(** * Running averages and the reported match fraction. *)
From Coq Require Import ZArith Bool List Reals Lia Lra Psatz SpecFloat.
From Flocq Require Import Core BinarySingleNaN Plus_error.
From Verif Require Import Outcome F64 F64Facts F64Bounds Rng RngFacts Pop PopSpec PopInv PopSel PopDel PopCover PopMatch PopMset PopUpdate PopEA PopPA PopTrial PopFit PopOps PopSeq PopClock PropClock.
Import ListNotations.
Open Scope R_scope.

(** ** Exact arithmetic. *)
Definition ravg (b a v : R) : R := a + (v - a) * b.
Lemma C59_exact_lemma b lo hi (l : list R) : 0 <= b <= 1 -> Forall (fun v => lo <= v <= hi) l ->
  forall a, lo <= a <= hi -> lo <= fold_left (ravg b) l a <= hi.
Proof.
  intros Hb. induction 1 as [|v l Hv _ IH]; intros a Ha; cbn [fold_left]; [exact Ha|]. apply IH. unfold ravg. nra.
Qed.
(** The update of a rule's error and set size (cl.c:186-197): arithmetic mean while [n * b < 1]. *)
Definition rule_avg (b : R) (n : nat) (a v : R) : R :=
  if Rlt_dec (INR n * b) 1 then (a * (INR n - 1) + v) / INR n else a + b * (v - a).
Fixpoint rule_run (b : R) (n : nat) (l : list R) (a : R) : R :=
  match l with [] => a | v :: r => rule_run b (S n) r (rule_avg b (S n) a v) end.
Lemma C59_rule_exact_lemma b lo hi (l : list R) : 0 <= b <= 1 -> Forall (fun v => lo <= v <= hi) l ->
  forall n a, lo <= a <= hi -> lo <= rule_run b n l a <= hi.
Proof.
  intros Hb. induction 1 as [|v l Hv _ IH]; intros n a Ha; cbn [rule_run]; [exact Ha|]. apply IH. unfold rule_avg.
  destruct (Rlt_dec _ _) as [_|_]; [|nra]. rewrite S_INR. pose proof (pos_INR n).
  split; [apply Rmult_le_reg_r with (INR n + 1)|apply Rmult_le_reg_r with (INR n + 1)]; try lra;
    unfold Rdiv; rewrite Rmult_assoc, Rinv_l by lra; nra.
Qed.

(** ** Double precision. *)
Lemma flt_R x y : is_finite x = true -> is_finite y = true -> (flt x y = true <-> B2R x < B2R y).
Proof. intros Fx Fy. rewrite (flt_X x y (fin_nn x Fx) (fin_nn y Fy)), (X_finite x Fx), (X_finite y Fy). reflexivity. Qed.
Lemma flt_ge_trans x y z : flt x y = true -> flt z y = false -> nn z -> flt x z = true.
Proof.
  intros H1 H2 Nz. destruct (flt_nn _ _ H1) as (Nx & Ny). apply (flt_X x y Nx Ny) in H1. apply (flt_X_false z y Nz Ny) in H2. apply (flt_X x z Nx Nz). lra.
Qed.
Lemma flt_trans' x y z : flt x y = true -> flt y z = true -> flt x z = true.
Proof.
  intros H1 H2. destruct (flt_nn _ _ H1) as (Nx & Ny). destruct (flt_nn _ _ H2) as (_ & Nz). apply (flt_X x y Nx Ny) in H1. apply (flt_X y z Ny Nz) in H2. apply (flt_X x z Nx Nz). lra.
Qed.
Definition favg (b a v : f64) : f64 := fadd a (fmul (fsub v a) b).
Lemma rnd_id x : fmt64 x -> rnd x = x.
Proof. intros H. apply round_generic; [apply valid_rnd_N|exact H]. Qed.
Lemma rnd_twice x : 0 <= x -> rnd x <= 2 * x.
Proof.
  intros Hx. pose proof (round_N_pt radix2 (SpecFloat.fexp 53 1024) (fun z => negb (Z.even z)) x) as (_ & H).
  specialize (H 0 (generic_format_0 _ _)). change (Znearest (fun z => negb (Z.even z))) with ZnearestE in H. fold (rnd x) in H.
  pose proof (rnd_ge_0 x Hx). unfold Rabs in H. destruct (Rcase_abs (rnd x - x)), (Rcase_abs (0 - x)); lra.
Qed.
Lemma rnd_half a v b : fmt64 a -> fmt64 v -> a <= v -> 0 <= b <= / 2 -> 0 <= rnd (rnd (v - a) * b) <= v - a.
Proof.
  intros Fa Fv H Hb. assert (D0 : 0 <= rnd (v - a)) by (apply rnd_ge_0; lra). split; [apply rnd_ge_0; nra|].
  assert (M : rnd (rnd (v - a) * b) <= rnd (rnd (v - a) / 2)) by (apply rnd_le; nra).
  eapply Rle_trans; [exact M|]. destruct (Rle_lt_dec (v - a) (bpow radix2 (-1021))) as [S|S].
  - assert (Fx : fmt64 (v - a)).
    { unfold Rminus. apply FLT_format_plus_small with (emin := (-1074)%Z) (prec := 53%Z); [reflexivity|exact Fv|apply fmt_opp; exact Fa|].
      fold (Rminus v a). rewrite Rabs_pos_eq by lra. exact S. }
    rewrite (rnd_id _ Fx). apply rnd_le_fmt; [exact Fx|lra].
  - assert (D1 : bpow radix2 (-1021) <= rnd (v - a)).
    { apply rnd_ge_fmt; [|lra]. apply generic_format_bpow. unfold SpecFloat.fexp, SpecFloat.emin. lia. }
    rewrite rnd_id; [pose proof (rnd_twice (v - a)); lra|].
    assert (Fd : fmt64 (rnd (v - a))) by apply fmt_rnd.
    apply FLT_format_generic in Fd; [|reflexivity]. destruct Fd as [f E1 E2 E3]. apply generic_format_FLT.
    exists (Float radix2 (Fnum f) (Fexp f - 1)).
    + rewrite E1. unfold F2R. cbn [Fnum Fexp]. replace (Fexp f) with (Fexp f - 1 + 1)%Z at 1 by lia. rewrite bpow_plus. change (bpow radix2 1) with 2. field.
    + exact E2.
    + cbn [Fexp]. destruct (Z_le_gt_dec (-1074) (Fexp f - 1)) as [L|L]; [exact L|exfalso].
      change (-1074 <= Fexp f)%Z in E3. assert (Fexp f = -1074)%Z as E4 by lia. rewrite E1 in D1. unfold F2R in D1. rewrite E4 in D1.
      assert (IZR (Fnum f) < bpow radix2 53).
      { change (bpow radix2 53) with (IZR (2 ^ 53)). apply IZR_lt. change (radix_val radix2) with 2%Z in E2. lia. }
      assert (bpow radix2 (-1021) = bpow radix2 53 * bpow radix2 (-1074)) as E5 by (rewrite <- bpow_plus; reflexivity).
      rewrite E5 in D1. pose proof (bpow_gt_0 radix2 (-1074)). nra.
Qed.

Lemma favg_step lo hi b a v : fmt64 lo -> fmt64 hi -> - bpow radix2 1022 <= lo -> hi <= bpow radix2 1022 ->
  fin_in 0 (/ 2) b -> fin_in lo hi a -> fin_in lo hi v -> fin_in lo hi (favg b a v).
Proof.
  intros Flo Fhi Llo Lhi (Fb & Hb) (Fa & Ha) (Fv & Hv). unfold favg.
  assert (B1 : bpow radix2 1022 < bpow radix2 1023) by (apply bpow_lt; lia).
  assert (B2 : bpow radix2 1023 < bnd) by (apply bpow_lt; lia).
  assert (B3 : bpow radix2 1023 = 2 * bpow radix2 1022) by (change 1023%Z with (1 + 1022)%Z; rewrite bpow_plus; reflexivity).
  assert (FB : fmt64 (bpow radix2 1023)) by (apply generic_format_bpow; unfold SpecFloat.fexp, SpecFloat.emin; lia).
  assert (D : rnd (B2R v - B2R a) = B2R (fsub v a) /\ is_finite (fsub v a) = true).
  { destruct (fsub_R v a Fv Fa) as (F & E); [|auto].
    eapply Rabs_between; [apply (rnd_in (- bpow radix2 1023) (bpow radix2 1023)); [apply fmt_opp, FB|exact FB|lra]|lra|lra]. }
  destruct D as (Ed & Fd).
  assert (P : (B2R a <= B2R v -> 0 <= rnd (rnd (B2R v - B2R a) * B2R b) <= B2R v - B2R a) /\
              (B2R v <= B2R a -> B2R v - B2R a <= rnd (rnd (B2R v - B2R a) * B2R b) <= 0)).
  { split; intros H; [apply rnd_half; try apply fmt_B2R; lra|].
    pose proof (rnd_half (B2R v) (B2R a) (B2R b) (fmt_B2R v) (fmt_B2R a) H Hb) as Q.
    replace (B2R v - B2R a) with (- (B2R a - B2R v)) by ring. rewrite rnd_opp, Ropp_mult_distr_l_reverse, rnd_opp. lra. }
  destruct P as (P1 & P2). rewrite Ed in P1, P2.
  assert (R : - bpow radix2 1023 <= rnd (B2R (fsub v a) * B2R b) <= bpow radix2 1023).
  { destruct (Rle_lt_dec (B2R a) (B2R v)) as [H|H]; [specialize (P1 H)|specialize (P2 (Rlt_le _ _ H))]; lra. }
  destruct (fmul_R (fsub v a) b Fd Fb) as (Fm & Em); [eapply Rabs_between; [exact R|lra|lra]|].
  apply fadd_in; try assumption; try lra.
Qed.
Lemma C59_double_lemma (lo hi b : f64) (l : list f64) : - bpow radix2 1022 <= B2R lo -> B2R hi <= bpow radix2 1022 ->
  fin_in 0 (/ 2) b -> Forall (fin_in (B2R lo) (B2R hi)) l ->
  forall a, fin_in (B2R lo) (B2R hi) a -> fin_in (B2R lo) (B2R hi) (fold_left (favg b) l a).
Proof.
  intros Llo Lhi Hb. induction 1 as [|v l Hv _ IH]; intros a Ha; cbn [fold_left]; [exact Ha|].
  apply IH. apply favg_step; try assumption; apply fmt_B2R.
Qed.
Lemma C59_box_lemma k (b : f64) (l : list f64) : (0 <= k < 1023)%Z -> fin_in 0 1 b -> Forall (fin_in 0 (bpow radix2 k)) l ->
  forall a, fin_in 0 (bpow radix2 k) a -> fin_in 0 (bpow radix2 k) (fold_left (favg b) l a).
Proof.
  intros Hk Hb. induction 1 as [|v l Hv _ IH]; intros a Ha; cbn [fold_left]; [exact Ha|]. apply IH. apply ema_in'; assumption.
Qed.
Definition tiny : f64 := lit 1 (2 ^ 60).
Lemma C59_refuted_lemma : exists a v : f64, flt f0 v = true /\ flt v a = true /\ feq (favg f1 a v) f0 = true.
Proof. exists f1, tiny. vm_compute. auto. Qed.

(** ** The code. *)
Section Code.
Context {B : Type} (FO : Prop) (V : vtab B) (K : cfg) (kf : Z) (wf : B -> Prop)
  (mt : B -> list f64 -> Prop) (CO : cfg_ok K kf) {dom : list f64 -> Prop} (VO : vt_ok (dom := dom) FO V K wf mt).
Open Scope Z_scope.
Lemma C59_match_lemma N x cv s : 0 <= N -> xok K dom x -> Inv K kf N wf s [] -> s_mset s = empty_set ->
  set_nm (s_pset s) <= POP_SIZE K ->
  hpost FO (clset_match V K x cv s) (fun _ s' => exists cs,
    map (s_heap s') (set_list (s_pset s')) = map Some cs /\
    s_mset_size s' = favg (BETA K) (s_mset_size s) (of_Z (Z.of_nat (length (set_list (s_mset s'))))) /\
    s_mfrac s' = favg (BETA K) (s_mfrac s) (clset_mfrac K cs) /\
    s_aset_size s' = s_aset_size s /\ s_error s' = s_error s).
Proof.
  intros N0 Lx I E0 PN. eapply hp_mono; [apply (matching_spec FO V K kf wf mt CO VO N x cv s []); assumption|].
  intros [] s' ((s1 & s2 & cs & MR & _ & _ & EV & MO & _ & Ecs & ->) & _). exists cs.
  pose proof (ev_misc _ _ _ _ _ _ EV) as E1. pose proof (mr_misc _ _ _ _ _ _ _ _ MR) as E2.
  unfold misc in E1, E2. assert (s_mset_size s2 = s_mset_size s /\ s_aset_size s2 = s_aset_size s /\ s_mfrac s2 = s_mfrac s /\ s_error s2 = s_error s) as (Q1 & Q2 & Q3 & Q4).
  { rewrite E2 in E1. repeat split; congruence. }
  split; [exact Ecs|]. cbn. rewrite (mo_sz _ _ _ MO), Q1, Q2, Q3, Q4. auto.
Qed.
Lemma action_sets a : forall ls s s', Pop.miter (fun l => c <~ get l ;; if c_action c =? a then clset_add ASET l else mret tt)%m ls s = Ok (tt, s') ->
  s_mset_size s' = s_mset_size s /\ s_aset_size s' = s_aset_size s /\ s_mfrac s' = s_mfrac s /\ s_error s' = s_error (B := B) s.
Proof.
  induction ls as [|l r IH]; intros s s' H; cbn [Pop.miter] in H; [injection H as <-; auto|].
  unfold mbind at 1 in H. unfold mbind at 1, get in H. destruct (s_heap s l) as [c|] eqn:El; [|discriminate H].
  destruct (c_action c =? a).
  - unfold clset_add, mbind, get at 1, mget, mmod in H. rewrite El in H. apply IH in H. exact H.
  - unfold mret at 1 in H. apply IH, H.
Qed.
Lemma C59_action_lemma a (s s' : st B) : clset_action K a s = Ok (tt, s') ->
  s_aset_size s' = favg (BETA K) (s_aset_size s) (of_Z (set_sz (s_aset s'))) /\
  s_mset_size s' = s_mset_size s /\ s_mfrac s' = s_mfrac s /\ s_error s' = s_error s.
Proof.
  intros H. unfold clset_action in H. unfold mbind at 1, mget in H. unfold mbind at 1 in H.
  destruct (Pop.miter _ _ s) as [[[] s1]| | |] eqn:E; try discriminate H. unfold mmod in H. injection H as <-. cbn.
  apply action_sets in E. destruct E as (-> & -> & -> & ->). auto.
Qed.
Lemma C59_error_lemma e (s : st B) : exists s', update_error K e s = Ok (tt, s') /\ s_error s' = favg (BETA K) (s_error s) e /\
  s_mset_size s' = s_mset_size s /\ s_aset_size s' = s_aset_size s /\ s_mfrac s' = s_mfrac s.
Proof. eexists. split; [reflexivity|]. cbn. auto. Qed.
End Code.

(** ** The reported match fraction. *)
Section Frac.
Context {B : Type} (K : cfg).
Open Scope Z_scope.
(** Experienced enough to be reported. *)
Definition seasoned (c : cl B) : bool := fgt (fmul (of_Z (c_exp c)) (BETA K)) f1.
Definition counts (c : cl B) : Prop := 0 <= c_mtotal c <= c_age c /\ c_age c <= 2 ^ 53.
Lemma of_Z_small z : 0 <= z <= 2 ^ 53 -> is_finite (of_Z z) = true /\ B2R (of_Z z) = IZR z.
Proof.
  intros H. destruct (of_Z_X z) as (N & E). rewrite rnd_IZR in E by lia. apply (X_sat_fin _ (IZR z)); [exact N|exact E|].
  rewrite Rabs_pos_eq by (apply IZR_le; lia). apply Rle_lt_trans with (IZR (2 ^ 53)); [apply IZR_le; lia|].
  change (IZR (2 ^ 53)) with (bpow radix2 53). apply bpow_lt. lia.
Qed.
Lemma C60_rule_lemma (c : cl B) : counts c -> fin_in 0 1 (cl_mfrac c) /\
  (0 < c_age c -> B2R (cl_mfrac c) = rnd (IZR (c_mtotal c) / IZR (c_age c))) /\ (c_age c = 0 -> cl_mfrac c = f0).
Proof.
  intros (H1 & H2). unfold cl_mfrac. destruct (Z.ltb_spec 0 (c_age c)) as [L|L].
  - destruct (of_Z_small (c_mtotal c)) as (F1 & E1); [lia|]. destruct (of_Z_small (c_age c)) as (F2 & E2); [lia|].
    assert (P : (0 < IZR (c_age c))%R) by (apply IZR_lt; lia).
    assert (Q : (0 <= IZR (c_mtotal c) <= IZR (c_age c))%R) by (split; apply IZR_le; lia).
    assert (D : (0 <= IZR (c_mtotal c) / IZR (c_age c) <= 1)%R).
    { unfold Rdiv. split; [apply Rmult_le_pos; [lra|left; apply Rinv_0_lt_compat, P]|].
      apply Rmult_le_reg_r with (IZR (c_age c)); [exact P|]. rewrite Rmult_assoc, Rinv_l by lra. lra. }
    pose proof one_lt_bnd as O. assert (NZ : B2R (of_Z (c_age c)) <> 0%R) by (rewrite E2; lra).
    assert (I : fin_in 0 1 (fdiv (of_Z (c_mtotal c)) (of_Z (c_age c)))).
    { apply fdiv_in; try assumption; try apply fmt_0; try apply fmt_1; try lra. rewrite E1, E2. exact D. }
    split; [exact I|]. split; [|intros X; lia]. intros _.
    destruct (fdiv_R (of_Z (c_mtotal c)) (of_Z (c_age c)) F1 F2 NZ) as (_ & E3); [|rewrite E3, E1, E2; reflexivity].
    rewrite E1, E2. apply (rnd_in_abs 0 1); try apply fmt_0; try apply fmt_1; try lra.
  - split; [split; [reflexivity|change (B2R f0) with 0%R; lra]|]. split; [lia|reflexivity].
Qed.
(** The first loop: the largest fraction among the seasoned accurate rules, or zero. *)
Lemma below_spec (cs : list (cl B)) : Forall counts cs -> forall mf, fin_in 0 1 mf ->
  let m := fold_left (fun mf c => if flt (c_err c) (E0 K) && seasoned c then (let m := cl_mfrac c in if fgt m mf then m else mf) else mf) cs mf in
  fin_in 0 1 m /\ (B2R mf <= B2R m)%R /\
  (forall c, In c cs -> flt (c_err c) (E0 K) = true -> seasoned c = true -> (B2R (cl_mfrac c) <= B2R m)%R) /\
  (m = mf \/ exists c, In c cs /\ flt (c_err c) (E0 K) = true /\ seasoned c = true /\ m = cl_mfrac c /\ (B2R mf < B2R m)%R).
Proof.
  induction 1 as [|c cs Hc _ IH]; intros mf F; cbn [fold_left].
  - cbv zeta. split; [exact F|]. split; [lra|]. split; [intros c []|left; reflexivity].
  - cbv zeta. destruct (C60_rule_lemma c Hc) as (Fc & _).
    set (m1 := if flt (c_err c) (E0 K) && seasoned c then if fgt (cl_mfrac c) mf then cl_mfrac c else mf else mf).
    assert (M : fin_in 0 1 m1 /\ (B2R mf <= B2R m1)%R /\ (flt (c_err c) (E0 K) = true -> seasoned c = true -> (B2R (cl_mfrac c) <= B2R m1)%R) /\
                (m1 = mf \/ (flt (c_err c) (E0 K) = true /\ seasoned c = true /\ m1 = cl_mfrac c /\ (B2R mf < B2R m1)%R))).
    { unfold m1. destruct (flt (c_err c) (E0 K)) eqn:E1; cbn [andb]; [|split; [exact F|split; [lra|split; [discriminate|auto]]]].
      destruct (seasoned c) eqn:E2; [|split; [exact F|split; [lra|split; [discriminate|auto]]]].
      change (fgt (cl_mfrac c) mf) with (flt mf (cl_mfrac c)). destruct (flt mf (cl_mfrac c)) eqn:E3.
      - apply flt_R in E3; [|apply F|apply Fc]. split; [exact Fc|]. split; [lra|]. split; [intros; lra|]. right. auto.
      - assert (~ (B2R mf < B2R (cl_mfrac c))%R) by (intros X; apply (flt_R mf (cl_mfrac c)) in X; [congruence|apply F|apply Fc]).
        split; [exact F|]. split; [lra|]. split; [intros; lra|auto]. }
    destruct M as (M1 & M2 & M3 & M4). pose proof (IH m1 M1) as IQ. cbv zeta in IQ. destruct IQ as (I1 & I2 & I3 & I4). split; [exact I1|]. split; [lra|]. split.
    + intros c' [<- |Hc'] A1 A2; [specialize (M3 A1 A2); lra|apply I3; assumption].
    + destruct I4 as [E|(c' & A1 & A2 & A3 & A4 & A5)].
      * rewrite E. destruct M4 as [E1|(A1 & A2 & A3 & A4)]; [left; exact E1|right; exists c; split; [left; reflexivity|auto]].
      * right. exists c'. split; [right; exact A1|]. split; [exact A2|]. split; [exact A3|]. split; [exact A4|]. lra.
Qed.
(** The second loop: the fraction of the first of the seasoned rules of lowest error. *)
Definition reported (cs : list (cl B)) (m : f64) : Prop :=
  (* some seasoned accurate rule has matched: the largest fraction of such rules *)
  (exists c, In c cs /\ flt (c_err c) (E0 K) = true /\ seasoned c = true /\ (0 < B2R (cl_mfrac c))%R /\ m = cl_mfrac c /\
     forall d, In d cs -> flt (c_err d) (E0 K) = true -> seasoned d = true -> (B2R (cl_mfrac d) <= B2R m)%R) \/
  ((forall d, In d cs -> flt (c_err d) (E0 K) = true -> seasoned d = true -> (B2R (cl_mfrac d) = 0)%R) /\
   ((exists l c r, cs = l ++ c :: r /\ seasoned c = true /\ flt (c_err c) dbl_max = true /\ m = cl_mfrac c /\
       (forall d, In d l -> seasoned d = true -> flt (c_err d) dbl_max = true -> flt (c_err c) (c_err d) = true) /\
       (forall d, In d r -> seasoned d = true -> flt (c_err d) (c_err c) = false)) \/
    (m = f0 /\ forall d, In d cs -> seasoned d = true -> flt (c_err d) dbl_max = false))).
Lemma lowest_spec (cs : list (cl B)) : forall mf e,
  let '(m, e') := fold_left (fun acc c => let '(mf, e0) := acc in if flt (c_err c) e0 && seasoned c then (cl_mfrac c, c_err c) else (mf, e0)) cs (mf, e) in
  (m = mf /\ e' = e /\ forall d, In d cs -> seasoned d = true -> flt (c_err d) e = false) \/
  (exists l c r, cs = l ++ c :: r /\ seasoned c = true /\ flt (c_err c) e = true /\ m = cl_mfrac c /\ e' = c_err c /\
     (forall d, In d l -> seasoned d = true -> flt (c_err d) e = true -> flt (c_err c) (c_err d) = true) /\
     (forall d, In d r -> seasoned d = true -> flt (c_err d) (c_err c) = false)).
Proof.
  induction cs as [|c cs IH]; intros mf e; cbn [fold_left].
  - left. split; [reflexivity|]. split; [reflexivity|intros d []].
  - destruct (flt (c_err c) e) eqn:E1; cbn [andb]; [destruct (seasoned c) eqn:E2|].
    + specialize (IH (cl_mfrac c) (c_err c)). destruct (fold_left _ cs (cl_mfrac c, c_err c)) as (m, e').
      right. destruct IH as [(-> & -> & H)|(l & d & r & -> & A1 & A2 & -> & -> & A3 & A4)].
      * exists [], c, cs. cbn [app]. repeat split; try assumption. intros d [].
      * exists (c :: l), d, r. cbn [app]. repeat split; try assumption.
        -- apply (flt_trans' _ _ _ A2 E1).
        -- intros d' [<- |H] S X; [exact A2|]. destruct (flt (c_err d') (c_err c)) eqn:E3; [apply A3; assumption|].
           apply (flt_ge_trans _ _ _ A2 E3). apply (proj1 (flt_nn _ _ X)).
    + specialize (IH mf e). destruct (fold_left _ cs (mf, e)) as (m, e'). destruct IH as [(-> & -> & H)|(l & d & r & -> & A)]; [left|right].
      * repeat split. intros d [<- |H1] S; [congruence|apply H; assumption].
      * exists (c :: l), d, r. cbn [app]. destruct A as (A1 & A2 & A3 & A4 & A5 & A6). repeat split; try assumption.
        intros d' [<- |H1] S; [congruence|apply A5; assumption].
    + specialize (IH mf e). destruct (fold_left _ cs (mf, e)) as (m, e'). destruct IH as [(-> & -> & H)|(l & d & r & -> & A)]; [left|right].
      * repeat split. intros d [<- |H1] S; [exact E1|apply H; assumption].
      * exists (c :: l), d, r. cbn [app]. destruct A as (A1 & A2 & A3 & A4 & A5 & A6). repeat split; try assumption.
        intros d' [<- |H1] S X; [congruence|apply A5; assumption].
Qed.
Lemma C60_population_lemma (cs : list (cl B)) : Forall counts cs ->
  fin_in 0 1 (clset_mfrac K cs) /\ reported cs (clset_mfrac K cs).
Proof.
  intros H. assert (F0 : fin_in 0 1 f0) by (split; [reflexivity|change (B2R f0) with 0%R; lra]).
  pose proof (below_spec cs H f0 F0) as P. cbv zeta in P. unfold clset_mfrac, mfrac_below. unfold seasoned in P.
  set (m := fold_left _ cs f0) in *. destruct P as (P1 & P2 & P3 & P4). change (B2R f0) with 0%R in P2.
  destruct (feq m f0) eqn:E.
  - assert (Z : B2R m = 0%R).
    { unfold feq in E. rewrite (Beqb_correct 53 1024 m f0 (proj1 P1) eq_refl) in E. destruct (Req_bool_spec (B2R m) (B2R f0)) as [X|X]; [exact X|discriminate E]. }
    assert (ZA : forall d, In d cs -> flt (c_err d) (E0 K) = true -> seasoned d = true -> (B2R (cl_mfrac d) = 0)%R).
    { intros d Hd A1 A2. specialize (P3 d Hd A1 A2). destruct (C60_rule_lemma d) as ((_ & Q) & _); [apply (proj1 (Forall_forall _ _) H), Hd|]. lra. }
    unfold mfrac_lowest. pose proof (lowest_spec cs m dbl_max) as L. unfold seasoned in L. destruct (fold_left _ cs (m, dbl_max)) as (r, e'). cbn [fst].
    assert (M0 : m = f0) by (destruct P4 as [X|(c & _ & _ & _ & _ & A)]; [exact X|change (B2R f0) with 0%R in A; lra]).
    destruct L as [(-> & _ & L)|(l & c & r' & -> & A1 & A2 & -> & _ & A3 & A4)].
    + split; [exact P1|]. right. split; [exact ZA|]. right. split; [exact M0|exact L].
    + split.
      * apply C60_rule_lemma. apply (proj1 (Forall_forall _ _) H). apply in_or_app. right. left. reflexivity.
      * right. split; [exact ZA|]. left. exists l, c, r'. auto 10.
  - split; [exact P1|]. left. destruct P4 as [X|(c & A1 & A2 & A3 & A4 & A5)].
    + rewrite X in E. discriminate E.
    + exists c. split; [exact A1|]. split; [exact A2|]. split; [exact A3|]. split; [rewrite <- A4; exact A5|]. split; [exact A4|exact P3].
Qed.
Lemma C60_average_lemma (cs : list (cl B)) (m : f64) : fin_in 0 1 (BETA K) -> Forall counts cs -> fin_in 0 1 m ->
  fin_in 0 1 (favg (BETA K) m (clset_mfrac K cs)).
Proof. intros Hb H Hm. apply (ema_in' 0); [lia|exact Hm|apply C60_population_lemma, H|exact Hb]. Qed.
End Frac.
Section FracMatch.
Context {B : Type} (FO : Prop) (V : vtab B) (K : cfg) (kf : Z) (wf : B -> Prop)
  (mt : B -> list f64 -> Prop) (CO : cfg_ok K kf) {dom : list f64 -> Prop} (VO : vt_ok (dom := dom) FO V K wf mt).
Open Scope Z_scope.
Lemma C60_match_lemma T N x cv s : 0 <= N -> xok K dom x -> Inv K kf N wf s [] -> s_mset s = empty_set ->
  set_nm (s_pset s) <= POP_SIZE K -> stamped T s -> fin_in 0 1 (s_mfrac s) ->
  hpost FO (clset_match V K x cv s) (fun _ s' => stamped T s' /\
    ((forall l c, s_heap s' l = Some c -> c_age c <= 2 ^ 53) -> fin_in 0 1 (s_mfrac s'))).
Proof.
  intros N0 Lx I E0 PN S F. pose proof (C59_match_lemma FO V K kf wf mt CO VO N x cv s N0 Lx I E0 PN) as P.
  destruct (clset_match V K x cv s) as [[[] s']| | |] eqn:E; cbn [hpost] in *; try exact P.
  destruct P as (cs & Ecs & _ & Em & _). destruct (p_match V K T (s_explore s) 0 x cv s tt s' (proj1 S) S eq_refl E) as (S' & _).
  split; [exact S'|]. intros A. rewrite Em. apply C60_average_lemma; [apply (ok_beta _ _ CO)| |exact F].
  apply Forall_forall. intros c Hc. apply (in_map Some) in Hc. rewrite <- Ecs in Hc. apply in_map_iff in Hc. destruct Hc as (l & El & _).
  destruct (proj2 S' l c El) as (_ & J2). split; [exact J2|apply (A l c El)].
Qed.
End FracMatch.
