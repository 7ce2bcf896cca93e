(** * Hyperellipsoid conditions and integer actions. *)
From Coq Require Import ZArith Bool List Lia Reals Lra.
From Flocq Require Import Core BinarySingleNaN Plus_error.
From Verif Require Import Outcome F64 F64Facts F64Bounds Rng RngFacts Pop PopSpec Arr ArrFacts Sam SamFacts Cond TernFacts RectFacts.
Import ListNotations.
Local Open Scope Z_scope.

Section Ellip.
Context (J : rng -> Prop) (K : cfg) (P : cpar) (Zok : f64 -> Prop) (SR : src (lm K) J Zok).
Context (HX : 1 <= x_dim K).
Notation rt := (rt J).
Notation xd := (x_dim K).
Notation spread := (drawn (cp_spread_min P) (spread_max P)).

Definition wf_ellip (c : ellip) : Prop := len (e_center c) = xd /\ len (e_spread c) = xd /\ length (e_mu c) = 1%nat.

(** The sum, from the left, of the squared scaled coordinates. *)
Definition sq_dist (c : ellip) (x : list f64) : f64 :=
  fold_left (fun a i => let d := fdiv (fsub (at_ f0 x i) (at_ f0 (e_center c) i)) (at_ f0 (e_spread c) i) in
                        fadd a (fmul d d)) (iota xd) f0.
Lemma ellip_dist_ok c x : wf_ellip c -> len x = xd -> ellip_dist K c x = Ok (sq_dist c x).
Proof.
  intros (W1 & W2 & W3) L. unfold ellip_dist, sq_dist.
  apply (ofor_fold _ (fun i a => let d := fdiv (fsub (at_ f0 x i) (at_ f0 (e_center c) i)) (at_ f0 (e_spread c) i) in fadd a (fmul d d))); [lia|].
  intros j s Hj. do 3 (rewrite (rd_ok f0) by lia; cbn [obind]). reflexivity.
Qed.
Definition ball (c : ellip) (x : list f64) : Prop := flt (sq_dist c x) f1 = true.
Lemma ellip_match_ok c x : wf_ellip c -> len x = xd -> exists b, ellip_match K c x = Ok b /\ (b = true <-> ball c x).
Proof.
  intros W L. unfold ellip_match. rewrite ellip_dist_ok by assumption. cbn [obind]. eexists. split; [reflexivity|]. reflexivity.
Qed.

(** ** Initialisation, copying, covering, update. *)
Definition init_ellip (c : ellip) : Prop := forall i, 0 <= i < xd ->
  drawn (cp_min P) (cp_max P) (at_ f0 (e_center c) i) /\ spread (at_ f0 (e_spread c) i).
Lemma ellip_init_ok : rt (ellip_init K P) (fun c => wf_ellip c /\ init_ellip c /\ Forall rate_ok (e_mu c)).
Proof.
  unfold ellip_init.
  eapply rt_bind with (P := fun st => let '(b1, b2) := st in len b1 = xd /\ len b2 = xd /\
    forall i, 0 <= i < xd -> drawn (cp_min P) (cp_max P) (at_ f0 b1 i) /\ spread (at_ f0 b2 i)).
  - apply (rt_for J (fun n st => let '(b1, b2) := st in len b1 = xd /\ len b2 = xd /\
      forall i, 0 <= i < n -> drawn (cp_min P) (cp_max P) (at_ f0 b1 i) /\ spread (at_ f0 b2 i))).
    + lia.
    + split; [apply len_alloc; lia|]. split; [apply len_alloc; lia|]. intros; lia.
    + intros i [b1 b2] Hi (S1 & S2 & S3). eapply rt_bind; [apply (rt_drawn J K Zok SR)|]. intros u Hu.
      destruct (wr_ok b1 i u ltac:(lia)) as (b1' & E1 & (A1 & A2 & A3 & A4)). eapply rt_bind_lift; [exact E1|].
      eapply rt_bind; [apply (rt_drawn J K Zok SR)|]. intros v Hv.
      destruct (wr_ok b2 i v ltac:(lia)) as (b2' & E2 & (B1 & B2 & B3 & B4)). eapply rt_bind_lift; [exact E2|].
      apply rt_ret. split; [congruence|]. split; [congruence|]. intros k Hk.
      destruct (Z.eq_dec k i) as [-> |D]; [rewrite A2, B2; auto|rewrite A3, B3 by lia; apply S3; lia].
  - intros [b1 b2] (S1 & S2 & S3). eapply rt_bind; [apply (sam_init_ok J (lm K) Zok SR _ scheme1)|]. intros mu (L & R).
    apply rt_ret. split; [split; [exact S1|split; [exact S2|exact L]]|]. split; [exact S3|exact R].
Qed.
Lemma ellip_copy_ok c : wf_ellip c -> ellip_copy K c = Ok c.
Proof. intros (W1 & W2 & W3). unfold ellip_copy. rewrite !memcpy_ok by assumption. destruct c. reflexivity. Qed.

Definition ellip_covered (c : ellip) (x : list f64) : Prop := forall i, 0 <= i < xd ->
  at_ f0 (e_center c) i = at_ f0 x i /\ spread (at_ f0 (e_spread c) i).
Lemma ellip_cover_ok c x : wf_ellip c -> len x = xd ->
  rt (ellip_cover K P c x) (fun c' => wf_ellip c' /\ e_mu c' = e_mu c /\ ellip_covered c' x).
Proof.
  intros (W1 & W2 & W3) L. unfold ellip_cover.
  eapply rt_bind with (P := fun st => let '(b1, b2) := st in len b1 = xd /\ len b2 = xd /\
    forall i, 0 <= i < xd -> at_ f0 b1 i = at_ f0 x i /\ spread (at_ f0 b2 i)).
  - apply (rt_for J (fun n st => let '(b1, b2) := st in len b1 = xd /\ len b2 = xd /\
      forall i, 0 <= i < n -> at_ f0 b1 i = at_ f0 x i /\ spread (at_ f0 b2 i))).
    + lia.
    + split; [exact W1|]. split; [exact W2|]. intros; lia.
    + intros i [b1 b2] Hi (S1 & S2 & S3). eapply rt_bind_lift; [apply (rd_ok f0); lia|].
      destruct (wr_ok b1 i (at_ f0 x i) ltac:(lia)) as (b1' & E1 & (A1 & A2 & A3 & A4)). eapply rt_bind_lift; [exact E1|].
      eapply rt_bind; [apply (rt_drawn J K Zok SR)|]. intros v Hv.
      destruct (wr_ok b2 i v ltac:(lia)) as (b2' & E2 & (B1 & B2 & B3 & B4)). eapply rt_bind_lift; [exact E2|].
      apply rt_ret. split; [congruence|]. split; [congruence|]. intros k Hk.
      destruct (Z.eq_dec k i) as [-> |D]; [rewrite A2, B2; auto|rewrite A3, B3 by lia; apply S3; lia].
  - intros [b1 b2] (S1 & S2 & S3). apply rt_ret. split; [split; [exact S1|split; assumption]|]. split; [reflexivity|exact S3].
Qed.

(** The covered point has distance zero when the spreads are positive. *)
Lemma fsub_self x : is_finite x = true -> is_finite (fsub x x) = true /\ B2R (fsub x x) = 0%R.
Proof.
  intros F. destruct (fsub_R x x F F) as (F1 & E1).
  - rewrite Rminus_diag_eq, rnd_0, Rabs_R0 by reflexivity. apply bnd_pos.
  - split; [exact F1|]. rewrite E1, Rminus_diag_eq by reflexivity. apply rnd_0.
Qed.
Lemma zero_cases (x : f64) : is_finite x = true -> B2R x = 0%R -> exists s, x = B754_zero s.
Proof. destruct x as [s| | |s m e H]; try discriminate; [eauto|]. intros _ E. exfalso. revert E. apply F2R_neq_0. now destruct s. Qed.
Lemma zero_term s v : nn v -> (0 < X v)%R -> exists s', fdiv (B754_zero s) v = B754_zero s'.
Proof.
  intros N H. destruct v as [sv|[]| |sv m e Hv]; try discriminate.
  - exfalso. unfold X in H. cbn in H. lra.
  - eexists. reflexivity.
  - eexists. reflexivity.
  - eexists. reflexivity.
Qed.

(** Smallest normal double. *)
Definition dbl_min : R := bpow radix2 (-1022).
Lemma draw_pos_mul m (hi : f64) : is_finite hi = true -> (dbl_min <= B2R hi)%R -> (0 < rnd (B2R (draw_value m : f64) * B2R hi))%R.
Proof.
  intros F H. pose proof (draw_value_range m) as U. unfold lo_u in U. unfold dbl_min in H.
  pose proof (bpow_gt_0 radix2 (-52)) as Q1. pose proof (bpow_gt_0 radix2 (-1022)) as Q2.
  apply Rlt_le_trans with (bpow radix2 (-1074)); [apply bpow_gt_0|].
  apply rnd_ge_fmt; [apply (format_bpow (-1074)); lia|].
  replace (-1074) with (-52 + -1022) by reflexivity. rewrite bpow_plus. apply Rmult_le_compat; lra.
Qed.
Lemma spread_gt0 (lo hi : f64) m : fpos lo -> is_finite lo = true -> fpos hi ->
  (dbl_min <= B2R lo)%R \/ (dbl_min <= X hi)%R ->
  let v := fadd lo (fmul (draw_value m) (fsub hi lo)) in nn v /\ (0 < X v)%R.
Proof.
  intros P1 Fl P2 HD v. pose proof (spread_value lo hi m P1 Fl P2) as PV. fold v in PV.
  split; [apply fpos_nn, PV|]. apply fpos_X in PV. destruct PV as [PV|PV]; [exact PV|exfalso]. symmetry in PV.
  assert (DM : (0 < dbl_min)%R) by apply bpow_gt_0.
  pose proof (draw_value_01 m) as U. pose proof (draw_fin m) as FU. pose proof (draw_u m) as U2.
  pose proof (fpos_X lo P1) as Bl. rewrite X_finite in Bl by exact Fl. pose proof bnd_pos as B0.
  destruct (fpos_cases hi P2) as [(Fh & Bh)| ->].
  - rewrite (X_finite hi Fh) in HD. pose proof (B2R_bnd lo) as BL. pose proof (B2R_bnd hi) as BH.
    assert (L1 : (- bnd < - B2R lo)%R) by lra. assert (L2 : (B2R hi < bnd)%R) by lra.
    assert (DR : (- B2R lo <= B2R hi - B2R lo <= B2R hi)%R) by lra.
    destruct (fsub_R hi lo Fh Fl (rnd_in_abs _ _ (fmt_opp _ (fmt_B2R lo)) (fmt_B2R hi) L1 L2 _ DR)) as (Fd & Ed).
    pose proof (rnd_in _ _ (fmt_opp _ (fmt_B2R lo)) (fmt_B2R hi) _ DR) as Bd. rewrite <- Ed in Bd.
    unfold v in PV. set (d := fsub hi lo) in *. set (u := draw_value m) in *.
    assert (BP : (- B2R lo <= B2R u * B2R d <= B2R hi)%R).
    { assert (Q1 : (0 <= B2R u * (B2R d + B2R lo))%R) by (apply Rmult_le_pos; lra).
      assert (Q2 : (0 <= (1 - B2R u) * B2R lo)%R) by (apply Rmult_le_pos; lra).
      assert (Q3 : (0 <= B2R u * (B2R hi - B2R d))%R) by (apply Rmult_le_pos; lra).
      assert (Q4 : (0 <= (1 - B2R u) * B2R hi)%R) by (apply Rmult_le_pos; lra). lra. }
    destruct (fmul_R u d FU Fd (rnd_in_abs _ _ (fmt_opp _ (fmt_B2R lo)) (fmt_B2R hi) L1 L2 _ BP)) as (Fp & Ep).
    destruct (fadd_fin lo (fmul u d) Fl Fp) as (NV & EV). rewrite EV in PV.
    assert (RZ : rnd (B2R lo + B2R (fmul u d)) = 0%R).
    { unfold sat in PV. destruct (Rlt_bool (Rabs (rnd (B2R lo + B2R (fmul u d)))) bnd); [exact PV|]. destruct (Rlt_bool _ 0); lra. }
    destruct (Req_dec (B2R lo + B2R (fmul u d)) 0) as [SZ|SN].
    + (* the sum is exactly zero *)
      rewrite Ep in SZ. destruct (Rle_or_lt (B2R lo) (B2R hi)) as [C|C].
      * assert (D0 : (0 <= B2R d)%R) by (rewrite Ed; apply rnd_ge_0; lra).
        assert (R0 : (0 <= rnd (B2R u * B2R d))%R) by (apply rnd_ge_0, Rmult_le_pos; lra).
        assert (LZ : B2R lo = 0%R) by lra. rewrite LZ in *. rewrite Rminus_0_r, rnd_B2R in Ed.
        assert (DH : (dbl_min <= B2R hi)%R) by (destruct HD; lra).
        pose proof (draw_pos_mul m hi Fh DH) as PM. fold u in PM. rewrite Ed in SZ. lra.
      * assert (D0 : (B2R d <= 0)%R) by (rewrite Ed; apply rnd_le_0; lra).
        assert (NE : rnd (B2R u * - B2R d) = B2R lo).
        { replace (B2R u * - B2R d)%R with (- (B2R u * B2R d))%R by ring. rewrite rnd_opp. lra. }
        assert (LE : (rnd (B2R u * - B2R d) <= - B2R d)%R).
        { apply rnd_le_fmt; [apply fmt_opp, fmt_B2R|]. assert (0 <= (1 - B2R u) * - B2R d)%R by (apply Rmult_le_pos; lra). lra. }
        assert (DL : (- B2R d = B2R lo)%R) by lra. rewrite DL in NE.
        assert (LN : (dbl_min <= B2R lo)%R) by (destruct HD; lra).
        pose proof (rnd_scaled_le_pred (B2R u) (B2R lo) (fmt_B2R lo) LN U2) as PR.
        pose proof (pred_lt_id radix2 fexp64 (B2R lo) ltac:(lra)) as PL.
        change (Ulp.pred radix2 fexp64 (B2R lo)) with (pred64 (B2R lo)) in PL.
        rewrite NE in PR. lra.
    + revert RZ. apply round_plus_neq_0; try apply fmt_B2R; try exact SN; try typeclasses eauto.
  - assert (E1 : fsub finf lo = finf) by (destruct lo; try discriminate; reflexivity).
    assert (E2 : fmul (draw_value m) finf = finf).
    { revert FU U. generalize (draw_value m) as u. intros u FU U. pose proof (Bsign_neg_le u) as NS.
      destruct u as [s| | |s k e H]; try discriminate; [cbn in U; lra|].
      destruct s; [|reflexivity]. specialize (NS eq_refl). lra. }
    assert (E3 : fadd lo finf = finf) by (destruct lo; try discriminate; reflexivity).
    unfold v in PV. rewrite E1, E2, E3 in PV. change (X finf) with bnd in PV. lra.
Qed.

Lemma ellip_zero_dist c x : wf_ellip c -> Forall (fun v => is_finite v = true) x -> len x = xd ->
  (forall i, 0 <= i < xd -> at_ f0 (e_center c) i = at_ f0 x i /\ nn (at_ f0 (e_spread c) i) /\ (0 < X (at_ f0 (e_spread c) i))%R) ->
  ball c x.
Proof.
  intros W F L H. unfold ball, sq_dist.
  assert (G : forall l a, (forall i, In i l -> 0 <= i < xd) -> a = f0 ->
    fold_left (fun a i => let d := fdiv (fsub (at_ f0 x i) (at_ f0 (e_center c) i)) (at_ f0 (e_spread c) i) in fadd a (fmul d d)) l a = f0).
  { induction l as [|i l IH]; intros a HI Ha; cbn [fold_left]; [exact Ha|]. apply IH; [intros j Hj; apply HI; right; exact Hj|].
    destruct (H i) as (E & N & PX); [apply HI; left; reflexivity|]. rewrite E.
    pose proof (proj1 (Forall_at _ f0 x) F i) as Fi. cbv beta in Fi.
    destruct (fsub_self (at_ f0 x i)) as (F1 & E1); [exact (Fi (eq_rect_r (fun n => 0 <= i < n) (HI i (or_introl eq_refl)) L))|].
    destruct (zero_cases _ F1 E1) as (s & ->). destruct (zero_term s _ N PX) as (s' & ->). rewrite Ha.
    destruct s'; reflexivity. }
  rewrite G; [reflexivity| |reflexivity]. intros i Hi. apply in_iota, Hi.
Qed.
Lemma ellip_covered_ball c x : wf_ellip c -> len x = xd -> Forall (fun v => is_finite v = true) x ->
  fpos (cp_spread_min P) -> is_finite (cp_spread_min P) = true -> nn (spread_max P) ->
  (dbl_min <= B2R (cp_spread_min P))%R \/ (dbl_min <= X (spread_max P))%R ->
  ellip_covered c x -> ball c x.
Proof.
  intros W L F P1 F1 N HD C. apply ellip_zero_dist; try assumption. intros i Hi. destruct (C i Hi) as (E & (m & ->)).
  split; [exact E|]. apply spread_gt0; try assumption. destruct (spread_max_ok P) as [N'|Q]; [unfold nn in N; congruence|exact Q].
Qed.

Definition ellip_moved (c c' : ellip) (x : list f64) : Prop :=
  e_spread c' = e_spread c /\ e_mu c' = e_mu c /\
  if flt f0 (cp_eta P)
  then forall i, 0 <= i < xd -> at_ f0 (e_center c') i = fadd (at_ f0 (e_center c) i) (fmul (cp_eta P) (fsub (at_ f0 x i) (at_ f0 (e_center c) i)))
  else e_center c' = e_center c.
Lemma ellip_update_ok c x : wf_ellip c -> len x = xd -> exists c', ellip_update K P c x = Ok c' /\ wf_ellip c' /\ ellip_moved c c' x.
Proof.
  intros (W1 & W2 & W3) L. unfold ellip_update, ellip_moved. unfold fgt. fold (flt f0 (cp_eta P)).
  destruct (flt f0 (cp_eta P)).
  - destruct (move_centre_ok K P HX (e_center c) x W1 L) as (b' & E & Lb & Hb). rewrite E. cbn [obind]. eexists. split; [reflexivity|].
    split; [split; [exact Lb|split; assumption]|]. cbn. auto.
  - exists c. split; [reflexivity|]. split; [split; [exact W1|split; assumption]|auto].
Qed.

(** ** Crossover and mutation. *)
Lemma ellip_crossover_ok c1 c2 : wf_ellip c1 -> wf_ellip c2 ->
  rt (ellip_crossover K P c1 c2) (fun r => let '(d1, d2, ch) := r in wf_ellip d1 /\ wf_ellip d2 /\
    e_mu d1 = e_mu c1 /\ e_mu d2 = e_mu c2 /\
    exchanged f0 xd (e_center c1) (e_center c2) (e_center d1) (e_center d2) /\
    exchanged f0 xd (e_spread c1) (e_spread c2) (e_spread d1) (e_spread d2) /\
    (ch = false -> d1 = c1 /\ d2 = c2) /\
    (ch = true -> (exists u, u01 u /\ flt u (ea_p_crossover P) = true) /\ exists i, 0 <= i < xd /\
       ((at_ f0 (e_center d1) i = at_ f0 (e_center c2) i /\ at_ f0 (e_center d2) i = at_ f0 (e_center c1) i) \/
        (at_ f0 (e_spread d1) i = at_ f0 (e_spread c2) i /\ at_ f0 (e_spread d2) i = at_ f0 (e_spread c1) i)))).
Proof.
  intros (A1 & A2 & A3) (B1 & B2 & B3). unfold ellip_crossover. eapply rt_bind; [apply (rt_draw01 J K Zok SR)|]. intros u Hu.
  destruct (flt u (ea_p_crossover P)) eqn:E.
  - eapply rt_bind; [apply (swap_arrays_ok J K Zok SR HX); assumption|]. intros [[[p1 p2] [q1 q2]] ch] (S1 & S2 & S3 & S4 & S5 & S6 & S7 & S8).
    apply rt_ret. cbn [e_center e_spread e_mu]. split; [split; [exact S1|split; assumption]|]. split; [split; [exact S3|split; assumption]|].
    split; [reflexivity|]. split; [reflexivity|]. split; [exact S5|]. split; [exact S6|]. split.
    + intros Hc. destruct (S7 Hc) as (-> & -> & -> & ->). destruct c1, c2. auto.
    + intros Hc. split; [eauto|exact (S8 Hc)].
  - apply rt_ret. split; [split; [exact A1|split; assumption]|]. split; [split; [exact B1|split; assumption]|].
    split; [reflexivity|]. split; [reflexivity|]. split; [intros i _; auto|]. split; [intros i _; auto|]. split; [auto|discriminate].
Qed.
Lemma ellip_mutate_gen (Qm : list f64 -> Prop) c : wf_ellip c ->
  rt (sam_adapt (lm K) mu_type1 (e_mu c)) (fun mu => length mu = 1%nat /\ Qm mu) ->
  rt (ellip_mutate K P c) (fun r => let '(d, ch) := r in wf_ellip d /\ Qm (e_mu d) /\
    (forall i, 0 <= i < xd ->
      nudged Zok (fun v => clamp v (cp_min P) (cp_max P)) (at_ f0 (e_mu d) 0) (at_ f0 (e_center c) i) (at_ f0 (e_center d) i) /\
      nudged Zok (fun v => fmax dbl_epsilon v) (at_ f0 (e_mu d) 0) (at_ f0 (e_spread c) i) (at_ f0 (e_spread d) i)) /\
    (ch = true <-> exists i, 0 <= i < xd /\
       (feq (at_ f0 (e_center c) i) (at_ f0 (e_center d) i) = false \/ feq (at_ f0 (e_spread c) i) (at_ f0 (e_spread d) i) = false))).
Proof.
  intros (W1 & W2 & W3) SA. unfold ellip_mutate. eapply rt_bind; [exact SA|]. intros mu (Lmu & Qmu).
  eapply rt_bind_lift; [apply (rd_ok f0); unfold len; lia|].
  eapply rt_bind; [apply (mutate_arrays_ok J K Zok SR HX); assumption|]. intros [[p1 p2] ch] (S1 & S2 & S3 & S4).
  apply rt_ret. cbn [e_center e_spread e_mu]. split; [split; [exact S1|split; [exact S2|exact Lmu]]|]. split; [exact Qmu|]. split; [|exact S4].
  exact S3.
Qed.

(** ** Generality: for every axis on which the two differ, both ends of the second ellipsoid's
    axis are at distance at most one from the first. *)
Definition tip (c : ellip) (i : Z) (v : f64) (t : list f64) : Prop :=
  len t = xd /\ at_ f0 t i = v /\ forall k, 0 <= k < xd -> k <> i -> at_ f0 t k = at_ f0 (e_center c) k.
Definition far (c : ellip) (t : list f64) : Prop := flt f1 (sq_dist c t) = true.
Definition up (c2 : ellip) (i : Z) : f64 := fadd (at_ f0 (e_center c2) i) (at_ f0 (e_spread c2) i).
Definition down (c2 : ellip) (i : Z) : f64 := fsub (up c2 i) (fmul f2 (at_ f0 (e_spread c2) i)).
Definition tips_near (c1 c2 : ellip) (n : Z) : Prop := forall i, n <= i < xd ->
  (feq (at_ f0 (e_center c1) i) (at_ f0 (e_center c2) i) = true /\ feq (at_ f0 (e_spread c1) i) (at_ f0 (e_spread c2) i) = true) \/
  (forall t, tip c2 i (up c2 i) t \/ tip c2 i (down c2 i) t -> ~ far c1 t).
Lemma tip_unique c i v t t' : 0 <= i < xd -> tip c i v t -> tip c i v t' -> t = t'.
Proof.
  intros Hi (A1 & A2 & A3) (B1 & B2 & B3). apply (list_ext f0); [congruence|]. intros k Hk.
  destruct (Z.eq_dec k i) as [-> |D]; [congruence|]. rewrite A3, B3 by lia. reflexivity.
Qed.
Lemma ellip_general_loop_ok c1 c2 : wf_ellip c1 -> wf_ellip c2 -> forall n i temp, 0 <= i -> i + Z.of_nat n = xd -> len temp = xd ->
  (forall k, 0 <= k < xd -> at_ f0 temp k = at_ f0 (e_center c2) k) ->
  exists b, ellip_general_loop K n i c1 c2 temp = Ok b /\ (b = true <-> tips_near c1 c2 i).
Proof.
  intros W1 W2. pose proof W1 as (A1 & A2 & A3). pose proof W2 as (B1 & B2 & B3).
  induction n as [|n IH]; intros i temp Hi Hn Lt Ht; cbn [ellip_general_loop].
  - exists true. split; [reflexivity|]. split; [|reflexivity]. intros _ k Hk. lia.
  - do 4 (rewrite (rd_ok f0) by lia; cbn [obind]). unfold fne.
    fold (feq (at_ f0 (e_center c1) i) (at_ f0 (e_center c2) i)) (feq (at_ f0 (e_spread c1) i) (at_ f0 (e_spread c2) i)).
    assert (NX : forall Q : Prop, (Q <-> (feq (at_ f0 (e_center c1) i) (at_ f0 (e_center c2) i) = true /\ feq (at_ f0 (e_spread c1) i) (at_ f0 (e_spread c2) i) = true) \/
       (forall t, tip c2 i (up c2 i) t \/ tip c2 i (down c2 i) t -> ~ far c1 t)) ->
       (tips_near c1 c2 i <-> Q /\ tips_near c1 c2 (i + 1))).
    { intros Q HQ. split.
      - intros H. split; [apply HQ, H; lia|]. intros k Hk. apply H. lia.
      - intros (H1 & H2) k Hk. destruct (Z.eq_dec k i) as [-> |]; [apply HQ, H1|apply H2; lia]. }
    destruct (feq (at_ f0 (e_center c1) i) (at_ f0 (e_center c2) i)) eqn:Q1; destruct (feq (at_ f0 (e_spread c1) i) (at_ f0 (e_spread c2) i)) eqn:Q2; cbn [negb orb].
    1: { destruct (IH (i + 1) temp) as (b & E & Hb); try lia; try assumption. exists b. split; [exact E|]. rewrite Hb.
         rewrite (NX True) by tauto. tauto. }
    all: rewrite (rd_ok f0) by lia; cbn [obind]; rewrite Ht by lia; fold (up c2 i);
      destruct (wr_ok temp i (up c2 i) ltac:(lia)) as (t1 & E1 & (P1 & P2 & P3 & P4)); rewrite E1; cbn [obind];
      rewrite (ellip_dist_ok c1 t1 W1 ltac:(lia)); cbn [obind];
      assert (T1 : tip c2 i (up c2 i) t1) by (split; [lia|split; [apply P2|intros k Hk D; rewrite P3 by lia; apply Ht, Hk]]);
      unfold fgt at 1; fold (flt f1 (sq_dist c1 t1));
      (destruct (flt f1 (sq_dist c1 t1)) eqn:D1;
       [exists false; split; [reflexivity|]; split; [discriminate|]; intros H; exfalso; destruct (H i ltac:(lia)) as [(X1 & X2)|NF]; [congruence|];
        apply (NF t1 (or_introl T1)); exact D1|]);
      rewrite (rd_ok f0) by lia; cbn [obind]; rewrite P2; fold (down c2 i);
      destruct (wr_ok t1 i (down c2 i) ltac:(lia)) as (t2 & E2 & (R1 & R2 & R3 & R4)); rewrite E2; cbn [obind];
      rewrite (ellip_dist_ok c1 t2 W1 ltac:(lia)); cbn [obind];
      assert (T2 : tip c2 i (down c2 i) t2) by (split; [lia|split; [apply R2|intros k Hk D; rewrite R3, P3 by lia; apply Ht, Hk]]);
      unfold fgt at 1; fold (flt f1 (sq_dist c1 t2));
      (destruct (flt f1 (sq_dist c1 t2)) eqn:D2;
       [exists false; split; [reflexivity|]; split; [discriminate|]; intros H; exfalso; destruct (H i ltac:(lia)) as [(X1 & X2)|NF]; [congruence|];
        apply (NF t2 (or_intror T2)); exact D2|]);
      destruct (wr_ok t2 i (at_ f0 (e_center c2) i) ltac:(lia)) as (t3 & E3 & (S1 & S2 & S3 & S4)); rewrite E3; cbn [obind];
      destruct (IH (i + 1) t3) as (b & E & Hb); try lia;
      [intros k Hk; destruct (Z.eq_dec k i) as [-> |D]; [apply S2|rewrite S3, R3, P3 by lia; apply Ht, Hk]|];
      exists b; (split; [exact E|]); rewrite Hb;
      rewrite (NX True); [tauto|]; (split; [|trivial]); intros _; right; intros t [T|T] F;
      [rewrite (tip_unique c2 i _ t t1 ltac:(lia) T T1) in F|rewrite (tip_unique c2 i _ t t2 ltac:(lia) T T2) in F];
      unfold far in F; congruence.
Qed.
Lemma ellip_general_ok c1 c2 : wf_ellip c1 -> wf_ellip c2 ->
  exists b, ellip_general K c1 c2 = Ok b /\ (b = true <-> tips_near c1 c2 0).
Proof.
  intros W1 W2. unfold ellip_general. rewrite memcpy_ok by apply W2. cbn [obind].
  apply ellip_general_loop_ok; try assumption; try lia; [apply W2|reflexivity].
Qed.

(** ** Integer actions. *)
Definition act_wf (c : actint) : Prop := 0 <= a_action c < n_actions K /\ length (a_mu c) = 1%nat.
Context (HN : 1 <= n_actions K <= int_max).
Lemma actint_init_ok : rt (actint_init K) (fun c => act_wf c /\ Forall rate_ok (a_mu c)).
Proof.
  unfold actint_init. eapply rt_bind; [apply (sam_init_ok J (lm K) Zok SR _ scheme1)|]. intros mu (L & R).
  eapply rt_bind; [apply (rt_uniform_int J (lm K) Zok SR); lia|]. intros a Ha. apply rt_ret. split; [split; [exact Ha|exact L]|exact R].
Qed.
Lemma actint_mutate_gen (Qm : list f64 -> Prop) c : act_wf c ->
  rt (sam_adapt (lm K) mu_type1 (a_mu c)) (fun mu => length mu = 1%nat /\ Qm mu) ->
  rt (actint_mutate K c) (fun r => let '(d, ch) := r in act_wf d /\ Qm (a_mu d) /\ (ch = true <-> a_action d <> a_action c) /\
    (a_action d <> a_action c -> exists u, u01 u /\ flt u (at_ f0 (a_mu d) 0) = true)).
Proof.
  intros (W1 & W2) SA. unfold actint_mutate. eapply rt_bind; [exact SA|]. intros mu (Lmu & Qmu).
  eapply rt_bind_lift; [apply (rd_ok f0); unfold len; lia|].
  eapply rt_bind; [apply (rt_draw01 J K Zok SR)|]. intros u Hu. destruct (flt u (at_ f0 mu 0)) eqn:E.
  - eapply rt_bind; [apply (rt_uniform_int J (lm K) Zok SR); lia|]. intros a Ha. apply rt_ret. cbn [a_action a_mu].
    split; [split; [exact Ha|exact Lmu]|]. split; [exact Qmu|]. split; [|eauto].
    destruct (Z.eqb_spec (a_action c) a); cbn [negb]; split; try discriminate; congruence.
  - apply rt_ret. cbn [a_action a_mu]. split; [split; [exact W1|exact Lmu]|]. split; [exact Qmu|]. split; [|congruence].
    split; [discriminate|congruence].
Qed.
End Ellip.
