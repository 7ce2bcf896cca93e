(** * Range facts about double expressions used by the learning rules. *)
From Coq Require Import ZArith Bool List Reals Lra Lia Psatz SpecFloat.
From Flocq Require Import Core BinarySingleNaN Sterbenz Operations.
From Verif Require Import F64 F64Facts RngFacts.

Open Scope R_scope.

(** [x] is a finite double with value in [lo,hi]. *)
Definition fin_in (lo hi : R) (x : f64) : Prop :=
  is_finite x = true /\ lo <= B2R x <= hi.

Lemma fin_in_mono lo hi lo' hi' x : lo' <= lo -> hi <= hi' -> fin_in lo hi x -> fin_in lo' hi' x.
Proof. intros H1 H2 [F H]. split; [exact F|lra]. Qed.

Lemma fin_in_fpos lo hi x : 0 <= lo -> fin_in lo hi x -> fpos x.
Proof. intros H [F B]. apply fpos_of_X; [apply fin_nn, F|rewrite X_finite by exact F; lra]. Qed.

Lemma X_sat_fin (z : f64) r : nn z -> X z = sat r -> Rabs r < bnd ->
  is_finite z = true /\ B2R z = r.
Proof.
  intros N E H. apply Rabs_lt_inv in H. rewrite sat_id in E by lra.
  assert (F : is_finite z = true) by (apply nn_X_finite; [exact N|rewrite E; exact H]).
  split; [exact F|]. rewrite <- E. symmetry. apply X_finite, F.
Qed.

Lemma fadd_R x y : is_finite x = true -> is_finite y = true -> Rabs (rnd (B2R x + B2R y)) < bnd ->
  is_finite (fadd x y) = true /\ B2R (fadd x y) = rnd (B2R x + B2R y).
Proof. intros Fx Fy H. destruct (fadd_fin x y Fx Fy) as [N E]. apply X_sat_fin; assumption. Qed.
Lemma fsub_R x y : is_finite x = true -> is_finite y = true -> Rabs (rnd (B2R x - B2R y)) < bnd ->
  is_finite (fsub x y) = true /\ B2R (fsub x y) = rnd (B2R x - B2R y).
Proof. intros Fx Fy H. destruct (fsub_fin x y Fx Fy) as [N E]. apply X_sat_fin; assumption. Qed.
Lemma fmul_R x y : is_finite x = true -> is_finite y = true -> Rabs (rnd (B2R x * B2R y)) < bnd ->
  is_finite (fmul x y) = true /\ B2R (fmul x y) = rnd (B2R x * B2R y).
Proof. intros Fx Fy H. destruct (fmul_fin x y Fx Fy) as [N E]. apply X_sat_fin; assumption. Qed.
Lemma fdiv_R x y : is_finite x = true -> is_finite y = true -> B2R y <> 0 -> Rabs (rnd (B2R x / B2R y)) < bnd ->
  is_finite (fdiv x y) = true /\ B2R (fdiv x y) = rnd (B2R x / B2R y).
Proof. intros Fx Fy Z H. destruct (fdiv_fin x y Fx Fy Z) as [N E]. apply X_sat_fin; assumption. Qed.

Lemma Rabs_between lo hi r b : lo <= r <= hi -> - b < lo -> hi < b -> Rabs r < b.
Proof. intros H1 H2 H3. apply Rabs_def1; lra. Qed.

(** Interval versions: the bounds are representable. *)
Section Interval.
Variables lo hi : R.
Hypothesis Flo : fmt64 lo.
Hypothesis Fhi : fmt64 hi.
Hypothesis Blo : - bnd < lo.
Hypothesis Bhi : hi < bnd.
Lemma rnd_in r : lo <= r <= hi -> lo <= rnd r <= hi.
Proof. intros H. split; [apply rnd_ge_fmt|apply rnd_le_fmt]; tauto. Qed.
Lemma rnd_in_abs r : lo <= r <= hi -> Rabs (rnd r) < bnd.
Proof. intros H. eapply Rabs_between; [apply rnd_in, H|exact Blo|exact Bhi]. Qed.
Lemma fadd_in x y : is_finite x = true -> is_finite y = true -> lo <= B2R x + B2R y <= hi ->
  fin_in lo hi (fadd x y).
Proof.
  intros Fx Fy H. destruct (fadd_R x y Fx Fy (rnd_in_abs _ H)) as [F E].
  split; [exact F|rewrite E; apply rnd_in, H].
Qed.
Lemma fsub_in x y : is_finite x = true -> is_finite y = true -> lo <= B2R x - B2R y <= hi ->
  fin_in lo hi (fsub x y).
Proof.
  intros Fx Fy H. destruct (fsub_R x y Fx Fy (rnd_in_abs _ H)) as [F E].
  split; [exact F|rewrite E; apply rnd_in, H].
Qed.
Lemma fmul_in x y : is_finite x = true -> is_finite y = true -> lo <= B2R x * B2R y <= hi ->
  fin_in lo hi (fmul x y).
Proof.
  intros Fx Fy H. destruct (fmul_R x y Fx Fy (rnd_in_abs _ H)) as [F E].
  split; [exact F|rewrite E; apply rnd_in, H].
Qed.
Lemma fdiv_in x y : is_finite x = true -> is_finite y = true -> B2R y <> 0 -> lo <= B2R x / B2R y <= hi ->
  fin_in lo hi (fdiv x y).
Proof.
  intros Fx Fy Z H. destruct (fdiv_R x y Fx Fy Z (rnd_in_abs _ H)) as [F E].
  split; [exact F|rewrite E; apply rnd_in, H].
Qed.
End Interval.

Lemma fmt_0 : fmt64 0. Proof. apply generic_format_0. Qed.
Lemma fmt_1 : fmt64 1. Proof. apply (format_IZR 1). lia. Qed.
Lemma fmt_opp x : fmt64 x -> fmt64 (- x). Proof. apply generic_format_opp. Qed.
Lemma bpow_lt_bnd k : (k < 1024)%Z -> bpow radix2 k < bnd.
Proof. apply bpow_lt. Qed.
Lemma one_lt_bnd : 1 < bnd. Proof. change 1 with (bpow radix2 0). apply bpow_lt. lia. Qed.
Lemma bpow_ge_1 k : (0 <= k)%Z -> 1 <= bpow radix2 k.
Proof. intros H. change 1 with (bpow radix2 0). apply bpow_le. exact H. Qed.

(** ** Exponential moving averages. *)

(** Adding [x] to the rounded distance from [x] up to a power of two does not pass it. *)
Lemma rnd_add_dist k x : (0 <= k < 1023)%Z -> fmt64 x -> 0 <= x <= bpow radix2 k ->
  rnd (x + rnd (bpow radix2 k - x)) <= bpow radix2 k.
Proof.
  intros Hk Fx Hx.
  assert (FB : fmt64 (bpow radix2 k)) by (apply format_bpow; lia).
  assert (Eh : bpow radix2 k = 2 * bpow radix2 (k - 1)).
  { replace k with (1 + (k - 1))%Z at 1 by lia. rewrite bpow_plus. reflexivity. }
  assert (P1 : 0 < bpow radix2 (k - 1)) by apply bpow_gt_0.
  destruct (Rle_lt_dec (bpow radix2 (k - 1)) x) as [H|H].
  - (* Sterbenz *)
    assert (E : rnd (bpow radix2 k - x) = bpow radix2 k - x).
    { apply round_generic; [typeclasses eauto|].
      apply sterbenz; [typeclasses eauto|typeclasses eauto|exact FB|exact Fx|]. lra. }
    rewrite E. replace (x + (bpow radix2 k - x)) with (bpow radix2 k) by ring.
    rewrite rnd_bpow by lia. lra.
  - set (y := bpow radix2 k - x).
    assert (Hy : bpow radix2 (k - 1) < y <= bpow radix2 k) by (unfold y; lra).
    assert (U : ulp radix2 fexp64 (bpow radix2 k) = bpow radix2 (k - 52)).
    { rewrite ulp_bpow. f_equal. unfold SpecFloat.fexp, SpecFloat.emin. lia. }
    assert (Er : Rabs (rnd y - y) <= / 2 * bpow radix2 (k - 53)).
    { destruct (Req_dec y (bpow radix2 k)) as [Ey|Ny].
      - rewrite Ey, rnd_bpow by lia. rewrite Rminus_diag_eq by reflexivity. rewrite Rabs_R0.
        pose proof (bpow_gt_0 radix2 (k - 53)). lra.
      - eapply Rle_trans; [apply error_le_half_ulp; typeclasses eauto|].
        apply Rmult_le_compat_l; [lra|].
        unfold ulp. rewrite Req_bool_false by lra.
        apply bpow_le. unfold cexp.
        rewrite (mag_unique_pos radix2 y k).
        + unfold SpecFloat.fexp, SpecFloat.emin. lia.
        + lra. }
    apply round_N_le_midp; [typeclasses eauto|exact FB|].
    rewrite succ_eq_pos by (left; apply bpow_gt_0). rewrite U.
    assert (E2 : bpow radix2 (k - 52) = 2 * bpow radix2 (k - 53)).
    { replace (k - 52)%Z with (1 + (k - 53))%Z by lia. rewrite bpow_plus. reflexivity. }
    rewrite E2. pose proof (bpow_gt_0 radix2 (k - 53)). apply Rabs_le_inv in Er.
    unfold y in *. lra.
Qed.

(** x + b(n - x), all operations rounded, stays in [0, 2^k]. *)
Lemma ema_R k x n b : (0 <= k < 1023)%Z -> fmt64 x -> fmt64 n ->
  0 <= x <= bpow radix2 k -> 0 <= n <= bpow radix2 k -> 0 <= b <= 1 ->
  - bpow radix2 k <= rnd (n - x) <= bpow radix2 k /\
  - bpow radix2 k <= rnd (b * rnd (n - x)) <= bpow radix2 k /\
  0 <= rnd (x + rnd (b * rnd (n - x))) <= bpow radix2 k.
Proof.
  intros Hk Fx Fn Hx Hn Hb.
  assert (FB : fmt64 (bpow radix2 k)) by (apply format_bpow; lia).
  assert (PB : 0 < bpow radix2 k) by apply bpow_gt_0.
  assert (Fd : fmt64 (rnd (n - x))) by apply fmt_rnd.
  destruct (Rle_lt_dec x n) as [H|H].
  - assert (D0 : 0 <= rnd (n - x)) by (apply rnd_ge_0; lra).
    assert (D1 : rnd (n - x) <= rnd (bpow radix2 k - x)) by (apply rnd_le; lra).
    assert (D2 : rnd (n - x) <= bpow radix2 k) by (apply rnd_le_fmt; [exact FB|lra]).
    assert (P0 : 0 <= rnd (b * rnd (n - x))) by (apply rnd_ge_0; nra).
    assert (P1' : rnd (b * rnd (n - x)) <= rnd (n - x)) by (apply rnd_le_fmt; [exact Fd|nra]).
    split; [lra|]. split; [lra|]. split; [apply rnd_ge_0; lra|].
    apply Rle_trans with (rnd (x + rnd (bpow radix2 k - x))); [apply rnd_le; lra|].
    apply rnd_add_dist; assumption.
  - assert (D0 : rnd (n - x) <= 0) by (apply rnd_le_0; lra).
    assert (D1 : - x <= rnd (n - x)) by (apply rnd_ge_fmt; [apply fmt_opp, Fx|lra]).
    assert (P0 : rnd (b * rnd (n - x)) <= 0) by (apply rnd_le_0; nra).
    assert (P1' : rnd (n - x) <= rnd (b * rnd (n - x))) by (apply rnd_ge_fmt; [exact Fd|nra]).
    split; [lra|]. split; [lra|]. split; [apply rnd_ge_0; lra|].
    apply Rle_trans with x; [|lra]. apply rnd_le_fmt; [exact Fx|lra].
Qed.

(** The same when everything is at least 1. *)
Lemma ema_ge1_R k x n b : (0 <= k <= 52)%Z -> fmt64 x -> fmt64 n ->
  1 <= x <= bpow radix2 k -> 1 <= n <= bpow radix2 k -> 0 <= b <= 1 ->
  1 <= rnd (x + rnd (b * rnd (n - x))).
Proof.
  intros Hk Fx Fn Hx Hn Hb.
  assert (Fd : fmt64 (rnd (n - x))) by apply fmt_rnd.
  destruct (Rle_lt_dec x n) as [H|H].
  - assert (D0 : 0 <= rnd (n - x)) by (apply rnd_ge_0; lra).
    assert (P0 : 0 <= rnd (b * rnd (n - x))) by (apply rnd_ge_0; nra).
    apply rnd_ge_fmt; [apply fmt_1|lra].
  - assert (Fx1 : fmt64 (x - 1)).
    { (* x is a multiple of an ulp that divides 1 *)
      destruct (Req_dec x 1) as [->|Nx]; [rewrite Rminus_diag_eq by reflexivity; apply fmt_0|].
      set (e := cexp radix2 fexp64 x).
      assert (Ce : (e <= 0)%Z).
      { unfold e, cexp, SpecFloat.fexp, SpecFloat.emin.
        assert ((mag radix2 x <= k + 1)%Z); [|lia].
        apply mag_le_bpow; [lra|]. rewrite Rabs_pos_eq by lra.
        apply Rle_lt_trans with (bpow radix2 k); [lra|]. apply bpow_lt. lia. }
      assert (E1 : 1 = F2R (Float radix2 (2 ^ (- e)) e)).
      { unfold F2R; simpl Fnum; simpl Fexp. change 2%Z with (radix_val radix2).
        rewrite IZR_Zpower by lia. rewrite <- bpow_plus.
        replace (- e + e)%Z with 0%Z by lia. reflexivity. }
      apply generic_format_F2R' with (f := Fminus (Float radix2 (Ztrunc (scaled_mantissa radix2 fexp64 x)) e) (Float radix2 (2 ^ (- e)) e)).
      - rewrite F2R_minus. rewrite <- E1. f_equal. symmetry. exact Fx.
      - intros _. unfold Fminus. rewrite Fexp_Fplus. unfold Fopp, Fexp. rewrite Z.min_id. unfold e, cexp.
        assert (Hm : (mag radix2 (x - 1) <= mag radix2 x)%Z)
          by (apply mag_le; lra).
        unfold SpecFloat.fexp. lia. }
    assert (D1 : - (x - 1) <= rnd (n - x)) by (apply rnd_ge_fmt; [apply fmt_opp, Fx1|lra]).
    assert (P1' : rnd (n - x) <= rnd (b * rnd (n - x))).
    { apply rnd_ge_fmt; [exact Fd|]. assert (rnd (n - x) <= 0) by (apply rnd_le_0; lra). nra. }
    apply rnd_ge_fmt; [apply fmt_1|lra].
Qed.

Section Ema.
Variable k : Z.
Hypothesis Hk : (0 <= k < 1023)%Z.
Let B := bpow radix2 k.
Lemma B_lt : B < bnd. Proof. apply bpow_lt. lia. Qed.

(** c + BETA * (n - c), as in cl.c:195-196,214. *)
Lemma ema_in x n b : fin_in 0 B x -> fin_in 0 B n -> fin_in 0 1 b ->
  fin_in 0 B (fadd x (fmul b (fsub n x))).
Proof.
  intros [Fx Hx] [Fn Hn] [Fb Hb]. pose proof B_lt as HB.
  destruct (ema_R k (B2R x) (B2R n) (B2R b) Hk (fmt_B2R x) (fmt_B2R n) Hx Hn Hb) as (A1 & A2 & A3).
  fold B in A1, A2, A3.
  assert (PB : 0 < B) by apply bpow_gt_0.
  destruct (fsub_R n x Fn Fx) as [Fd Ed]; [eapply Rabs_between; [exact A1|lra|lra]|].
  destruct (fmul_R b (fsub n x) Fb Fd) as [Fp Ep]; [rewrite Ed; eapply Rabs_between; [exact A2|lra|lra]|].
  destruct (fadd_R x (fmul b (fsub n x)) Fx Fp) as [Fr Er];
    [rewrite Ep, Ed; eapply Rabs_between; [exact A3|lra|lra]|].
  split; [exact Fr|]. rewrite Er, Ep, Ed. exact A3.
Qed.

(** c + (n - c) * BETA, as in clset.c:394-395,414. *)
Lemma ema_in' x n b : fin_in 0 B x -> fin_in 0 B n -> fin_in 0 1 b ->
  fin_in 0 B (fadd x (fmul (fsub n x) b)).
Proof.
  intros [Fx Hx] [Fn Hn] [Fb Hb]. pose proof B_lt as HB.
  destruct (ema_R k (B2R x) (B2R n) (B2R b) Hk (fmt_B2R x) (fmt_B2R n) Hx Hn Hb) as (A1 & A2 & A3).
  fold B in A1, A2, A3. rewrite (Rmult_comm (B2R b)) in A2, A3.
  assert (PB : 0 < B) by apply bpow_gt_0.
  destruct (fsub_R n x Fn Fx) as [Fd Ed]; [eapply Rabs_between; [exact A1|lra|lra]|].
  destruct (fmul_R (fsub n x) b Fd Fb) as [Fp Ep]; [rewrite Ed; eapply Rabs_between; [exact A2|lra|lra]|].
  destruct (fadd_R x (fmul (fsub n x) b) Fx Fp) as [Fr Er];
    [rewrite Ep, Ed; eapply Rabs_between; [exact A3|lra|lra]|].
  split; [exact Fr|]. rewrite Er, Ep, Ed. exact A3.
Qed.

Lemma ema_ge1 x n b : (k <= 52)%Z -> fin_in 1 B x -> fin_in 1 B n -> fin_in 0 1 b ->
  fin_in 1 B (fadd x (fmul b (fsub n x))).
Proof.
  intros Hk2 [Fx Hx] [Fn Hn] [Fb Hb]. pose proof B_lt as HB.
  assert (Hx0 : 0 <= B2R x <= bpow radix2 k) by (fold B; lra).
  assert (Hn0 : 0 <= B2R n <= bpow radix2 k) by (fold B; lra).
  destruct (ema_R k (B2R x) (B2R n) (B2R b) Hk (fmt_B2R x) (fmt_B2R n) Hx0 Hn0 Hb) as (A1 & A2 & A3).
  assert (A4 : 1 <= rnd (B2R x + rnd (B2R b * rnd (B2R n - B2R x)))).
  { apply (ema_ge1_R k); try assumption; try apply fmt_B2R. lia. }
  fold B in A1, A2, A3.
  destruct (fsub_R n x Fn Fx) as [Fd Ed]; [eapply Rabs_between; [exact A1|lra|lra]|].
  destruct (fmul_R b (fsub n x) Fb Fd) as [Fp Ep]; [rewrite Ed; eapply Rabs_between; [exact A2|lra|lra]|].
  destruct (fadd_R x (fmul b (fsub n x)) Fx Fp) as [Fr Er];
    [rewrite Ep, Ed; eapply Rabs_between; [exact A3|lra|lra]|].
  split; [exact Fr|]. rewrite Er, Ep, Ed. lra.
Qed.
End Ema.

(** ** Integers converted to double, of any magnitude. *)
Lemma of_Z_X z : nn (of_Z z) /\ X (of_Z z) = sat (rnd (IZR z)).
Proof.
  unfold of_Z. pose proof (binary_normalize_correct 53 1024 _ _ mode_NE z 0 false) as H.
  cbv zeta in H. change (round_mode mode_NE) with ZnearestE in H.
  assert (E : F2R (Float radix2 z 0) = IZR z) by (unfold F2R; simpl; ring). rewrite E in H.
  destruct (Rlt_bool_spec (Rabs (rnd (IZR z))) bnd) as [Hb|Hb].
  - destruct H as (H1 & H2 & _). split; [apply fin_nn; exact H2|].
    rewrite X_finite by exact H2. rewrite H1, sat_id; [reflexivity|]. apply Rabs_lt_inv in Hb. lra.
  - apply X_of_B2SF_overflow in H. destruct H as [N H]. split; [exact N|]. rewrite H.
    apply Rsign_sat; [exact Hb| |]; intros S; destruct (Rlt_bool_spec (IZR z) 0) as [L|L]; try discriminate.
    + apply rnd_le_0. lra.
    + apply rnd_ge_0. lra.
Qed.

Lemma of_Z_ge1 z : (1 <= z)%Z -> nn (of_Z z) /\ 1 <= X (of_Z z).
Proof.
  intros H. destruct (of_Z_X z) as [N E]. split; [exact N|]. rewrite E.
  rewrite <- (sat_id 1) by (pose proof one_lt_bnd; lra). apply sat_le.
  apply rnd_ge_fmt; [apply fmt_1|]. apply IZR_le in H. exact H.
Qed.

Lemma X_pos_sign (x : f64) : 0 < X x -> Bsign x = false.
Proof.
  pose proof bnd_pos. destruct x as [[|]|[|]| |[|] m e Hb]; cbn [X]; intros H1; try reflexivity; exfalso.
  - simpl in H1; lra.
  - lra.
  - assert (B2R (B754_finite true m e Hb : f64) < 0) by (apply F2R_lt_0; reflexivity). lra.
Qed.

(** Finite with a positive sign bit and at most [hi]. *)
Definition fin_p (hi : R) (x : f64) : Prop :=
  is_finite x = true /\ Bsign x = false /\ B2R x <= hi.

Lemma fin_p_ge0 hi x : fin_p hi x -> 0 <= B2R x.
Proof. intros (_ & S & _). apply Bsign_pos_ge, S. Qed.
Lemma fin_p_in hi x : fin_p hi x -> fin_in 0 hi x.
Proof. intros H. pose proof (fin_p_ge0 hi x H). destruct H as (F & S & L). split; [exact F|lra]. Qed.
Lemma fin_p_fpos hi x : fin_p hi x -> fpos x.
Proof. intros H. eapply fin_in_fpos; [|apply fin_p_in, H]. lra. Qed.
Lemma fin_p_mono hi hi' x : hi <= hi' -> fin_p hi x -> fin_p hi' x.
Proof. intros L (F & S & B). repeat split; try assumption; lra. Qed.

(** Division of a finite non-negative number by something at least 1 (maybe infinite). *)
Lemma fdiv_ge1 hi x y : fin_in 0 hi x -> nn y -> 1 <= X y -> fin_in 0 (B2R x) (fdiv x y).
Proof.
  intros [Fx Hx] N H. destruct (nn_cases y N) as [F|[-> | ->]].
  - rewrite X_finite in H by exact F.
    apply fdiv_in; try assumption; try apply fmt_0; try apply fmt_B2R.
    + pose proof bnd_pos; lra.
    + apply B2R_bnd.
    + lra.
    + assert (0 < / B2R y <= 1).
      { split; [apply Rinv_0_lt_compat; lra|]. rewrite <- Rinv_1. apply Rinv_le_contravar; lra. }
      unfold Rdiv. nra.
  - destruct x as [s|s| |s m e Hb]; try discriminate; (split; [reflexivity|]);
      change (B2R (fdiv _ _)) with 0; simpl; simpl in Hx; lra.
  - cbn [X] in H. pose proof bnd_pos; lra.
Qed.
Lemma fdiv_sign x y : is_finite x = true -> nn y -> 1 <= X y -> Bsign x = false ->
  Bsign (fdiv x y) = false.
Proof.
  intros Fx N H S. destruct (nn_cases y N) as [F|[-> | ->]].
  - rewrite X_finite in H by exact F. assert (Z : B2R y <> 0) by lra.
    pose proof (Bdiv_correct 53 1024 _ _ mode_NE x y Z) as C.
    assert (Sy : Bsign y = false) by (apply X_pos_sign; rewrite X_finite by exact F; lra).
    destruct (fdiv_fin x y Fx F Z) as [Nn _]. unfold fdiv in *.
    destruct (Rlt_bool _ bnd).
    + destruct C as (_ & _ & C). rewrite C by exact Nn. rewrite S, Sy. reflexivity.
    + rewrite S, Sy in C. destruct (Bdiv mode_NE x y); try discriminate C; simpl in C;
      unfold binary_overflow in C; simpl in C; injection C as ->; reflexivity.
  - destruct x as [s|s| |s m e Hb]; try discriminate; simpl in S; subst s; reflexivity.
  - cbn [X] in H. pose proof bnd_pos; lra.
Qed.
Lemma fdiv_ge1_p hi x y : fin_p hi x -> nn y -> 1 <= X y -> fin_p hi (fdiv x y).
Proof.
  intros Hx N H. destruct (fdiv_ge1 hi x y (fin_p_in _ _ Hx) N H) as [F B].
  destruct Hx as (Fx & S & L). repeat split; [exact F|apply fdiv_sign; assumption|lra].
Qed.

Lemma fmul_sign x y : is_finite x = true -> is_finite y = true -> Bsign x = false -> Bsign y = false ->
  Bsign (fmul x y) = false.
Proof.
  intros Fx Fy Sx Sy. destruct (fmul_fin x y Fx Fy) as [N _].
  pose proof (Bmult_correct 53 1024 _ _ mode_NE x y) as C. unfold fmul in *.
  destruct (Rlt_bool _ bnd).
  - destruct C as (_ & _ & C). rewrite C by exact N. rewrite Sx, Sy. reflexivity.
  - rewrite Sx, Sy in C. destruct (Bmult mode_NE x y); try discriminate C; simpl in C;
      unfold binary_overflow in C; simpl in C; injection C as ->; reflexivity.
Qed.
(** Multiplication by a factor in [0,1]. *)
Lemma fmul_frac_p hi x y : fin_p 1 x -> fin_p hi y -> fin_p hi (fmul x y).
Proof.
  intros Hx Hy. pose proof (fin_p_ge0 _ _ Hx). pose proof (fin_p_ge0 _ _ Hy).
  destruct Hx as (Fx & Sx & Lx). destruct Hy as (Fy & Sy & Ly).
  assert (I : fin_in 0 (B2R y) (fmul x y)).
  { apply fmul_in; try assumption; try apply fmt_0; try apply fmt_B2R.
    - pose proof bnd_pos; lra.
    - apply B2R_bnd.
    - nra. }
  destruct I as [F [_ L]]. repeat split; [exact F|apply fmul_sign; assumption|lra].
Qed.

Lemma fadd_sign x y : is_finite x = true -> is_finite y = true -> Bsign x = false ->
  0 <= B2R x + B2R y -> Rabs (rnd (B2R x + B2R y)) < bnd -> Bsign (fadd x y) = false.
Proof.
  intros Fx Fy Sx H Hb. pose proof (Bplus_correct 53 1024 _ _ mode_NE x y Fx Fy) as C.
  change (round_mode mode_NE) with ZnearestE in C. rewrite Rlt_bool_true in C by exact Hb.
  destruct C as (_ & _ & C). unfold fadd. rewrite C, Sx.
  destruct (Rcompare_spec (B2R x + B2R y) 0) as [L|L|L]; [lra|reflexivity|reflexivity].
Qed.

(** (x + y) * 0.5 of two numbers in [0, 2^k]. *)
Lemma fhalf_fin : is_finite fhalf = true. Proof. reflexivity. Qed.
Lemma fhalf_R : B2R fhalf = / 2. 
Proof. unfold fhalf. unfold B2R. simpl. unfold F2R; simpl. lra. Qed.
Lemma mean2_p k x y : (0 <= k < 1022)%Z -> fin_p (bpow radix2 k) x -> fin_p (bpow radix2 k) y ->
  fin_p (bpow radix2 k) (fmul (fadd x y) fhalf).
Proof.
  intros Hk Hx Hy. pose proof (fin_p_ge0 _ _ Hx). pose proof (fin_p_ge0 _ _ Hy).
  destruct Hx as (Fx & Sx & Lx). destruct Hy as (Fy & Sy & Ly).
  assert (E : bpow radix2 (k + 1) = 2 * bpow radix2 k).
  { rewrite Z.add_comm, bpow_plus. reflexivity. }
  assert (B1 : bpow radix2 (k + 1) < bnd) by (apply bpow_lt; lia).
  assert (A : fin_in 0 (bpow radix2 (k + 1)) (fadd x y)).
  { apply fadd_in; try assumption; try apply fmt_0.
    - apply format_bpow; lia.
    - pose proof bnd_pos; lra.
    - lra. }
  assert (SA : Bsign (fadd x y) = false).
  { apply fadd_sign; try assumption; [lra|].
    apply (rnd_in_abs 0 (bpow radix2 (k + 1))); try apply fmt_0; try lra.
    apply format_bpow; lia. }
  destruct A as [FA BA].
  assert (M : fin_in 0 (bpow radix2 k) (fmul (fadd x y) fhalf)).
  { apply fmul_in; try assumption; try apply fmt_0; try apply fhalf_fin.
    - apply format_bpow; lia.
    - pose proof bnd_pos; lra.
    - pose proof (bpow_gt_0 radix2 k). lra.
    - rewrite fhalf_R. lra. }
  destruct M as [FM [_ LM]]. repeat split; [exact FM| |exact LM].
  apply fmul_sign; [exact FA|apply fhalf_fin|exact SA|reflexivity].
Qed.

Lemma ema_p k x n b : (0 <= k < 1023)%Z -> fin_p (bpow radix2 k) x -> fin_in 0 (bpow radix2 k) n ->
  fin_in 0 1 b -> fin_p (bpow radix2 k) (fadd x (fmul b (fsub n x))).
Proof.
  intros Hk Hx Hn Hb. destruct (ema_in k Hk x n b (fin_p_in _ _ Hx) Hn Hb) as [F [_ L]].
  repeat split; [exact F| |exact L].
  pose proof (fin_p_ge0 _ _ Hx) as X0. destruct Hx as (Fx & Sx & Lx).
  destruct Hn as [Fn Hn]. destruct Hb as [Fb Hb].
  assert (HB : bpow radix2 k < bnd) by (apply bpow_lt; lia).
  assert (PB : 0 < bpow radix2 k) by apply bpow_gt_0.
  destruct (ema_R k (B2R x) (B2R n) (B2R b) Hk (fmt_B2R x) (fmt_B2R n) (conj X0 Lx) Hn Hb) as (A1 & A2 & A3).
  destruct (fsub_R n x Fn Fx) as [Fd Ed]; [eapply Rabs_between; [exact A1|lra|lra]|].
  destruct (fmul_R b (fsub n x) Fb Fd) as [Fp Ep]; [rewrite Ed; eapply Rabs_between; [exact A2|lra|lra]|].
  apply fadd_sign; try assumption.
  - rewrite Ep, Ed. destruct (Rle_lt_dec (B2R x) (B2R n)) as [H|H].
    + assert (0 <= rnd (B2R n - B2R x)) by (apply rnd_ge_0; lra).
      assert (0 <= rnd (B2R b * rnd (B2R n - B2R x))) by (apply rnd_ge_0; nra). lra.
    + assert (D1 : - B2R x <= rnd (B2R n - B2R x)) by (apply rnd_ge_fmt; [apply fmt_opp, fmt_B2R|lra]).
      assert (D0 : rnd (B2R n - B2R x) <= 0) by (apply rnd_le_0; lra).
      assert (rnd (B2R n - B2R x) <= rnd (B2R b * rnd (B2R n - B2R x))) by (apply rnd_ge_fmt; [apply fmt_rnd|nra]).
      lra.
  - rewrite Ep, Ed. eapply Rabs_between; [exact A3|lra|lra].
Qed.

(** ** The running mean of the set size estimate, cl.c:193. *)
Lemma size_mean_in k size e n : (0 <= k <= 52)%Z -> (1 <= e <= 2 ^ 53)%Z ->
  fin_in 1 (bpow radix2 k) size -> (1 <= n)%Z -> IZR n <= bpow radix2 k ->
  fin_in 1 (bpow radix2 k)
    (fdiv (fadd (fmul size (of_Z (e - 1))) (of_Z n)) (of_Z e)).
Proof.
  intros Hk He [Fs Hs] Hn1 Hn2.
  destruct (of_Z_fin (e - 1)) as [F1 E1]; [lia|].
  destruct (of_Z_fin e) as [F2 E2]; [lia|].
  assert (PB : 0 < bpow radix2 k) by apply bpow_gt_0.
  assert (Hn3 : (n <= 2 ^ 53)%Z).
  { apply le_IZR. apply Rle_trans with (1 := Hn2). change (IZR (2 ^ 53)) with (bpow radix2 53). apply bpow_le. lia. }
  destruct (of_Z_fin n) as [F3 E3]; [lia|].
  assert (He1 : 0 <= IZR (e - 1)) by (apply IZR_le; lia).
  assert (He2 : IZR e = IZR (e - 1) + 1) by (rewrite minus_IZR; lra).
  assert (Hn1' : 1 <= IZR n) by (apply IZR_le; lia).
  assert (EP : forall j, (0 <= j <= 2 ^ 53)%Z -> fmt64 (bpow radix2 k * IZR j)).
  { intros j Hj. rewrite Rmult_comm. destruct (Z.eq_dec j 0) as [-> |NZ].
    - rewrite Rmult_0_l. apply fmt_0.
    - destruct (Z.eq_dec j (2 ^ 53)) as [-> |N53].
      + change (IZR (2 ^ 53)) with (bpow radix2 53). rewrite <- bpow_plus. apply format_bpow. lia.
      + apply (generic_format_FLT radix2 (-1074) 53). exists (Float radix2 j k); simpl.
        * reflexivity.
        * change (Z.pow_pos 2 53) with (2 ^ 53)%Z. lia.
        * lia. }
  assert (BB : forall j, (0 <= j <= 2 ^ 53)%Z -> bpow radix2 k * IZR j < bnd).
  { intros j Hj. apply Rle_lt_trans with (bpow radix2 k * bpow radix2 53).
    - apply Rmult_le_compat_l; [lra|]. change (bpow radix2 53) with (IZR (2 ^ 53)). apply IZR_le. lia.
    - rewrite <- bpow_plus. apply bpow_lt. lia. }
  assert (M : fin_in (IZR (e - 1)) (bpow radix2 k * IZR (e - 1)) (fmul size (of_Z (e - 1)))).
  { apply fmul_in; try assumption.
    - apply format_IZR; lia.
    - apply EP; lia.
    - pose proof bnd_pos; lra.
    - apply BB; lia.
    - rewrite E1. nra. }
  destruct M as [FM BM].
  assert (A : fin_in (IZR e) (bpow radix2 k * IZR e) (fadd (fmul size (of_Z (e - 1))) (of_Z n))).
  { apply fadd_in; try assumption.
    - apply format_IZR; lia.
    - apply EP; lia.
    - pose proof bnd_pos. lra.
    - apply BB; lia.
    - rewrite E3. rewrite He2. split; [lra|]. rewrite Rmult_plus_distr_l. lra. }
  destruct A as [FA BA].
  apply fdiv_in; try assumption.
  - apply fmt_1.
  - apply format_bpow; lia.
  - pose proof bnd_pos; lra.
  - apply bpow_lt; lia.
  - rewrite E2. lra.
  - rewrite E2. assert (P : 0 < IZR e) by lra. split.
    + apply Rmult_le_reg_r with (IZR e); [exact P|]. unfold Rdiv. rewrite Rmult_assoc, Rinv_l by lra. lra.
    + apply Rmult_le_reg_r with (IZR e); [exact P|]. unfold Rdiv. rewrite Rmult_assoc, Rinv_l by lra. lra.
Qed.

(** ** Deletion votes, cl.c:146-153. *)
Lemma fmul_ge1 x y : nn x -> 1 <= X x -> nn y -> 1 <= X y -> nn (fmul x y) /\ 1 <= X (fmul x y).
Proof.
  intros Nx Hx Ny Hy. pose proof bnd_pos as PB. pose proof one_lt_bnd as OB.
  destruct (nn_cases x Nx) as [Fx|[-> | ->]]; [| |cbn [X] in Hx; lra];
  destruct (nn_cases y Ny) as [Fy|[-> | ->]]; try (cbn [X] in Hy; lra).
  - destruct (fmul_fin x y Fx Fy) as [N E]. split; [exact N|]. rewrite E.
    rewrite X_finite in Hx, Hy by assumption.
    rewrite <- (sat_id 1) by lra. apply sat_le, rnd_ge_fmt; [apply fmt_1|nra].
  - assert (S : Bsign x = false) by (apply X_pos_sign; lra).
    destruct x as [s|s| |s m e Hb]; try discriminate Fx; simpl in S; subst s; [simpl in Hx; lra|].
    split; [reflexivity|]. change (X (fmul _ _)) with bnd. lra.
  - assert (S : Bsign y = false) by (apply X_pos_sign; lra).
    destruct y as [s|s| |s m e Hb]; try discriminate Fy; simpl in S; subst s; [simpl in Hy; lra|].
    split; [reflexivity|]. change (X (fmul _ _)) with bnd. lra.
  - split; [reflexivity|]. change (X (fmul _ _)) with bnd. lra.
Qed.
Lemma fmul_ge1_pos x y : nn x -> 1 <= X x -> nn y -> 0 < X y -> nn (fmul x y) /\ 0 < X (fmul x y).
Proof.
  intros Nx Hx Ny Hy. pose proof bnd_pos as PB. pose proof one_lt_bnd as OB.
  destruct (nn_cases x Nx) as [Fx|[-> | ->]]; [| |cbn [X] in Hx; lra];
  destruct (nn_cases y Ny) as [Fy|[-> | ->]]; try (cbn [X] in Hy; lra).
  - destruct (fmul_fin x y Fx Fy) as [N E]. split; [exact N|]. rewrite E.
    rewrite X_finite in Hx, Hy by assumption. apply Rlt_le_trans with (B2R y); [exact Hy|].
    rewrite <- (sat_B2R y) at 1. apply sat_le, rnd_ge_B2R. nra.
  - assert (S : Bsign x = false) by (apply X_pos_sign; lra).
    destruct x as [s|s| |s m e Hb]; try discriminate Fx; simpl in S; subst s; [simpl in Hx; lra|].
    split; [reflexivity|]. change (X (fmul _ _)) with bnd. lra.
  - assert (S : Bsign y = false) by (apply X_pos_sign; lra).
    destruct y as [s|s| |s m e Hb]; try discriminate Fy; simpl in S; subst s; [simpl in Hy; lra|].
    split; [reflexivity|]. change (X (fmul _ _)) with bnd. lra.
  - split; [reflexivity|]. change (X (fmul _ _)) with bnd. lra.
Qed.
(** Positive divided by finite non-negative with positive sign. *)
Lemma fdiv_pos x y : nn x -> 0 < X x -> is_finite y = true -> Bsign y = false -> fpos (fdiv x y).
Proof.
  intros Nx Hx Fy Sy. assert (Sx : Bsign x = false) by (apply X_pos_sign, Hx).
  destruct (nn_cases x Nx) as [Fx|[-> | ->]]; [| |cbn [X] in Hx; pose proof bnd_pos; lra].
  - rewrite X_finite in Hx by exact Fx.
    destruct (Req_dec (B2R y) 0) as [Z|Z].
    + destruct y as [s|s| |s m e Hb]; try discriminate Fy.
      * simpl in Sy; subst s. destruct x as [s|s| |s m e Hb]; try discriminate Fx; simpl in Sx; subst s; [simpl in Hx; lra|]. reflexivity.
      * exfalso. simpl in Sy; subst s. assert (0 < B2R (B754_finite false m e Hb : f64)) by (apply F2R_gt_0; reflexivity). lra.
    + pose proof (Bsign_pos_ge y Sy). destruct (fdiv_fin x y Fx Fy Z) as [N E].
      apply fpos_of_X; [exact N|]. rewrite E. apply sat_ge_0, rnd_ge_0.
      assert (0 < / B2R y) by (apply Rinv_0_lt_compat; lra). unfold Rdiv. nra.
  - destruct y as [s|s| |s m e Hb]; try discriminate Fy; simpl in Sy; subst s; reflexivity.
Qed.
(** A product with a zero or negative factor is not above a non-negative number. *)
Lemma prod_pos_factor d a n f : fpos d -> nn n -> 1 <= X n -> fpos f ->
  flt f (fmul (fmul d a) n) = true -> nn a /\ 0 < X a.
Proof.
  intros Hd Nn Hn Hf L. pose proof bnd_pos as PB. pose proof one_lt_bnd as OB.
  destruct (flt_nn _ _ L) as [Nf Np]. apply flt_X in L; try assumption.
  pose proof (fpos_X _ Hf) as F0.
  assert (Na : nn a).
  { unfold nn. destruct a; try reflexivity. exfalso. destruct d; discriminate Np. }
  split; [exact Na|]. destruct (Rlt_le_dec 0 (X a)) as [P|P]; [exact P|exfalso].
  assert (D : nn (fmul d a) -> X (fmul d a) <= 0).
  { intros N1. destruct (fpos_cases d Hd) as [[Fd Pd]| ->].
    - destruct (nn_cases a Na) as [Fa|[-> | ->]].
      + destruct (fmul_fin d a Fd Fa) as [_ E]. rewrite E. apply sat_le_0, rnd_le_0.
        rewrite X_finite in P by exact Fa. nra.
      + cbn [X] in P. lra.
      + destruct d as [s|s| |[|] m e Hb]; try discriminate Fd; try discriminate N1.
        * exfalso. assert (B2R (B754_finite true m e Hb : f64) < 0) by (apply F2R_lt_0; reflexivity). lra.
        * change (X (fmul _ _)) with (- bnd). lra.
    - destruct a as [s|[|]| |[|] m e Hb]; try discriminate N1; try discriminate Na.
      + change (X (fmul _ _)) with (- bnd). lra.
      + simpl in P; lra.
      + change (X (fmul _ _)) with (- bnd). lra.
      + exfalso. simpl in P. assert (0 < F2R (Float radix2 (Z.pos m) e)) by (apply F2R_gt_0; reflexivity). simpl in H. lra. }
  assert (N1 : nn (fmul d a)).
  { unfold nn. destruct (fmul d a); try reflexivity. destruct n; discriminate Np. }
  specialize (D N1). set (q := fmul d a) in *.
  destruct (nn_cases n Nn) as [Fn|[-> | ->]].
  - destruct (nn_cases q N1) as [Fq|[E | E]].
    + destruct (fmul_fin q n Fq Fn) as [_ E]. rewrite E in L.
      assert (sat (rnd (B2R q * B2R n)) <= 0); [|lra]. apply sat_le_0, rnd_le_0.
      rewrite X_finite in D, Hn by assumption. nra.
    + rewrite E in D. cbn [X] in D. lra.
    + rewrite E in L, Np. destruct n as [s|s| |[|] m e Hb]; try discriminate Fn; try discriminate Np.
      * simpl in Hn. assert (F2R (Float radix2 (Z.neg m) e) < 0) by (apply F2R_lt_0; reflexivity). simpl in H; lra.
      * change (X (fmul _ _)) with (- bnd) in L. lra.
  - destruct q as [s|[|]| |[|] m e Hb]; try discriminate Np; try discriminate N1.
    + change (X (fmul _ _)) with (- bnd) in L. lra.
    + cbn [X] in D. lra.
    + change (X (fmul _ _)) with (- bnd) in L. lra.
    + simpl in D. assert (0 < F2R (Float radix2 (Z.pos m) e)) by (apply F2R_gt_0; reflexivity). simpl in H. lra.
  - cbn [X] in Hn. lra.
Qed.

Lemma vote_pos size num fit d avg hs hf : (1 <= num)%Z -> fin_in 1 hs size -> fin_p hf fit -> fpos d ->
  fpos (if flt fit (fmul (fmul d avg) (of_Z num))
        then fdiv (fmul (fmul size (of_Z num)) avg) (fdiv fit (of_Z num))
        else fmul size (of_Z num)).
Proof.
  intros Hn [Fs Hs] Hf Hd. destruct (of_Z_ge1 num Hn) as [Nn Xn].
  assert (Ns : nn size) by (apply fin_nn, Fs).
  assert (Xs : 1 <= X size) by (rewrite X_finite by exact Fs; lra).
  destruct (fmul_ge1 size (of_Z num) Ns Xs Nn Xn) as [N1 X1].
  destruct (flt fit (fmul (fmul d avg) (of_Z num))) eqn:L.
  - destruct (prod_pos_factor d avg (of_Z num) fit Hd Nn Xn (fin_p_fpos _ _ Hf) L) as [Na Xa].
    destruct (fmul_ge1_pos _ avg N1 X1 Na Xa) as [N2 X2].
    destruct (fdiv_ge1_p hf fit (of_Z num) Hf Nn Xn) as (F & S & _).
    apply fdiv_pos; assumption.
  - apply fpos_of_X; [exact N1|lra].
Qed.

(** ** Accuracy, cl.c:161-169. *)
Lemma eps_R : B2R dbl_epsilon = bpow radix2 (-52).
Proof. unfold dbl_epsilon, B2R. simpl. unfold F2R; simpl. lra. Qed.
Lemma eps_fin : is_finite dbl_epsilon = true. Proof. reflexivity. Qed.
Lemma eps_bounds : 0 < bpow radix2 (-52) < 1.
Proof. split; [apply bpow_gt_0|]. change 1 with (bpow radix2 0). apply bpow_lt. lia. Qed.

(** What is assumed of pow(): for a base at least 1 (or the -inf obtained by dividing by
    -0.0) and a non-positive exponent the result is a number between 0 and 1
    (C11 F.10.4.4). *)
Definition pow_ok (pow : f64 -> f64 -> f64) : Prop :=
  forall x y, (fle f1 x = true \/ x = B754_infinity true) -> fle y f0 = true ->
    fle f0 (pow x y) = true /\ fle (pow x y) f1 = true.

Lemma fle_01_in x : fle f0 x = true -> fle x f1 = true -> fin_in 0 1 x.
Proof.
  intros H1 H2. destruct (fle_nn _ _ H1) as [_ N].
  apply fle_X in H1; [|reflexivity|exact N]. apply fle_X in H2; [|exact N|apply nn_f1].
  rewrite X_f0 in H1. rewrite X_f1 in H2. pose proof one_lt_bnd.
  assert (F : is_finite x = true) by (apply nn_X_finite; [exact N|lra]).
  split; [exact F|]. rewrite X_finite in H1, H2 by exact F. lra.
Qed.
Lemma fin_in_fle lo hi x : is_finite lo = true -> is_finite hi = true ->
  fin_in (B2R lo) (B2R hi) x -> fle lo x = true /\ fle x hi = true.
Proof.
  intros Fl Fh [F H]. split; apply fle_X; try (apply fin_nn; assumption); rewrite !X_finite by assumption; lra.
Qed.

Lemma ratio_ge1 err e0 : fpos e0 -> flt e0 err = true ->
  fle f1 (fdiv err e0) = true \/ fdiv err e0 = B754_infinity true.
Proof.
  intros H0 L. pose proof bnd_pos as PB. destruct (flt_nn _ _ L) as [_ Ne].
  apply flt_X in L; try assumption; [|apply fpos_nn, H0].
  pose proof (fpos_X _ H0) as P0. pose proof one_lt_bnd as OB.
  destruct (fpos_cases e0 H0) as [[F0 _]| ->]; [|change (X finf) with bnd in L; pose proof (X_bnd err); lra].
  assert (Se : Bsign err = false) by (apply X_pos_sign; lra).
  destruct (nn_cases err Ne) as [Fe|[-> | ->]]; [| |cbn [X] in L; lra].
  - rewrite !X_finite in L by assumption. rewrite X_finite in P0 by exact F0.
    destruct (Req_dec (B2R e0) 0) as [Z|Z].
    + destruct e0 as [s|s| |s m e Hb]; try discriminate F0.
      * destruct err as [s'|s'| |s' m e Hb]; try discriminate Fe; simpl in Se; subst s'; [simpl in L; lra|].
        destruct s; [right; reflexivity|left]. apply fle_X; [apply nn_f1|reflexivity|].
        rewrite X_f1. change (X (fdiv _ _)) with bnd. lra.
      * exfalso. destruct s.
        -- assert (B2R (B754_finite true m e Hb : f64) < 0) by (apply F2R_lt_0; reflexivity). lra.
        -- assert (0 < B2R (B754_finite false m e Hb : f64)) by (apply F2R_gt_0; reflexivity). lra.
    + left. destruct (fdiv_fin err e0 Fe F0 Z) as [N E]. apply fle_X; [apply nn_f1|exact N|].
      rewrite X_f1, E. rewrite <- (sat_id 1) at 1 by lra. apply sat_le, rnd_ge_fmt; [apply fmt_1|].
      apply Rmult_le_reg_r with (B2R e0); [lra|]. unfold Rdiv. rewrite Rmult_assoc, Rinv_l by exact Z. lra.
  - destruct e0 as [[|]|s| |[|] m e Hb]; try discriminate F0.
    + right; reflexivity.
    + left. apply fle_X; [apply nn_f1|reflexivity|]. rewrite X_f1. change (X (fdiv _ _)) with bnd. lra.
    + exfalso. simpl in P0. assert (F2R (Float radix2 (Z.neg m) e) < 0) by (apply F2R_lt_0; reflexivity). simpl in H; lra.
    + left. apply fle_X; [apply nn_f1|reflexivity|]. rewrite X_f1. change (X (fdiv _ _)) with bnd. lra.
Qed.

Lemma fneg_le0 x : fpos x -> fle (fneg x) f0 = true.
Proof.
  intros H. pose proof (fpos_X _ H) as P. pose proof bnd_pos.
  destruct x as [s|[|]| |[|] m e Hb]; try reflexivity; try discriminate H.
Qed.

Lemma acc_in pow alpha err e0 nu : pow_ok pow -> fin_in 0 1 alpha -> fpos e0 -> fpos nu ->
  flt e0 err = true ->
  fin_in (bpow radix2 (-52)) (Rmax (B2R alpha) (bpow radix2 (-52)))
    (fmax (fmul alpha (pow (fdiv err e0) (fneg nu))) dbl_epsilon).
Proof.
  intros HP [Fa Ha] H0 Hn L.
  destruct (HP (fdiv err e0) (fneg nu) (ratio_ge1 err e0 H0 L) (fneg_le0 nu Hn)) as [P1 P2].
  destruct (fle_01_in _ P1 P2) as [Fp Bp]. set (r := pow (fdiv err e0) (fneg nu)) in *.
  assert (M : fin_in 0 (B2R alpha) (fmul alpha r)).
  { apply fmul_in; try assumption; try apply fmt_0; try apply fmt_B2R.
    - pose proof bnd_pos; lra.
    - apply B2R_bnd.
    - nra. }
  destruct M as [FM BM]. unfold fmax.
  assert (N : is_nan (fmul alpha r) = false) by (apply fin_nn, FM). rewrite N.
  change (is_nan dbl_epsilon) with false. cbv iota. pose proof eps_bounds.
  destruct (flt (fmul alpha r) dbl_epsilon) eqn:C.
  - split; [reflexivity|]. rewrite eps_R. split; [lra|apply Rmax_r].
  - apply flt_X_false in C; [|apply fin_nn, FM|reflexivity].
    rewrite !X_finite in C by (assumption || reflexivity). rewrite eps_R in C.
    split; [exact FM|]. split; [lra|]. eapply Rle_trans; [apply BM|apply Rmax_l].
Qed.

(** ** Relative accuracy (share), cl.c:214. *)
Lemma term_in acc num : fin_in (bpow radix2 (-52)) 1 acc -> (1 <= num <= 2 ^ 53)%Z ->
  fin_in (bpow radix2 (-52)) (IZR num) (fmul acc (of_Z num)).
Proof.
  intros [Fa Ha] Hn. destruct (of_Z_fin num) as [Fn En]; [lia|].
  assert (1 <= IZR num) by (apply IZR_le; lia). pose proof eps_bounds.
  apply fmul_in; try assumption.
  - apply format_bpow; lia.
  - apply format_IZR; lia.
  - pose proof bnd_pos; lra.
  - apply Rle_lt_trans with (IZR (2 ^ 53)); [apply IZR_le; lia|]. change (IZR (2 ^ 53)) with (bpow radix2 53). apply bpow_lt; lia.
  - rewrite En. nra.
Qed.
Lemma share_in t s lo hi : 0 < lo -> fin_in lo hi t -> fpos s -> fle t s = true ->
  fin_in 0 1 (fdiv t s).
Proof.
  intros Hlo [Ft Ht] Hs L. destruct (fpos_cases s Hs) as [[Fs Ps]| ->].
  - apply fle_X in L; [|apply fin_nn, Ft|apply fin_nn, Fs]. rewrite !X_finite in L by assumption.
    apply fdiv_in; try assumption; try apply fmt_0; try apply fmt_1; try lra.
    + pose proof bnd_pos; lra.
    + apply one_lt_bnd.
    + assert (0 < / B2R s) by (apply Rinv_0_lt_compat; lra). split.
      * unfold Rdiv. nra.
      * apply Rmult_le_reg_r with (B2R s); [lra|]. unfold Rdiv. rewrite Rmult_assoc, Rinv_l by lra. lra.
  - destruct t as [s|s| |s m e Hb]; try discriminate Ft; (split; [reflexivity|]);
      change (B2R (fdiv _ _)) with 0; lra.
Qed.

(** Sums of non-negative numbers. *)
Lemma fold_fpos l a : fpos a -> Forall fpos l -> fpos (fold_left fadd l a).
Proof.
  revert a. induction l as [|x l IH]; simpl; intros a Ha H; [exact Ha|].
  inversion H; subst. apply IH; [apply fpos_add; assumption|assumption].
Qed.
Lemma fold_mono l a b : fpos a -> fpos b -> Forall fpos l -> fle a b = true ->
  fle (fold_left fadd l a) (fold_left fadd l b) = true.
Proof.
  revert a b. induction l as [|x l IH]; simpl; intros a b Ha Hb H L; [exact L|].
  inversion H; subst. apply IH; try (apply fpos_add; assumption); [assumption|].
  apply fadd_mono; try assumption; try (apply fpos_nn, fpos_add; assumption).
  apply fle_refl, fpos_nn. assumption.
Qed.
Lemma fold_ge_acc l a : fpos a -> Forall fpos l -> fle a (fold_left fadd l a) = true.
Proof.
  revert a. induction l as [|x l IH]; simpl; intros a Ha H; [apply fle_refl, fpos_nn, Ha|].
  inversion H; subst. eapply fle_trans; [apply fadd_ge_l; eassumption|].
  apply IH; [apply fpos_add; assumption|assumption].
Qed.
Lemma fadd_ge_r x y : fpos x -> fpos y -> fle y (fadd x y) = true.
Proof.
  intros Hx Hy. pose proof (fpos_add x y Hx Hy) as Hs.
  apply fle_X; [apply fpos_nn; exact Hy|apply fpos_nn; exact Hs|].
  destruct (fpos_cases x Hx) as [[Fx Px]| ->]; [|rewrite fadd_inf_l by exact Hy; apply X_bnd].
  destruct (fpos_cases y Hy) as [[Fy Py]| ->]; [|rewrite fadd_inf_r by exact Hx; simpl; lra].
  destruct (fadd_fin x y Fx Fy) as [N E]. rewrite E. rewrite X_finite by exact Fy.
  rewrite <- (sat_B2R y) at 1. apply sat_le. apply rnd_ge_B2R. lra.
Qed.
Lemma fold_ge_elem l a x : fpos a -> Forall fpos l -> In x l -> fle x (fold_left fadd l a) = true.
Proof.
  revert a. induction l as [|y l IH]; simpl; intros a Ha H I; [contradiction|].
  inversion H; subst. destruct I as [->|I].
  - eapply fle_trans; [apply (fadd_ge_r a x); assumption|]. apply fold_ge_acc; [apply fpos_add; assumption|assumption].
  - apply IH; [apply fpos_add; assumption|assumption|exact I].
Qed.
