(** * Random terminals: when rand_uniform_int(4, 4 + n) stays below its upper bound. *)
From Coq Require Import ZArith Bool List Reals Lra Lia Psatz.
From Flocq Require Import Core BinarySingleNaN Plus_error.
From Verif Require Import Outcome F64 F64Facts Rng RngFacts RandInt.
Open Scope R_scope.

Definition top_gen : rng := mkRng (fun _ => 2 ^ 52 - 1)%Z 0 false f0.
Lemma top_draw : B2R (draw_value (2 ^ 52 - 1) : f64) = 1 - lo_u.
Proof.
  rewrite (odd_draw (2 ^ 52 - 1)) by (repeat split). rewrite minus_IZR. unfold lo_u.
  change (IZR (2 ^ 52)) with (bpow radix2 52). rewrite Rmult_minus_distr_r, <- bpow_plus. simpl (bpow radix2 (52 + -52)). lra.
Qed.
(** The largest draw gives the largest integer. *)
Lemma rand_int_top lo hi zm g : in_int lo = true -> in_int hi = true -> (lo <= hi)%Z ->
  match rand_uniform_int lo hi top_gen with Ok (z, _) => z = zm | _ => False end ->
  total (rand_uniform_int lo hi g) (fun '(z, _) => (z <= zm)%Z).
Proof.
  intros Hlo Hhi Hle HT. pose proof (rand_uniform_int_eq lo hi top_gen Hlo Hhi Hle) as H1.
  destruct (rand_uniform_int lo hi top_gen) as [[z1 g1]| | |]; try contradiction. destruct H1 as (_ & _ & v1 & E1 & F1 & Z1 & _).
  pose proof (rand_uniform_int_eq lo hi g Hlo Hhi Hle) as H2.
  destruct (rand_uniform_int lo hi g) as [[z2 g2]| | |]; try contradiction. destruct H2 as (_ & _ & v2 & E2 & F2 & Z2 & _).
  cbn. subst zm z1 z2. apply Zfloor_le.
  rewrite (uniform_int_value lo hi g v2 Hlo Hhi Hle E2 F2), (uniform_int_value lo hi top_gen v1 Hlo Hhi Hle E1 F1).
  apply rnd_le. apply Rplus_le_compat_l. apply rnd_le. change (r_tape top_gen (r_pos top_gen)) with (2 ^ 52 - 1)%Z. rewrite top_draw.
  apply Rmult_le_compat_r; [apply IZR_le; lia|]. apply draw_u.
Qed.

(** 4 + n just above a power of two. *)
Lemma rand_int_wide (k j : Z) g : (4 <= k <= 31)%Z -> (1 <= j <= 3)%Z -> in_int (2 ^ k + j) = true ->
  total (rand_uniform_int 4 (2 ^ k + j) g) (fun '(z, _) => (z < 2 ^ k + j)%Z).
Proof.
  intros Hk Hj Hhi. assert (P16 : (2 ^ 4 <= 2 ^ k)%Z) by (apply Z.pow_le_mono_r; lia). change (2 ^ 4)%Z with 16%Z in P16.
  set (hi := (2 ^ k + j)%Z) in *.
  pose proof (rand_uniform_int_eq 4 hi g eq_refl Hhi ltac:(lia)) as H.
  destruct (rand_uniform_int 4 hi g) as [[z g']| | |]; try contradiction. destruct H as (_ & _ & v & Ev & Fv & Ez & _). cbn.
  pose proof (uniform_int_value 4 hi g v eq_refl Hhi ltac:(lia) Ev Fv) as EV.
  set (u := B2R (draw_value (r_tape g (r_pos g)) : f64)) in *. assert (Hu : 0 <= u <= 1 - lo_u) by apply draw_u.
  set (d := (hi - 4)%Z) in *.
  assert (PK : IZR (2 ^ k) = bpow radix2 k) by (rewrite <- (IZR_Zpower radix2) by lia; reflexivity).
  assert (E2 : (2 ^ k = 2 * 2 ^ (k - 1))%Z) by (rewrite <- Z.pow_succ_r by lia; f_equal; lia).
  assert (B2 : bpow radix2 k = 2 * bpow radix2 (k - 1)).
  { replace k with (k - 1 + 1)%Z at 1 by lia. rewrite bpow_plus. simpl (bpow radix2 1). lra. }
  set (w := bpow radix2 (k - 1 - 52)). assert (W0 : 0 < w) by apply bpow_gt_0.
  assert (WK : bpow radix2 (k - 52) = 2 * w).
  { unfold w. replace (k - 52)%Z with (k - 1 - 52 + 1)%Z by lia. rewrite bpow_plus. simpl (bpow radix2 1). lra. }
  assert (WL : w = bpow radix2 (k - 1) * lo_u) by (unfold w, lo_u; rewrite <- bpow_plus; f_equal).
  assert (P8 : 8 <= bpow radix2 (k - 1)) by lra || (apply Rle_trans with (bpow radix2 3); [simpl; lra|apply bpow_le; lia]).
  assert (PD : IZR d = 2 * bpow radix2 (k - 1) + IZR j - 4).
  { unfold d, hi. rewrite minus_IZR, plus_IZR, PK, B2. lra. }
  assert (J13 : 1 <= IZR j <= 3) by (split; apply IZR_le; lia).
  pose proof lo_u_pos as L0.
  assert (M1 : rnd (u * IZR d) <= IZR d - 2 * w).
  { assert (FM : fmt64 (IZR d - 2 * w)).
    { rewrite <- WK. apply fmt_below; [lia|]. assert (2 ^ (k + 1) = 2 * 2 ^ k)%Z by (rewrite <- Z.pow_succ_r by lia; f_equal; lia). lia. }
    assert (FG : fmt64 (IZR d - 1 * w)).
    { rewrite Rmult_1_l. unfold w. apply fmt_below; [lia|]. replace (k - 1 + 1)%Z with k by lia. lia. }
    apply round_N_le_midp; [typeclasses eauto|exact FM|].
    assert (S1 : IZR d - 1 * w <= succ radix2 fexp64 (IZR d - 2 * w)).
    { assert (X : succ radix2 fexp64 (IZR d - 2 * w) = IZR d - 2 * w + ulp radix2 fexp64 (IZR d - 2 * w)).
      { apply succ_eq_pos. assert (w <= bpow radix2 (k - 1) * / 16); [|lra]. unfold w. rewrite (bpow_plus radix2 (k - 1) (-52) : bpow radix2 (k - 1 - 52) = _).
        apply Rmult_le_compat_l; [apply bpow_ge_0|]. simpl. lra. }
      rewrite X. assert (w <= ulp radix2 fexp64 (IZR d - 2 * w)); [|lra].
      assert (Y : bpow radix2 (k - 1) <= IZR d - 2 * w).
      { assert (w <= bpow radix2 (k - 1) * / 16); [|lra]. unfold w. rewrite (bpow_plus radix2 (k - 1) (-52) : bpow radix2 (k - 1 - 52) = _).
        apply Rmult_le_compat_l; [apply bpow_ge_0|]. simpl. lra. }
      apply Rle_trans with (ulp radix2 fexp64 (bpow radix2 (k - 1))).
      - rewrite ulp_bpow. unfold w. apply bpow_le. unfold SpecFloat.fexp. unfold SpecFloat.emin. lia.
      - apply ulp_le_pos; [typeclasses eauto|typeclasses eauto|apply bpow_ge_0|exact Y]. }
    assert (U1 : u * IZR d <= IZR d - IZR d * lo_u) by nra.
    assert (U2 : 13 / 8 * w <= IZR d * lo_u) by (rewrite WL, PD; nra).
    lra. }
  assert (M2 : B2R v <= IZR hi - 2 * w).
  { rewrite EV, <- WK. apply rnd_le_fmt.
    - apply fmt_below; [lia|]. assert (2 ^ (k + 1) = 2 * 2 ^ k)%Z by (rewrite <- Z.pow_succ_r by lia; f_equal; lia). lia.
    - rewrite WK. assert (IZR d = IZR hi - 4) by (unfold d; rewrite minus_IZR; reflexivity). lra. }
  subst z. apply lt_IZR. apply Rle_lt_trans with (B2R v); [apply Zfloor_lb|lra].
Qed.

(** The terminals of a GP tree: all sizes but 1, 2 and 5. *)
Lemma rand_term n g : (1 <= n)%Z -> (4 + n <= int_max)%Z -> (n <> 1 -> n <> 2 -> n <> 5 ->
  total (rand_uniform_int 4 (4 + n) g) (fun '(z, g') => (4 <= z < 4 + n)%Z /\ g' = advance g))%Z.
Proof.
  intros H1 HI N1 N2 N5. unfold int_max in HI.
  assert (I : in_int (4 + n) = true) by (unfold in_int, int_min, int_max; lia).
  pose proof (C20_closed_lemma 4 (4 + n) g eq_refl I ltac:(lia)) as C.
  destruct (rand_uniform_int 4 (4 + n) g) as [[z g']| | |] eqn:E; try contradiction. destruct C as (C & ->). cbn. split; [|reflexivity]. split; [lia|].
  set (k := Z.log2 (3 + n)). assert (K : (2 ^ k <= 3 + n < 2 ^ (k + 1))%Z) by (pose proof (Z.log2_spec (3 + n) ltac:(lia)); unfold k; rewrite Z.add_1_r; exact H).
  assert (K0 : (0 <= k)%Z) by apply Z.log2_nonneg.
  destruct (Z.le_gt_cases (2 ^ k) n) as [W|W].
  { pose proof (rand_uniform_int_excl 4 (4 + n) k g eq_refl I K0 ltac:(lia) ltac:(lia)) as X. rewrite E in X. cbn in X. lia. }
  assert (K31 : (k <= 31)%Z).
  { destruct (Z.le_gt_cases k 31) as [|X]; [assumption|]. assert (2 ^ 32 <= 2 ^ k)%Z by (apply Z.pow_le_mono_r; lia). lia. }
  destruct (Z.le_gt_cases 4 k) as [K4|K4].
  { assert (E4 : (4 + n = 2 ^ k + (4 + n - 2 ^ k))%Z) by lia.
    pose proof (rand_int_wide k (4 + n - 2 ^ k) g ltac:(lia) ltac:(lia)) as X. rewrite <- E4 in X. specialize (X I). rewrite E in X. exact X. }
  assert (k = 0 \/ k = 1 \/ k = 2 \/ k = 3)%Z as [->|[->|[->| ->]]] by lia; change (2 ^ (0 + 1))%Z with 2%Z in *; change (2 ^ (1 + 1))%Z with 4%Z in *; change (2 ^ (2 + 1))%Z with 8%Z in *; change (2 ^ (3 + 1))%Z with 16%Z in *; change (2 ^ 0)%Z with 1%Z in *; change (2 ^ 1)%Z with 2%Z in *; change (2 ^ 2)%Z with 4%Z in *; change (2 ^ 3)%Z with 8%Z in *; try lia.
  - assert (n = 3)%Z as -> by lia. pose proof (rand_int_top 4 7 6 g eq_refl eq_refl ltac:(lia) ltac:(vm_compute; reflexivity)) as X.
    change (4 + 3)%Z with 7%Z in *. rewrite E in X. cbn in X. lia.
  - assert (n = 6 \/ n = 7)%Z as [->| ->] by lia.
    + pose proof (rand_int_top 4 10 9 g eq_refl eq_refl ltac:(lia) ltac:(vm_compute; reflexivity)) as X. change (4 + 6)%Z with 10%Z in *. rewrite E in X. cbn in X. lia.
    + pose proof (rand_int_top 4 11 10 g eq_refl eq_refl ltac:(lia) ltac:(vm_compute; reflexivity)) as X. change (4 + 7)%Z with 11%Z in *. rewrite E in X. cbn in X. lia.
Qed.
(** The exceptions. *)
Lemma rand_term_bad n : (n = 1 \/ n = 2 \/ n = 5)%Z -> exists g g', rand_uniform_int 4 (4 + n) g = Ok (4 + n, g')%Z.
Proof. intros [->|[->| ->]]; exists top_gen; eexists; vm_compute; reflexivity. Qed.
