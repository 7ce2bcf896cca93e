(** * Random integers: when the upper bound is exclusive, and that every value occurs. *)
From Coq Require Import ZArith Bool List Reals Lra Lia Psatz.
From Flocq Require Import Core BinarySingleNaN.
From Verif Require Import Outcome F64 F64Facts F64Bounds Rng RngFacts.
Open Scope R_scope.

(** A multiple of 2^(j-52) up to 2^(j+1) is a double. *)
Lemma fmt_grid n j : (-1000 <= j <= 900)%Z -> (Z.abs n <= 2 ^ 53)%Z -> fmt64 (IZR n * bpow radix2 (j - 52)).
Proof.
  intros Hj Hn. destruct (Z.eq_dec (Z.abs n) (2 ^ 53)) as [E|E].
  - assert (Hb : fmt64 (bpow radix2 (j + 1))) by (apply format_bpow; lia).
    assert (E2 : bpow radix2 (j + 1) = IZR (2 ^ 53) * bpow radix2 (j - 52)).
    { change (IZR (2 ^ 53)) with (bpow radix2 53). rewrite <- bpow_plus. f_equal. lia. }
    destruct (Z.abs_spec n) as [[_ A]|[_ A]]; rewrite A in E.
    + rewrite E, <- E2. exact Hb.
    + replace n with (- (2 ^ 53))%Z by lia. rewrite opp_IZR, Ropp_mult_distr_l_reverse, <- E2. now apply generic_format_opp.
  - apply (generic_format_FLT radix2 (-1074) 53). exists (Float radix2 n (j - 52)); simpl.
    + reflexivity.
    + change (Z.pow_pos 2 53) with (2 ^ 53)%Z. lia.
    + lia.
Qed.

Lemma grid_int z j : (0 <= j <= 52)%Z -> IZR z = IZR (z * 2 ^ (52 - j)) * bpow radix2 (j - 52).
Proof.
  intros Hj. rewrite mult_IZR. assert (E : IZR (2 ^ (52 - j)) = bpow radix2 (52 - j)) by (rewrite <- (IZR_Zpower radix2) by lia; reflexivity).
  rewrite E, Rmult_assoc, <- bpow_plus. replace (52 - j + (j - 52))%Z with 0%Z by lia. simpl. ring.
Qed.
(** An integer less one step of the grid. *)
Lemma fmt_below z j : (0 <= j <= 52)%Z -> (- 2 ^ (j + 1) < z <= 2 ^ (j + 1))%Z -> fmt64 (IZR z - bpow radix2 (j - 52)).
Proof.
  intros Hj Hz. rewrite (grid_int z j Hj) at 1. replace (_ - bpow radix2 (j - 52)) with (IZR (z * 2 ^ (52 - j) - 1) * bpow radix2 (j - 52)) by (rewrite minus_IZR; ring).
  apply fmt_grid; [lia|]. assert (E : (2 ^ (j + 1) * 2 ^ (52 - j) = 2 ^ 53)%Z) by (rewrite <- Z.pow_add_r by lia; f_equal; lia).
  assert (0 < 2 ^ (52 - j))%Z by (apply Z.pow_pos_nonneg; lia). nia.
Qed.

(** The double whose floor is returned. *)
Lemma uniform_int_value (lo hi : Z) g v : in_int lo = true -> in_int hi = true -> (lo <= hi)%Z ->
  rand_uniform (of_Z lo) (of_Z hi) g = Ok (v, advance g) -> is_finite v = true ->
  B2R v = rnd (IZR lo + rnd (B2R (draw_value (r_tape g (r_pos g)) : f64) * IZR (hi - lo))).
Proof.
  intros Hlo Hhi Hle Ev Fv. unfold in_int, int_min, int_max in *.
  destruct (of_Z_fin lo ltac:(lia)) as [Fl El]. destruct (of_Z_fin hi ltac:(lia)) as [Fh Eh].
  rewrite rand_uniform_eq in Ev. apply (f_equal (fun o => match o with Ok (a, _) => a | _ => v end)) in Ev. cbv beta iota in Ev. subst v.
  set (u := draw_value _) in *. assert (Fu : is_finite u = true) by apply draw_fin.
  pose proof (draw_u (r_tape g (r_pos g))) as Hu. fold u in Hu. pose proof lo_u_pos as HL.
  assert (DL : 0 <= IZR (hi - lo) <= IZR (2 ^ 33)) by (split; apply IZR_le; lia).
  assert (S33 : IZR (2 ^ 33) = bpow radix2 33) by reflexivity.
  assert (BB : bpow radix2 33 < bnd) by (apply (bpow_lt radix2 33 1024); lia).
  assert (L33 : bpow radix2 33 + bpow radix2 33 < bnd).
  { change (IZR (2 ^ 33) + IZR (2 ^ 33) < IZR (2 ^ 1024)). rewrite <- plus_IZR. apply IZR_lt. reflexivity. }
  destruct (fsub_R (of_Z hi) (of_Z lo) Fh Fl) as [Fd Ed].
  { rewrite Eh, El, <- minus_IZR, rnd_IZR by lia. rewrite Rabs_pos_eq by lra. lra. }
  rewrite Eh, El, <- minus_IZR, rnd_IZR in Ed by lia.
  set (dd := fsub (of_Z hi) (of_Z lo)) in *.
  assert (HM : 0 <= rnd (B2R u * IZR (hi - lo)) <= IZR (hi - lo)).
  { split; [apply rnd_ge_0; nra|]. apply rnd_le_fmt; [apply format_IZR; lia|nra]. }
  destruct (fmul_R u dd Fu Fd) as [Fm Em].
  { rewrite Ed. rewrite Rabs_pos_eq by lra. lra. }
  rewrite Ed in Em.
  destruct (fadd_R (of_Z lo) (fmul u dd) Fl Fm) as [_ E].
  { rewrite El, Em. assert (LO : - IZR (2 ^ 33) <= IZR lo <= IZR (2 ^ 33)) by (rewrite <- opp_IZR; split; apply IZR_le; lia).
    assert (SUM : - IZR (2 ^ 33) <= IZR lo + rnd (B2R u * IZR (hi - lo)) <= IZR (2 ^ 33)).
    { assert (IZR lo + IZR (hi - lo) <= IZR (2 ^ 33)) by (rewrite <- plus_IZR; apply IZR_le; lia). lra. }
    apply Rle_lt_trans with (IZR (2 ^ 33)); [|lra]. apply Rabs_le. split.
    - apply rnd_ge_fmt; [rewrite <- opp_IZR; apply format_IZR; lia|lra].
    - apply rnd_le_fmt; [apply format_IZR; lia|lra]. }
  rewrite E, El, Em. reflexivity.
Qed.

(** The upper bound is never returned if the interval is wide enough for its position. *)
Lemma rand_uniform_int_excl (lo hi k : Z) g : in_int lo = true -> in_int hi = true -> (0 <= k)%Z ->
  (2 ^ k <= hi - lo)%Z -> (- 2 ^ (k + 1) < hi <= 2 ^ (k + 1))%Z ->
  total (rand_uniform_int lo hi g) (fun '(z, g') => (lo <= z < hi)%Z /\ g' = advance g).
Proof.
  intros Hlo Hhi Hk Hd Hb. assert (P2 : (0 < 2 ^ k)%Z) by (apply Z.pow_pos_nonneg; lia).
  pose proof (rand_uniform_int_eq lo hi g Hlo Hhi ltac:(lia)) as H.
  eapply total_mono; [|exact H]. intros [z g'] (B & -> & v & Ev & Fv & Ez & _).
  split; [|reflexivity]. split; [lia|].
  pose proof (uniform_int_value lo hi g v Hlo Hhi ltac:(lia) Ev Fv) as EV.
  set (u := draw_value _) in *. pose proof (draw_u (r_tape g (r_pos g))) as Hu. fold u in Hu.
  unfold in_int, int_min, int_max in *.
  set (d := (hi - lo)%Z) in *. set (e := Z.log2 d).
  assert (Hd0 : (0 < d)%Z) by lia. pose proof (Z.log2_spec d Hd0) as HE. fold e in HE. replace (Z.succ e) with (e + 1)%Z in HE by lia.
  assert (KE : (k <= e)%Z) by (apply Z.log2_le_pow2; lia).
  assert (E33 : (e <= 33)%Z).
  { destruct (Z.le_gt_cases e 33) as [|C]; [assumption|]. assert (2 ^ 34 <= 2 ^ e)%Z by (apply Z.pow_le_mono_r; lia). lia. }
  assert (PE : IZR (2 ^ e) = bpow radix2 e) by (rewrite <- (IZR_Zpower radix2) by lia; reflexivity).
  assert (M1 : rnd (B2R u * IZR d) <= IZR d - bpow radix2 (e - 52)).
  { apply rnd_le_fmt; [apply fmt_below; lia|].
    assert (bpow radix2 (e - 52) <= IZR d * lo_u).
    { unfold lo_u. rewrite (bpow_plus radix2 e (-52) : bpow radix2 (e - 52) = _). apply Rmult_le_compat_r; [apply bpow_ge_0|].
      rewrite <- PE. apply IZR_le. lia. }
    assert (0 <= IZR d) by (apply IZR_le; lia). nra. }
  assert (M2 : bpow radix2 (k - 52) <= bpow radix2 (e - 52)) by (apply bpow_le; lia).
  assert (M3 : B2R v <= IZR hi - bpow radix2 (k - 52)).
  { rewrite EV. apply rnd_le_fmt; [apply fmt_below; lia|]. unfold d in M1. rewrite minus_IZR in M1. fold d in M1. unfold d. rewrite minus_IZR. lra. }
  pose proof (bpow_gt_0 radix2 (k - 52)).
  subst z. apply lt_IZR. apply Rle_lt_trans with (B2R v); [apply Zfloor_lb|lra].
Qed.

(** Every value in range is returned for some draw. *)
Lemma odd_draw k : (0 < k < 2 ^ 52)%Z -> Z.odd k = true -> B2R (draw_value k : f64) = IZR k * lo_u.
Proof.
  intros Hk Ho. destruct (draw_value_R k) as [_ ->]. rewrite Z.mod_small by lia. f_equal. f_equal.
  apply Z.bits_inj'. intros i Hi. rewrite Z.lor_spec. destruct (Z.eq_dec i 0) as [->|N].
  - rewrite !Z.bit0_odd, Ho. reflexivity.
  - replace (Z.testbit 1 i) with false; [apply orb_false_r|]. symmetry. apply (Z.bits_above_log2 1 i); [lia|simpl; lia].
Qed.

Lemma rand_uniform_int_all (n z : Z) : (0 < n <= int_max)%Z -> (0 <= z < n)%Z ->
  exists m, forall g, r_tape g (r_pos g) = m -> rand_uniform_int 0 n g = Ok (z, advance g).
Proof.
  intros Hn Hz. unfold int_max in Hn.
  set (q := ((2 * z + 1) * 2 ^ 51 / n)%Z). set (k := if Z.odd q then q else (q - 1)%Z).
  assert (HQ : (q * n <= (2 * z + 1) * 2 ^ 51 < (q + 1) * n)%Z).
  { unfold q. pose proof (Z.div_mod ((2 * z + 1) * 2 ^ 51) n ltac:(lia)). pose proof (Z.mod_pos_bound ((2 * z + 1) * 2 ^ 51) n ltac:(lia)). nia. }
  assert (HO : Z.odd k = true).
  { unfold k. destruct (Z.odd q) eqn:O; [exact O|]. rewrite Z.odd_sub, O. reflexivity. }
  assert (HK : (k <= q < k + 2)%Z) by (unfold k; destruct (Z.odd q); lia).
  assert (K1 : (z * 2 ^ 52 < k * n)%Z) by nia.
  assert (K2 : (k * n <= (2 * z + 1) * 2 ^ 51)%Z) by nia.
  assert (K3 : (0 < k < 2 ^ 52)%Z) by nia.
  exists k. intros g0 Hg.
  pose proof (rand_uniform_int_eq 0 n g0 eq_refl) as H.
  assert (I : in_int n = true) by (unfold in_int, int_min, int_max; lia). specialize (H I ltac:(lia)).
  destruct (rand_uniform_int 0 n g0) as [[r g']| | |]; try contradiction. simpl in H. destruct H as (B & -> & v & Ev & Fv & Ez & _).
  pose proof (uniform_int_value 0 n g0 v eq_refl I ltac:(lia) Ev Fv) as EV. rewrite Hg, (odd_draw k K3 HO), Z.sub_0_r, Rplus_0_l in EV.
  rewrite (round_generic radix2 fexp64 ZnearestE (rnd _)) in EV by apply fmt_rnd.
  assert (LU : IZR (2 ^ 52) * lo_u = 1) by (unfold lo_u; change (IZR (2 ^ 52)) with (bpow radix2 52); rewrite <- bpow_plus; reflexivity).
  pose proof lo_u_pos as LP.
  assert (V1 : IZR z <= B2R v).
  { rewrite EV. apply rnd_ge_fmt; [apply format_IZR; lia|]. apply IZR_lt in K1. rewrite !mult_IZR in K1. nra. }
  assert (V2 : B2R v <= (2 * IZR z + 1) / 2).
  { rewrite EV. apply rnd_le_fmt.
    - replace ((2 * IZR z + 1) / 2) with (IZR ((2 * z + 1)) * bpow radix2 (51 - 52)) by (rewrite plus_IZR, mult_IZR; simpl (bpow _ _); lra).
      apply fmt_grid; lia.
    - apply IZR_le in K2. rewrite !mult_IZR, plus_IZR, mult_IZR in K2.
      assert (L51 : IZR (2 ^ 51) = IZR (2 ^ 52) / 2) by (replace (2 ^ 52)%Z with (2 * 2 ^ 51)%Z by reflexivity; rewrite mult_IZR; field).
      rewrite L51 in K2. nra. }
  f_equal. f_equal. subst r. apply Zfloor_imp. rewrite plus_IZR. lra.
Qed.

Lemma refuted_witness : exists lo hi g g', in_int lo = true /\ in_int hi = true /\ (lo < hi)%Z /\ rand_uniform_int lo hi g = Ok (hi, g').
Proof. exists 2%Z, 3%Z, (mkRng (fun _ => 2 ^ 52 - 1)%Z 0 false f0). eexists. repeat split. Qed.

Lemma C20_closed_lemma lo hi g : in_int lo = true -> in_int hi = true -> (lo < hi)%Z ->
  total (rand_uniform_int lo hi g) (fun '(z, g') => (lo <= z <= hi)%Z /\ g' = advance g).
Proof.
  intros A B C. pose proof (rand_uniform_int_eq lo hi g A B ltac:(lia)) as H.
  destruct (rand_uniform_int lo hi g) as [[z g']| | |]; simpl in *; try contradiction. tauto.
Qed.
Lemma C20_zero_lemma n g : (1 <= n <= int_max)%Z ->
  total (rand_uniform_int 0 n g) (fun '(z, g') => (0 <= z < n)%Z /\ g' = advance g).
Proof.
  intros H. apply (rand_uniform_int_excl 0 n (Z.log2 n) g).
  - reflexivity.
  - unfold in_int, int_min, int_max in *. lia.
  - apply Z.log2_nonneg.
  - rewrite Z.sub_0_r. apply Z.log2_spec. lia.
  - pose proof (Z.log2_spec n ltac:(lia)) as L. rewrite <- Z.add_1_r in L. pose proof (Z.pow_pos_nonneg 2 (Z.log2 n + 1) ltac:(lia) ltac:(pose proof (Z.log2_nonneg n); lia)). lia.
Qed.
