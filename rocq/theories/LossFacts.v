(** * Facts about the loss functions (C38). *)
From Coq Require Import ZArith Bool List Reals Lia Lra Psatz.
From Flocq Require Import Core Plus_error BinarySingleNaN.
From Verif Require Import Outcome F64 F64Facts F64Bounds Rng RngFacts Arr ArrFacts Pop Loss.
Import ListNotations.
Open Scope R_scope.

(** ** Sums. *)
Lemma X_fabs x : nn x -> nn (fabs x) /\ X (fabs x) = Rabs (X x).
Proof.
  destruct x as [s|[|]| |s m e H]; intros N; try discriminate N; (split; [reflexivity|]).
  - cbn. rewrite Rabs_R0. reflexivity.
  - cbn [fabs Babs X]. rewrite Rabs_Ropp, Rabs_pos_eq; [reflexivity|left; apply bnd_pos].
  - cbn [fabs Babs X]. rewrite Rabs_pos_eq; [reflexivity|left; apply bnd_pos].
  - change (B2R (Babs (B754_finite s m e H)) = Rabs (B2R (B754_finite s m e H))). apply B2R_Babs.
Qed.
Lemma X_fneg x : nn x -> nn (fneg x) /\ X (fneg x) = - X x.
Proof.
  destruct x as [s|[|]| |s m e H]; intros N; try discriminate N; (split; [reflexivity|]).
  - change (0 = - 0). lra.
  - change (bnd = - - bnd). lra.
  - change (- bnd = - bnd). lra.
  - change (B2R (Bopp (B754_finite s m e H)) = - B2R (B754_finite s m e H)). apply B2R_Bopp.
Qed.
Lemma fabs_pos x : nn x -> fpos (fabs x).
Proof. intros N. destruct (X_fabs x N) as (M & E). apply fpos_of_X; [exact M|]. rewrite E. apply Rabs_pos. Qed.
(** Not positive: an upper bound of the logarithms of probabilities. *)
Definition npos (x : f64) : Prop := nn x /\ X x <= 0.
Lemma npos_cases x : npos x -> (is_finite x = true /\ B2R x <= 0) \/ x = B754_infinity true.
Proof.
  intros (N & L). destruct (nn_cases x N) as [F|[-> | ->]]; [|cbn [X] in L; pose proof bnd_pos; lra|auto].
  left. rewrite (X_finite _ F) in L. auto.
Qed.
Lemma npos_add x y : npos x -> npos y -> npos (fadd x y).
Proof.
  intros HX HY. pose proof bnd_pos. destruct (npos_cases x HX) as [(F & L)| ->].
  - destruct (npos_cases y HY) as [(G & M)| ->].
    + destruct (fadd_fin x y F G) as (N & E). split; [exact N|]. rewrite E. apply sat_le_0, rnd_le_0. lra.
    + destruct x as [s|s| |s m e B]; try discriminate F; (split; [reflexivity|]); change (- bnd <= 0); lra.
  - destruct (npos_cases y HY) as [(G & M)| ->].
    + destruct y as [s|s| |s m e B]; try discriminate G; (split; [reflexivity|]); change (- bnd <= 0); lra.
    + split; [reflexivity|]. change (- bnd <= 0). lra.
Qed.
Lemma fold_npos l a : npos a -> Forall npos l -> npos (fold_left fadd l a).
Proof. intros A F. revert a A. induction F; cbn; intros a A; [exact A|]. apply IHF, npos_add; assumption. Qed.
Lemma fadd_00 x y : nn x -> nn y -> X x = 0 -> X y = 0 -> nn (fadd x y) /\ X (fadd x y) = 0.
Proof.
  intros N M E1 E2. pose proof bnd_pos.
  assert (F : is_finite x = true) by (apply nn_X_finite; [exact N|lra]).
  assert (G : is_finite y = true) by (apply nn_X_finite; [exact M|lra]).
  destruct (fadd_fin x y F G) as (Q & E). split; [exact Q|]. rewrite E. rewrite X_finite in E1 by exact F. rewrite X_finite in E2 by exact G.
  rewrite E1, E2, Rplus_0_l, rnd_0. apply sat_id. lra.
Qed.
Lemma fold_00 l a : nn a -> X a = 0 -> Forall (fun x => nn x /\ X x = 0) l -> nn (fold_left fadd l a) /\ X (fold_left fadd l a) = 0.
Proof.
  intros N A F. revert a N A. induction F as [|x l (M & E) F IH]; cbn; intros a N A; [auto|].
  destruct (fadd_00 a x N M A E). apply IH; assumption.
Qed.

Section Total.
Context (lm : libm) (ydim : Z) (delta : f64) (pred y : list f64).
Hypothesis HY : (1 <= ydim <= int_max)%Z.
Hypothesis LP : (ydim <= len pred)%Z.
Hypothesis LY : (ydim <= len y)%Z.
Definition terms (term : f64 -> f64 -> f64) : list f64 := map (fun i => term (at_ f0 y i) (at_ f0 pred i)) (iota ydim).
Lemma total_eq term : total ydim term pred y = Ok (fold_left fadd (terms term) f0).
Proof.
  unfold total. rewrite (ofor_fold _ (fun i e => fadd e (term (at_ f0 y i) (at_ f0 pred i)))); [|lia|].
  - f_equal. unfold terms. clear.
    enough (H : forall l a, fold_left (fun s i => fadd s (term (at_ f0 y i) (at_ f0 pred i))) l a =
                  fold_left fadd (map (fun i => term (at_ f0 y i) (at_ f0 pred i)) l) a) by apply H.
    induction l as [|i l IH]; intros a; [reflexivity|]. cbn. apply IH.
  - intros j s Hj. rewrite (rd_ok f0), (rd_ok f0) by lia. reflexivity.
Qed.
Lemma terms_all (term : f64 -> f64 -> f64) (Q : f64 -> Prop) : (forall i, (0 <= i < ydim)%Z -> Q (term (at_ f0 y i) (at_ f0 pred i))) -> Forall Q (terms term).
Proof.
  intros H. apply Forall_forall. intros x I. apply in_map_iff in I. destruct I as (i & <- & I). apply H.
  unfold iota in I. apply in_map_iff in I. destruct I as (k & <- & I). apply in_seq in I. lia.
Qed.
Lemma terms_in (term : f64 -> f64 -> f64) i : (0 <= i < ydim)%Z -> In (term (at_ f0 y i) (at_ f0 pred i)) (terms term).
Proof.
  intros H. apply (in_map (fun i => term (at_ f0 y i) (at_ f0 pred i))). unfold iota. apply in_map_iff. exists (Z.to_nat i).
  split; [lia|]. apply in_seq. lia.
Qed.

(** Division by the number of outputs. *)
Lemma ydim_fin : is_finite (of_Z ydim) = true /\ B2R (of_Z ydim) = IZR ydim.
Proof. apply of_Z_fin. unfold int_max in HY. lia. Qed.
Lemma ydim_ge : 1 <= IZR ydim.
Proof. apply IZR_le. lia. Qed.
Lemma mean_pos e : fpos e -> fpos (fdiv e (of_Z ydim)).
Proof.
  destruct ydim_fin as (F & E). pose proof ydim_ge. intros P. destruct (fpos_cases e P) as [(G & L)| ->].
  - destruct (fdiv_fin e (of_Z ydim) G F) as (N & EX); [lra|]. apply fpos_of_X; [exact N|]. rewrite EX. apply sat_ge_0, rnd_ge_0.
    rewrite E. unfold Rdiv. apply Rmult_le_pos; [exact L|]. left. apply Rinv_0_lt_compat. lra.
  - destruct (of_Z ydim) as [s|s| |s m ex B] eqn:Q; try discriminate F.
    + exfalso. cbn in E. lra.
    + apply fpos_of_X; [reflexivity|]. assert (S : s = false).
      { destruct s; [|reflexivity]. exfalso. pose proof (Bsign_neg_le (B754_finite true m ex B) eq_refl). lra. }
      subst s. change (0 <= bnd). left. apply bnd_pos.
Qed.
Lemma mean_0 e : nn e -> X e = 0 -> nn (fdiv e (of_Z ydim)) /\ X (fdiv e (of_Z ydim)) = 0.
Proof.
  destruct ydim_fin as (F & E). pose proof ydim_ge. pose proof bnd_pos. intros P Z0.
  assert (G : is_finite e = true) by (apply nn_X_finite; [exact P|lra]).
  destruct (fdiv_fin e (of_Z ydim) G F) as (N & EX); [lra|]. split; [exact N|]. rewrite X_finite in Z0 by exact G. rewrite EX, Z0.
  unfold Rdiv. rewrite Rmult_0_l, rnd_0. apply sat_id. lra.
Qed.
(** The mean vanishes only if the sum is below the smallest positive double times the dimension. *)
Lemma mean_small e : fpos e -> X (fdiv e (of_Z ydim)) = 0 -> X e < IZR ydim * bpow radix2 (-1074).
Proof.
  destruct ydim_fin as (F & E). pose proof ydim_ge. pose proof bnd_pos. intros P Z0.
  destruct (fpos_cases e P) as [(G & L)| ->].
  - destruct (fdiv_fin e (of_Z ydim) G F) as (N & EX); [lra|]. rewrite (X_finite _ G). rewrite EX, E in Z0.
    destruct (Rlt_dec (B2R e) (IZR ydim * bpow radix2 (-1074))) as [D|D]; [exact D|exfalso].
    assert (bpow radix2 (-1074) <= B2R e / IZR ydim).
    { apply Rmult_le_reg_r with (IZR ydim); [lra|]. unfold Rdiv. rewrite Rmult_assoc, Rinv_l by lra. lra. }
    assert (bpow radix2 (-1074) <= rnd (B2R e / IZR ydim)).
    { rewrite <- (rnd_bpow (-1074)) by lia. apply rnd_le. assumption. }
    pose proof (bpow_gt_0 radix2 (-1074)). assert (bpow radix2 (-1074) < bnd) by (apply bpow_lt; lia).
    assert (bpow radix2 (-1074) <= sat (rnd (B2R e / IZR ydim))); [|lra].
    rewrite <- (sat_id (bpow radix2 (-1074))) by lra. apply sat_le. assumption.
  - exfalso. destruct (of_Z ydim) as [s|s| |s m ex B] eqn:Q; try discriminate F.
    + cbn in E. lra.
    + destruct s; [change (- bnd = 0) in Z0|change (bnd = 0) in Z0]; lra.
Qed.

Hypothesis FP : forall i, (0 <= i < ydim)%Z -> is_finite (at_ f0 pred i) = true.
Hypothesis FY : forall i, (0 <= i < ydim)%Z -> is_finite (at_ f0 y i) = true.
Notation P i := (B2R (at_ f0 pred i)).
Notation Y i := (B2R (at_ f0 y i)).

(** Any loss of the form mean of non-negative terms. *)
Lemma mean_loss term : (forall i, (0 <= i < ydim)%Z -> fpos (term (at_ f0 y i) (at_ f0 pred i))) ->
  (forall i, (0 <= i < ydim)%Z -> Y i = P i -> X (term (at_ f0 y i) (at_ f0 pred i)) = 0) ->
  exists s, total ydim term pred y = Ok s /\ fpos (fdiv s (of_Z ydim)) /\
    ((forall i, (0 <= i < ydim)%Z -> Y i = P i) -> X (fdiv s (of_Z ydim)) = 0) /\
    (X (fdiv s (of_Z ydim)) = 0 -> forall i, (0 <= i < ydim)%Z -> X (term (at_ f0 y i) (at_ f0 pred i)) < IZR ydim * bpow radix2 (-1074)).
Proof.
  intros H1 H2. exists (fold_left fadd (terms term) f0). split; [apply total_eq|].
  assert (Q : Forall fpos (terms term)) by (apply terms_all; exact H1).
  assert (S : fpos (fold_left fadd (terms term) f0)) by (apply fold_fpos; [reflexivity|exact Q]).
  split; [apply mean_pos, S|]. split.
  - intros E. apply mean_0; apply fold_00; try reflexivity; apply terms_all; intros i Hi; (split; [apply fpos_nn, H1, Hi|apply H2; auto]).
  - intros Z0 i Hi. apply Rle_lt_trans with (X (fold_left fadd (terms term) f0)); [|apply mean_small; assumption].
    apply fle_X; [apply fpos_nn, H1, Hi|apply fpos_nn, S|]. apply fold_ge_elem; [reflexivity|exact Q|apply terms_in, Hi].
Qed.
(** Differences. *)
Lemma diff_nn i : (0 <= i < ydim)%Z -> nn (fsub (at_ f0 y i) (at_ f0 pred i)) /\ X (fsub (at_ f0 y i) (at_ f0 pred i)) = sat (rnd (Y i - P i)).
Proof. intros H. apply fsub_fin; auto. Qed.
Lemma sat_0 : sat 0 = 0.
Proof. pose proof bnd_pos. apply sat_id. lra. Qed.
Lemma diff_0 i : (0 <= i < ydim)%Z -> Y i = P i -> X (fsub (at_ f0 y i) (at_ f0 pred i)) = 0.
Proof. intros H E. destruct (diff_nn i H) as (_ & ->). rewrite E, Rminus_diag_eq, rnd_0 by reflexivity. apply sat_0. Qed.
(** Rounding keeps a lower bound that is itself a double. *)
Lemma sat_rnd_ge b r : fmt64 b -> 0 <= b < bnd -> b <= Rabs r -> b <= Rabs (sat (rnd r)).
Proof.
  intros F B H. destruct (Rle_dec 0 r) as [D|D].
  - rewrite (Rabs_pos_eq r D) in H. assert (b <= rnd r) by (rewrite <- (round_generic radix2 fexp64 (round_mode mode_NE) b F); apply rnd_le; exact H).
    apply Rle_trans with (sat (rnd r)); [|apply Rle_abs]. rewrite <- (sat_id b) by lra. apply sat_le. assumption.
  - rewrite (Rabs_left r) in H by lra. assert (rnd r <= - b).
    { rewrite <- (round_generic radix2 fexp64 (round_mode mode_NE) (- b) (generic_format_opp _ _ _ F)). apply rnd_le. lra. }
    assert (sat (rnd r) <= - b) by (rewrite <- (sat_id (- b)) by lra; apply sat_le; assumption).
    rewrite Rabs_left1 by lra. lra.
Qed.
Lemma diff_small i b : (0 <= i < ydim)%Z -> fmt64 b -> 0 <= b < bnd ->
  Rabs (X (fsub (at_ f0 y i) (at_ f0 pred i))) < b -> Rabs (Y i - P i) < b.
Proof.
  intros H F B L. destruct (diff_nn i H) as (_ & E). rewrite E in L.
  destruct (Rlt_dec (Rabs (Y i - P i)) b) as [D|D]; [exact D|exfalso]. pose proof (sat_rnd_ge b (Y i - P i) F B). lra.
Qed.
Lemma dim_ulp_fmt : fmt64 (IZR ydim * bpow radix2 (-1074)).
Proof.
  apply generic_format_FLT. exists (Float radix2 ydim (-1074)); [reflexivity| |cbn; lia]. cbn [Fnum]. unfold int_max in HY. change (radix2 ^ 53)%Z with (2 ^ 53)%Z. lia.
Qed.
Lemma dim_ulp_lt : 0 <= IZR ydim * bpow radix2 (-1074) < bpow radix2 (-1043).
Proof.
  pose proof ydim_ge. pose proof (bpow_gt_0 radix2 (-1074)). split; [nra|].
  replace (bpow radix2 (-1043)) with (IZR (2 ^ 31) * bpow radix2 (-1074)).
  - apply Rmult_lt_compat_r; [assumption|]. apply IZR_lt. unfold int_max in HY. lia.
  - change (IZR (2 ^ 31)) with (bpow radix2 31). rewrite <- bpow_plus. reflexivity.
Qed.

Lemma mae_lemma : exists e, loss_mae ydim pred y = Ok e /\ fpos e /\
  ((forall i, (0 <= i < ydim)%Z -> Y i = P i) -> X e = 0) /\
  (X e = 0 -> forall i, (0 <= i < ydim)%Z -> Rabs (Y i - P i) < IZR ydim * bpow radix2 (-1074)).
Proof.
  destruct (mean_loss (fun yi pi => fabs (fsub yi pi))) as (s & E & A & C & D).
  - intros i Hi. apply fabs_pos, diff_nn, Hi.
  - intros i Hi Q. destruct (X_fabs _ (proj1 (diff_nn i Hi))) as (_ & ->). rewrite (diff_0 i Hi Q). apply Rabs_R0.
  - exists (fdiv s (of_Z ydim)). split; [unfold loss_mae; rewrite E; reflexivity|]. split; [exact A|]. split; [exact C|].
    intros Z0 i Hi. specialize (D Z0 i Hi). destruct (X_fabs _ (proj1 (diff_nn i Hi))) as (_ & EX). rewrite EX in D.
    apply diff_small; [exact Hi|apply dim_ulp_fmt| |exact D]. pose proof dim_ulp_lt. assert (bpow radix2 (-1043) < bnd) by (apply bpow_lt; lia). lra.
Qed.
(** One output: zero exactly on a perfect prediction. *)
Lemma fmt_mult (x : f64) : is_finite x = true -> exists k : Z, B2R x = IZR k * bpow radix2 (-1074).
Proof.
  intros _. pose proof (generic_format_B2R 53 1024 x) as G. apply FLT_format_generic in G; [|reflexivity].
  destruct G as [f E _ L]. exists (Fnum f * 2 ^ (Fexp f + 1074))%Z. rewrite E. unfold F2R. rewrite mult_IZR.
  rewrite Rmult_assoc. f_equal. change 2%Z with (radix_val radix2). rewrite IZR_Zpower by (cbn in L |- *; lia). rewrite <- bpow_plus. f_equal. lia.
Qed.
Lemma close_eq (a b : f64) : is_finite a = true -> is_finite b = true -> Rabs (B2R a - B2R b) < bpow radix2 (-1074) -> B2R a = B2R b.
Proof.
  intros Fa Fb H. destruct (fmt_mult a Fa) as (k & Ea). destruct (fmt_mult b Fb) as (j & Eb).
  rewrite Ea, Eb in *. rewrite <- Rmult_minus_distr_r, <- minus_IZR, Rabs_mult, (Rabs_pos_eq (bpow _ _)) in H by apply bpow_ge_0.
  pose proof (bpow_gt_0 radix2 (-1074)). assert (L : Rabs (IZR (k - j)) < 1) by (apply Rmult_lt_reg_r with (bpow radix2 (-1074)); lra).
  rewrite <- abs_IZR in L. apply lt_IZR in L. f_equal. f_equal. lia.
Qed.

Lemma sq_small r : Rabs r * Rabs r < bpow radix2 (-1043) -> Rabs r < bpow radix2 (-521).
Proof.
  intros H. pose proof (Rabs_pos r). pose proof (bpow_gt_0 radix2 (-521)).
  destruct (Rlt_dec (Rabs r) (bpow radix2 (-521))) as [D|D]; [exact D|exfalso].
  assert (bpow radix2 (-1042) <= Rabs r * Rabs r).
  { replace (bpow radix2 (-1042)) with (bpow radix2 (-521) * bpow radix2 (-521)) by (rewrite <- bpow_plus; reflexivity). nra. }
  assert (bpow radix2 (-1043) <= bpow radix2 (-1042)) by (apply bpow_le; lia). lra.
Qed.
Lemma fmul_sq d : nn d -> fpos (fmul d d) /\ (X d = 0 -> X (fmul d d) = 0) /\
  (X (fmul d d) < bpow radix2 (-1043) -> Rabs (X d) < bpow radix2 (-521)).
Proof.
  intros N. pose proof bnd_pos. destruct (nn_cases d N) as [F|[-> | ->]].
  - destruct (fmul_fin d d F F) as (M & E). rewrite E, (X_finite _ F). split; [|split].
    + apply fpos_of_X; [exact M|]. rewrite E. apply sat_ge_0, rnd_ge_0. nra.
    + intros ->. rewrite Rmult_0_l, rnd_0. apply sat_0.
    + intros L. apply sq_small. rewrite <- Rabs_mult.
      destruct (Rlt_dec (Rabs (B2R d * B2R d)) (bpow radix2 (-1043))) as [D|D]; [exact D|exfalso].
      pose proof (sat_rnd_ge (bpow radix2 (-1043)) (B2R d * B2R d)) as Q.
      assert (0 <= sat (rnd (B2R d * B2R d))) by (apply sat_ge_0, rnd_ge_0; nra).
      rewrite (Rabs_pos_eq (sat (rnd (B2R d * B2R d)))) in Q by assumption.
      assert (bpow radix2 (-1043) <= sat (rnd (B2R d * B2R d))); [|lra]. apply Q.
      * apply format_bpow. lia.
      * split; [apply bpow_ge_0|apply bpow_lt; lia].
      * lra.
  - split; [reflexivity|]. split; [cbn [X]; lra|]. intros L. change (bnd < bpow radix2 (-1043)) in L.
    assert (bpow radix2 (-1043) < bnd) by (apply bpow_lt; lia). lra.
  - split; [reflexivity|]. split; [cbn [X]; lra|]. intros L. change (bnd < bpow radix2 (-1043)) in L.
    assert (bpow radix2 (-1043) < bnd) by (apply bpow_lt; lia). lra.
Qed.
Lemma mse_lemma : exists e, loss_mse ydim pred y = Ok e /\ fpos e /\
  ((forall i, (0 <= i < ydim)%Z -> Y i = P i) -> X e = 0) /\
  (X e = 0 -> forall i, (0 <= i < ydim)%Z -> Rabs (Y i - P i) < bpow radix2 (-521)).
Proof.
  destruct (mean_loss (fun yi pi => fmul (fsub yi pi) (fsub yi pi))) as (s & E & A & C & D).
  - intros i Hi. apply fmul_sq, diff_nn, Hi.
  - intros i Hi Q. apply fmul_sq; [apply diff_nn, Hi|apply (diff_0 i Hi Q)].
  - exists (fdiv s (of_Z ydim)). split; [unfold loss_mse; rewrite E; reflexivity|]. split; [exact A|]. split; [exact C|].
    intros Z0 i Hi. specialize (D Z0 i Hi). apply diff_small; [exact Hi|apply format_bpow; lia|split; [apply bpow_ge_0|apply bpow_lt; lia]|].
    apply fmul_sq; [apply diff_nn, Hi|]. pose proof dim_ulp_lt. lra.
Qed.
Lemma fsqrt_pos e : fpos e -> fpos (fsqrt e) /\ (X (fsqrt e) = 0 <-> X e = 0).
Proof.
  intros H. pose proof bnd_pos. destruct (fpos_cases e H) as [(F & L)| ->].
  - destruct (Bsqrt_correct 53 1024 _ _ mode_NE e) as (E1 & E2 & _). change (Bsqrt mode_NE e) with (fsqrt e) in *.
    change (round radix2 (SpecFloat.fexp 53 1024) (round_mode mode_NE) (sqrt (B2R e))) with (rnd (sqrt (B2R e))) in E1.
    assert (G : is_finite (fsqrt e) = true).
    { rewrite E2. destruct e as [s|s| |s m ex Q]; try discriminate F; [reflexivity|]. destruct s; [exfalso|reflexivity].
      pose proof (F2R_lt_0 radix2 (Float radix2 (Zneg m) ex) ltac:(cbn; lia)) as V. unfold B2R in L. cbn in L, V. lra. }
    rewrite (X_finite _ G), (X_finite _ F), E1. split.
    + apply fpos_of_X; [apply fin_nn, G|]. rewrite (X_finite _ G), E1. apply rnd_ge_0, sqrt_pos.
    + split.
      * intros Z0. destruct (Req_dec (B2R e) 0) as [D|D]; [exact D|exfalso]. destruct (fmt_mult e F) as (k & Ek).
        assert (K1 : (1 <= k)%Z).
        { assert (0 < IZR k) by (apply Rmult_lt_reg_r with (bpow radix2 (-1074)); [apply bpow_gt_0|]; rewrite Rmult_0_l, <- Ek; lra).
          apply lt_IZR in H1. lia. }
        assert (bpow radix2 (-1074) <= B2R e).
        { rewrite Ek. pose proof (bpow_gt_0 radix2 (-1074)). apply IZR_le in K1. nra. }
        assert (bpow radix2 (-537) <= sqrt (B2R e)).
        { rewrite <- (sqrt_square (bpow radix2 (-537))) by apply bpow_ge_0. apply sqrt_le_1_alt. rewrite <- bpow_plus. assumption. }
        assert (bpow radix2 (-537) <= rnd (sqrt (B2R e))) by (rewrite <- (rnd_bpow (-537)) by lia; apply rnd_le; assumption).
        pose proof (bpow_gt_0 radix2 (-537)). lra.
      * intros ->. rewrite sqrt_0. apply rnd_0.
  - split; [reflexivity|]. change (fsqrt finf) with finf. tauto.
Qed.
Lemma rmse_lemma : exists e, loss_rmse ydim pred y = Ok e /\ fpos e /\
  ((forall i, (0 <= i < ydim)%Z -> Y i = P i) -> X e = 0) /\
  (X e = 0 -> forall i, (0 <= i < ydim)%Z -> Rabs (Y i - P i) < bpow radix2 (-521)).
Proof.
  destruct mse_lemma as (e & E & A & C & D). destruct (fsqrt_pos e A) as (F & G). exists (fsqrt e).
  split; [unfold loss_rmse; rewrite E; reflexivity|]. split; [exact F|]. rewrite G. split; assumption.
Qed.

(** Huber: the threshold must be positive (or the difference finite). *)
Lemma huber_lemma : is_finite delta = true -> 0 <= B2R delta ->
  (0 < B2R delta \/ forall i, (0 <= i < ydim)%Z -> is_finite (fsub (at_ f0 y i) (at_ f0 pred i)) = true) ->
  exists e, loss_huber ydim delta pred y = Ok e /\ fpos e /\ ((forall i, (0 <= i < ydim)%Z -> Y i = P i) -> X e = 0).
Proof.
  intros FD D0 DD. pose proof bnd_pos as B0.
  assert (FH : is_finite fhalf = true) by reflexivity.
  assert (HM : forall x, is_finite x = true -> is_finite (fmul fhalf x) = true /\ B2R (fmul fhalf x) = rnd (/ 2 * B2R x)).
  { intros x F. rewrite <- fhalf_R. apply fmul_R; [exact FH|exact F|]. rewrite fhalf_R. pose proof (B2R_bnd x) as BB.
    apply Rle_lt_trans with (Rabs (B2R x)); [|apply Rabs_def1; lra].
    pose proof (Rabs_pos (B2R x)). rewrite <- (round_generic radix2 fexp64 (round_mode mode_NE) (Rabs (B2R x))) by (apply generic_format_abs, generic_format_B2R).
    rewrite <- round_NE_abs by auto with typeclass_instances. apply rnd_le. rewrite Rabs_mult, (Rabs_pos_eq (/ 2)) by lra. lra. }
  assert (HALF : forall d, nn d -> fpos (fmul (fmul fhalf d) d) /\ (X d = 0 -> X (fmul (fmul fhalf d) d) = 0)).
  { intros d N. destruct (nn_cases d N) as [F|[-> | ->]].
    - destruct (HM d F) as (G & E). destruct (fmul_fin _ d G F) as (M & EX). split.
      + apply fpos_of_X; [exact M|]. rewrite EX, E. apply sat_ge_0, rnd_ge_0.
        destruct (Rle_dec 0 (B2R d)).
        * apply Rmult_le_pos; [apply rnd_ge_0; lra|assumption].
        * assert (rnd (/ 2 * B2R d) <= 0) by (apply rnd_le_0; lra). nra.
      + rewrite (X_finite _ F). intros Z0. rewrite EX, E, Z0, !Rmult_0_r, rnd_0. apply sat_0.
    - split; [reflexivity|]. cbn [X]. lra.
    - split; [reflexivity|]. cbn [X]. lra. }
  assert (T : forall i, (0 <= i < ydim)%Z -> fpos (huber_term delta (at_ f0 y i) (at_ f0 pred i)) /\
    (Y i = P i -> X (huber_term delta (at_ f0 y i) (at_ f0 pred i)) = 0)).
  { intros i Hi. destruct (diff_nn i Hi) as (N & _). pose proof (diff_0 i Hi) as DZ.
    assert (DF : 0 < B2R delta \/ is_finite (fsub (at_ f0 y i) (at_ f0 pred i)) = true) by (destruct DD as [|DD]; [auto|right; apply DD, Hi]).
    unfold huber_term. set (a := fsub _ _) in *. destruct (X_fabs a N) as (NA & EA).
    change (fgt (fabs a) delta) with (flt delta (fabs a)). destruct (flt delta (fabs a)) eqn:Q.
    - apply flt_X in Q; [|apply fin_nn, FD|exact NA]. rewrite (X_finite _ FD), EA in Q. split.
      + apply fpos_add; [apply HALF, fin_nn, FD|].
        destruct (nn_cases a N) as [F|IN].
        * assert (FA : is_finite (fabs a) = true) by (destruct a; try discriminate F; reflexivity).
          rewrite (X_finite _ F) in Q. rewrite (X_finite _ FA), (X_finite _ F) in EA.
          destruct (fsub_R (fabs a) delta FA FD) as (FS & ES).
          { pose proof (B2R_bnd (fabs a)). apply Rle_lt_trans with (B2R (fabs a)); [|lra].
            rewrite Rabs_pos_eq by (apply rnd_ge_0; lra). apply rnd_le_B2R. lra. }
          apply fpos_mul; try assumption; apply fpos_of_X; try (apply fin_nn; assumption); rewrite X_finite by assumption; [exact D0|].
          rewrite ES. apply rnd_ge_0. lra.
        * assert (IA : fabs a = finf) by (destruct IN as [-> | ->]; reflexivity).
          assert (D1 : 0 < B2R delta) by (destruct DF as [|DF]; [assumption|destruct IN as [IN|IN]; rewrite IN in DF; discriminate DF]).
          rewrite IA. destruct delta as [s|s| |s m e HB]; try discriminate FD.
          -- cbn in D1. lra.
          -- destruct s; [exfalso; pose proof (Bsign_neg_le (B754_finite true m e HB) eq_refl); lra|reflexivity].
      + intros E. exfalso. rewrite (DZ E), Rabs_R0 in Q. lra.
    - split; [apply HALF, N|]. intros E. apply HALF; [exact N|apply DZ, E]. }
  destruct (mean_loss (huber_term delta)) as (s & E & A & C & _).
  - intros i Hi. apply T, Hi.
  - intros i Hi. apply T, Hi.
  - exists (fdiv s (of_Z ydim)). split; [unfold loss_huber; rewrite E; reflexivity|]. auto.
Qed.

(** ** Logarithmic losses: what is assumed of log. *)
Definition log_ok : Prop := forall x, is_finite x = true -> B2R dbl_epsilon <= B2R x <= 1 ->
  is_finite (m_log lm x) = true /\ B2R (m_log lm x) <= 0 /\ (B2R x = 1 -> B2R (m_log lm x) = 0).
Lemma fmax_eps p : is_finite p = true -> B2R p <= 1 -> is_finite (fmax p dbl_epsilon) = true /\
  B2R dbl_epsilon <= B2R (fmax p dbl_epsilon) <= 1 /\ (B2R p = 1 -> B2R (fmax p dbl_epsilon) = 1).
Proof.
  intros F H. pose proof eps_R as ER. pose proof eps_bounds. unfold fmax. pose proof (fin_nn p F) as N. unfold nn in N. rewrite N.
  change (is_nan dbl_epsilon) with false. cbn match. destruct (flt p dbl_epsilon) eqn:Q.
  - apply flt_X in Q; [|exact N|reflexivity]. rewrite (X_finite _ F), (X_finite _ eps_fin) in Q. split; [reflexivity|]. lra.
  - apply flt_X_false in Q; [|exact N|reflexivity]. rewrite (X_finite _ F), (X_finite _ eps_fin) in Q. split; [exact F|]. lra.
Qed.
(** A non-negative weight times the logarithm of a probability. *)
Lemma weighted w p : log_ok -> is_finite w = true -> 0 <= B2R w -> is_finite p = true -> B2R p <= 1 ->
  npos (fmul w (m_log lm (fmax p dbl_epsilon))) /\
  (B2R w = 0 \/ B2R p = 1 -> X (fmul w (m_log lm (fmax p dbl_epsilon))) = 0).
Proof.
  intros LO Fw W Fp H. destruct (fmax_eps p Fp H) as (F & R & O). destruct (LO _ F R) as (G & L & Z0).
  destruct (fmul_fin w (m_log lm (fmax p dbl_epsilon)) Fw G) as (N & E). split.
  - split; [exact N|]. rewrite E. apply sat_le_0, rnd_le_0. nra.
  - intros D. rewrite E. replace (B2R w * B2R (m_log lm (fmax p dbl_epsilon))) with 0; [rewrite rnd_0; apply sat_0|].
    destruct D as [D|D]; [rewrite D; ring|rewrite (Z0 (O D)); ring].
Qed.
Lemma neg_result term : (forall i, (0 <= i < ydim)%Z -> npos (term (at_ f0 y i) (at_ f0 pred i))) ->
  exists s, total ydim term pred y = Ok s /\ fpos (fneg s) /\
   ((forall i, (0 <= i < ydim)%Z -> X (term (at_ f0 y i) (at_ f0 pred i)) = 0) -> X (fneg s) = 0).
Proof.
  intros H. exists (fold_left fadd (terms term) f0). split; [apply total_eq|].
  assert (A : npos (fold_left fadd (terms term) f0)).
  { apply fold_npos; [split; [reflexivity|rewrite X_f0; lra]|]. apply terms_all. exact H. }
  destruct A as (N & L). destruct (X_fneg _ N) as (M & E). split; [apply fpos_of_X; [exact M|lra]|].
  intros Z0. rewrite E. destruct (fold_00 (terms term) f0) as (_ & ->); [reflexivity|reflexivity| |lra].
  apply terms_all. intros i Hi. split; [apply H, Hi|apply Z0, Hi].
Qed.
Lemma log_lemma : log_ok -> (forall i, (0 <= i < ydim)%Z -> 0 <= Y i) -> (forall i, (0 <= i < ydim)%Z -> P i <= 1) ->
  exists e, loss_log lm ydim pred y = Ok e /\ fpos e /\
    ((forall i, (0 <= i < ydim)%Z -> Y i = 0 \/ P i = 1) -> X e = 0).
Proof.
  intros LO Y0 P1. destruct (neg_result (fun yi pi => fmul yi (m_log lm (fmax pi dbl_epsilon)))) as (s & E & A & C).
  - intros i Hi. apply weighted; auto.
  - exists (fneg s). split; [unfold loss_log; rewrite E; reflexivity|]. split; [exact A|]. intros H. apply C. intros i Hi. apply weighted; auto.
Qed.
Lemma comp_1 x : is_finite x = true -> 0 <= B2R x <= 1 -> is_finite (fsub f1 x) = true /\ 0 <= B2R (fsub f1 x) <= 1 /\
  (B2R x = 1 -> B2R (fsub f1 x) = 0) /\ (B2R x = 0 -> B2R (fsub f1 x) = 1).
Proof.
  intros F H. assert (R1 : rnd 1 = 1) by (apply (rnd_IZR 1); lia).
  assert (Q : 0 <= rnd (1 - B2R x) <= 1) by (split; [apply rnd_ge_0; lra|rewrite <- R1 at 2; apply rnd_le; lra]).
  destruct (fsub_R f1 x f1_fin F) as (G & E).
  - rewrite f1_R. apply Rle_lt_trans with 1; [rewrite Rabs_pos_eq; lra|apply one_lt_bnd].
  - rewrite f1_R in E. rewrite E. split; [exact G|]. split; [exact Q|]. split; intros ->; [rewrite Rminus_diag_eq by reflexivity; apply rnd_0|rewrite Rminus_0_r; exact R1].
Qed.
Lemma binary_log_lemma : log_ok -> (forall i, (0 <= i < ydim)%Z -> 0 <= Y i <= 1) -> (forall i, (0 <= i < ydim)%Z -> 0 <= P i <= 1) ->
  exists e, loss_binary_log lm ydim pred y = Ok e /\ fpos e /\
    ((forall i, (0 <= i < ydim)%Z -> Y i = P i /\ (Y i = 0 \/ Y i = 1)) -> X e = 0).
Proof.
  intros LO Y0 P1.
  assert (W1 : forall i, (0 <= i < ydim)%Z -> npos (fmul (at_ f0 y i) (m_log lm (fmax (at_ f0 pred i) dbl_epsilon))) /\
    (Y i = 0 \/ P i = 1 -> X (fmul (at_ f0 y i) (m_log lm (fmax (at_ f0 pred i) dbl_epsilon))) = 0)).
  { intros i Hi. apply weighted; auto; [apply Y0, Hi|apply P1, Hi]. }
  assert (W2 : forall i, (0 <= i < ydim)%Z -> npos (fmul (fsub f1 (at_ f0 y i)) (m_log lm (fmax (fsub f1 (at_ f0 pred i)) dbl_epsilon))) /\
    (Y i = 1 \/ P i = 0 -> X (fmul (fsub f1 (at_ f0 y i)) (m_log lm (fmax (fsub f1 (at_ f0 pred i)) dbl_epsilon))) = 0)).
  { intros i Hi. destruct (comp_1 _ (FY i Hi) (Y0 i Hi)) as (G1 & R1 & A1 & _). destruct (comp_1 _ (FP i Hi) (P1 i Hi)) as (G2 & R2 & _ & B2).
    destruct (weighted (fsub f1 (at_ f0 y i)) (fsub f1 (at_ f0 pred i)) LO G1 (proj1 R1) G2 (proj2 R2)) as (Q1 & Q2).
    split; [exact Q1|]. intros [D|D]; apply Q2; auto. }
  destruct (neg_result (fun yi pi => fadd (fmul yi (m_log lm (fmax pi dbl_epsilon))) (fmul (fsub f1 yi) (m_log lm (fmax (fsub f1 pi) dbl_epsilon))))) as (s & E & A & C).
  - intros i Hi. apply npos_add; [apply W1, Hi|apply W2, Hi].
  - exists (fneg s). split; [unfold loss_binary_log; rewrite E; reflexivity|]. split; [exact A|]. intros H. apply C. intros i Hi.
    destruct (H i Hi) as (EQ & D). apply fadd_00; try apply W1, Hi; try apply W2, Hi.
    + apply W1; [exact Hi|]. destruct D; [auto|right; congruence].
    + apply W2; [exact Hi|]. destruct D; [right; congruence|auto].
Qed.

(** ** One-hot. *)
Lemma argmax_ok (xs : list f64) n : (1 <= n <= len xs)%Z -> (forall i, (0 <= i < n)%Z -> nn (at_ f0 xs i)) ->
  exists m, argmax xs n = Ok m /\ (0 <= m < n)%Z /\
    (forall i, (0 <= i < n)%Z -> X (at_ f0 xs i) <= X (at_ f0 xs m)) /\ (forall i, (0 <= i < m)%Z -> X (at_ f0 xs i) < X (at_ f0 xs m)).
Proof.
  intros Hn N. unfold argmax. destruct (Z.ltb_spec n 1); [lia|]. rewrite (rd_ok f0) by lia. cbn [obind].
  destruct (oloop_ind (fun j (s : Z * f64) => (0 <= fst s < j)%Z /\ snd s = at_ f0 xs (fst s) /\
     (forall i, (0 <= i < j)%Z -> X (at_ f0 xs i) <= X (at_ f0 xs (fst s))) /\ (forall i, (0 <= i < fst s)%Z -> X (at_ f0 xs i) < X (at_ f0 xs (fst s))))
     (fun i (s : Z * f64) => (v <- rd xs i ;; Ok (if fgt v (snd s) then (i, v) else s))%out) (Z.to_nat (n - 1)) 1 (0%Z, at_ f0 xs 0))
    as (s & E & A & B & C & D).
  - intros j s Hj (A & B & C & D). rewrite (rd_ok f0) by lia. cbn [obind]. eexists. split; [reflexivity|].
    change (fgt (at_ f0 xs j) (snd s)) with (flt (snd s) (at_ f0 xs j)). rewrite B.
    destruct (flt (at_ f0 xs (fst s)) (at_ f0 xs j)) eqn:Q.
    + apply flt_X in Q; [|apply N; lia|apply N; lia]. cbn [fst snd]. split; [lia|]. split; [reflexivity|]. split.
      * intros i Hi. destruct (Z.eq_dec i j) as [-> |]; [lra|]. specialize (C i ltac:(lia)). lra.
      * intros i Hi. specialize (C i ltac:(lia)). lra.
    + apply flt_X_false in Q; [|apply N; lia|apply N; lia]. split; [lia|]. split; [exact B|]. split; [|exact D].
      intros i Hi. destruct (Z.eq_dec i j) as [-> |]; [lra|]. apply C. lia.
  - cbn [fst snd]. split; [lia|]. split; [reflexivity|]. split; [|intros; lia].
    intros i Hi. replace i with 0%Z by lia. lra.
  - rewrite E. cbn [obind]. exists (fst s). split; [reflexivity|]. rewrite Z2Nat.id in * by lia. replace (1 + (n - 1))%Z with n in * by lia. auto.
Qed.
Lemma onehot_lemma t : (0 <= t < ydim)%Z -> (forall i, (0 <= i < ydim)%Z -> Y i = if (i =? t)%Z then 1 else 0) ->
  exists e m, loss_onehot ydim pred y = Ok e /\ argmax pred ydim = Ok m /\ (0 <= m < ydim)%Z /\
    (forall i, (0 <= i < ydim)%Z -> P i <= P m) /\ (forall i, (0 <= i < m)%Z -> P i < P m) /\
    e = (if (m =? t)%Z then f0 else f1) /\
    ((forall i, (0 <= i < ydim)%Z -> Y i = P i) -> e = f0).
Proof.
  intros Ht OH. destruct (argmax_ok pred ydim) as (m & E & Hm & MX & FI); [lia|intros i Hi; apply fin_nn, FP, Hi|].
  assert (V : (if fne (at_ f0 y m) f1 then f1 else f0) = if (m =? t)%Z then f0 else f1).
  { specialize (OH m Hm). destruct (Z.eqb_spec m t) as [D|D].
    - assert (Q : feq (at_ f0 y m) f1 = true).
      { apply feq_X; [apply fin_nn, FY, Hm|apply nn_f1|]. rewrite (X_finite _ (FY m Hm)), X_f1. exact OH. }
      unfold fne. change (Beqb (at_ f0 y m) f1) with (feq (at_ f0 y m) f1). rewrite Q. reflexivity.
    - destruct (feq (at_ f0 y m) f1) eqn:Q.
      + apply feq_X in Q; [|apply fin_nn, FY, Hm|apply nn_f1]. rewrite (X_finite _ (FY m Hm)), X_f1 in Q. lra.
      + unfold fne. change (Beqb (at_ f0 y m) f1) with (feq (at_ f0 y m) f1). rewrite Q. reflexivity. }
  exists (if (m =? t)%Z then f0 else f1), m. split.
  { unfold loss_onehot. rewrite E. cbn [obind]. rewrite (rd_ok f0) by lia. cbn [obind]. rewrite V. reflexivity. }
  split; [exact E|]. split; [exact Hm|]. split.
  { intros i Hi. specialize (MX i Hi). rewrite !X_finite in MX by auto. exact MX. }
  split.
  { intros i Hi. specialize (FI i Hi). rewrite !X_finite in FI by (apply FP; lia). exact FI. }
  split; [reflexivity|]. intros EQ. destruct (Z.eqb_spec m t) as [D|D]; [reflexivity|exfalso].
  specialize (MX t Ht). rewrite !X_finite in MX by auto. rewrite <- (EQ t Ht), <- (EQ m Hm), (OH t Ht), (OH m Hm) in MX.
  rewrite Z.eqb_refl in MX. destruct (Z.eqb_spec m t); [contradiction|lra].
Qed.
End Total.

Lemma mae_one pred y : (1 <= len pred)%Z -> (1 <= len y)%Z -> is_finite (at_ f0 pred 0) = true -> is_finite (at_ f0 y 0) = true ->
  exists e, loss_mae 1 pred y = Ok e /\ fpos e /\ (X e = 0 <-> B2R (at_ f0 y 0) = B2R (at_ f0 pred 0)).
Proof.
  intros L1 L2 F1 F2. destruct (mae_lemma 1 pred y) as (e & E & A & C & D); try assumption.
  - unfold int_max. lia.
  - intros i Hi. replace i with 0%Z by lia. exact F1.
  - intros i Hi. replace i with 0%Z by lia. exact F2.
  - exists e. split; [exact E|]. split; [exact A|]. split.
    + intros Z0. apply close_eq; try assumption. specialize (D Z0 0%Z ltac:(lia)). rewrite Rmult_1_l in D. exact D.
    + intros Q. apply C. intros i Hi. replace i with 0%Z by lia. exact Q.
Qed.

(** ** What does not hold. *)
Definition tiny (e : Z) : f64 := binary_normalize 53 1024 _ _ mode_NE 1 e false.
Lemma C38_refuted_lemma :
  (* squared error: a wrong prediction without loss *)
  (exists y, is_finite y = true /\ flt f0 y = true /\ loss_mse 1 [f0] [y] = Ok f0 /\ loss_rmse 1 [f0] [y] = Ok f0) /\
  (* absolute error, two outputs *)
  (exists y, is_finite y = true /\ flt f0 y = true /\ loss_mae 2 [f0; f0] [y; f0] = Ok f0) /\
  (* Huber with threshold 0, which the setter accepts: not a number *)
  (exists p y, is_finite p = true /\ is_finite y = true /\ loss_huber 1 f0 [p] [y] = Ok fnan).
Proof.
  split; [|split].
  - exists (tiny (-600)). split; [reflexivity|]. split; [vm_compute; reflexivity|]. split; vm_compute; reflexivity.
  - exists (tiny (-1074)). split; [reflexivity|]. split; vm_compute; reflexivity.
  - exists (fneg dbl_max), dbl_max. split; [reflexivity|]. split; [reflexivity|]. vm_compute. reflexivity.
Qed.
(** The logarithmic loss: negative for a prediction above 1, positive for a perfect prediction of 1/2. *)
Lemma fmax_first p : is_nan p = false -> flt p dbl_epsilon = false -> fmax p dbl_epsilon = p.
Proof. intros N H. unfold fmax. rewrite N, H. reflexivity. Qed.
Lemma log_one lm p w : is_nan p = false -> flt p dbl_epsilon = false -> is_finite w = true -> 0 < B2R w <= 1 ->
  is_finite (m_log lm p) = true -> bpow radix2 (-1000) <= Rabs (B2R (m_log lm p)) -> bpow radix2 (-10) <= B2R w ->
  exists e, loss_log lm 1 [p] [w] = Ok e /\ (0 < B2R (m_log lm p) -> X e < 0) /\ (B2R (m_log lm p) < 0 -> 0 < X e).
Proof.
  intros N L F W G GE WE. set (l := m_log lm p) in *. exists (fneg (fadd f0 (fmul w l))). split.
  { unfold loss_log. rewrite total_eq by (unfold len; cbn; unfold int_max; lia). unfold terms.
    change (iota 1) with [0%Z]. cbn [map fold_left obind]. change (at_ f0 [w] 0) with w. change (at_ f0 [p] 0) with p.
    rewrite (fmax_first p N L). reflexivity. }
  pose proof (B2R_bnd l) as BL. pose proof (bpow_gt_0 radix2 (-1010)) as T0.
  assert (TB : bpow radix2 (-1010) < bnd) by (apply bpow_lt; lia).
  assert (RW : bpow radix2 (-1010) <= Rabs (B2R w * B2R l)).
  { rewrite Rabs_mult, (Rabs_pos_eq (B2R w)) by lra. change (-1010)%Z with (-10 + -1000)%Z. rewrite bpow_plus.
    pose proof (bpow_ge_0 radix2 (-10)). pose proof (bpow_ge_0 radix2 (-1000)). apply Rmult_le_compat; lra. }
  destruct (fmul_R w l F G) as (FM & EM).
  { apply Rle_lt_trans with (Rabs (B2R l)); [|apply Rabs_def1; lra].
    rewrite <- (round_generic radix2 fexp64 (round_mode mode_NE) (Rabs (B2R l))) by (apply generic_format_abs, generic_format_B2R).
    rewrite <- round_NE_abs by auto with typeclass_instances. apply rnd_le. rewrite Rabs_mult, (Rabs_pos_eq (B2R w)) by lra.
    pose proof (Rabs_pos (B2R l)). nra. }
  destruct (fadd_fin f0 (fmul w l) f0_fin FM) as (NA & EA). rewrite f0_R, Rplus_0_l, rnd_B2R, sat_B2R in EA.
  destruct (X_fneg _ NA) as (_ & EN). rewrite EN, EA, EM. split; intros S.
  - assert (bpow radix2 (-1010) <= rnd (B2R w * B2R l)); [|lra]. rewrite <- (rnd_bpow (-1010)) by lia. apply rnd_le.
    rewrite Rabs_pos_eq in RW by nra. exact RW.
  - assert (rnd (B2R w * B2R l) <= - bpow radix2 (-1010)); [|lra]. rewrite <- (rnd_bpow (-1010)), <- rnd_opp by lia. apply rnd_le.
    rewrite Rabs_left1 in RW by nra. lra.
Qed.
Lemma C38_refuted_log_lemma lm :
  (is_finite (m_log lm (of_Z 4)) = true -> 1 < B2R (m_log lm (of_Z 4)) ->
     exists e, loss_log lm 1 [of_Z 4] [f1] = Ok e /\ X e < 0) /\
  (is_finite (m_log lm fhalf) = true -> B2R (m_log lm fhalf) < - / 2 ->
     exists e, loss_log lm 1 [fhalf] [fhalf] = Ok e /\ 0 < X e).
Proof.
  assert (S : bpow radix2 (-1000) <= / 2) by (change (/ 2) with (bpow radix2 (-1)); apply bpow_le; lia).
  assert (S2 : bpow radix2 (-10) <= / 2) by (change (/ 2) with (bpow radix2 (-1)); apply bpow_le; lia).
  split; intros F L.
  - destruct (log_one lm (of_Z 4) f1) as (e & E & A & _); try reflexivity; try assumption.
    + rewrite f1_R. lra.
    + rewrite Rabs_pos_eq; lra.
    + rewrite f1_R. lra.
    + exists e. split; [exact E|apply A; lra].
  - destruct (log_one lm fhalf fhalf) as (e & E & _ & A); try reflexivity; try assumption.
    + rewrite fhalf_R. lra.
    + rewrite Rabs_left1; lra.
    + rewrite fhalf_R. exact S2.
    + exists e. split; [exact E|apply A; lra].
Qed.

(** ** Every loss of arrays of at least y_dim elements is defined, whatever the values. *)
Lemma argmax_def (xs : list f64) n : (1 <= n <= len xs)%Z -> exists m, argmax xs n = Ok m /\ (0 <= m < n)%Z.
Proof.
  intros Hn. unfold argmax. destruct (Z.ltb_spec n 1); [lia|]. rewrite (rd_ok f0) by lia. cbn [obind].
  destruct (oloop_ind (fun j (s : Z * f64) => (0 <= fst s < j)%Z)
     (fun i (s : Z * f64) => (v <- rd xs i ;; Ok (if fgt v (snd s) then (i, v) else s))%out) (Z.to_nat (n - 1)) 1 (0%Z, at_ f0 xs 0)) as (s & E & A).
  - intros j s Hj A. rewrite (rd_ok f0) by lia. cbn [obind]. eexists. split; [reflexivity|].
    destruct (fgt _ _); cbn [fst]; lia.
  - cbn [fst]. lia.
  - rewrite E. cbn [obind]. exists (fst s). split; [reflexivity|]. lia.
Qed.
Lemma loss_defined lm ydim delta type pred y : (1 <= ydim <= int_max)%Z -> (ydim <= len pred)%Z -> (ydim <= len y)%Z -> (0 <= type <= 6)%Z ->
  exists f e, loss_of lm ydim delta type = Some f /\ f pred y = Ok e /\ loss_fun lm ydim delta type pred y = e.
Proof.
  intros HY LP LY HT.
  enough (H : exists f e, loss_of lm ydim delta type = Some f /\ f pred y = Ok e).
  { destruct H as (f & e & E1 & E2). exists f, e. split; [exact E1|]. split; [exact E2|]. unfold loss_fun. rewrite E1, E2. reflexivity. }
  destruct (argmax_def pred ydim) as (m & EM & Hm); [lia|].
  assert (C : (type = 0 \/ type = 1 \/ type = 2 \/ type = 3 \/ type = 4 \/ type = 5 \/ type = 6)%Z) by lia.
  pose proof (fun t => total_eq ydim pred y HY LP LY t) as T.
  destruct C as [-> |[-> |[-> |[-> |[-> |[-> | ->]]]]]]; cbn [loss_of Z.eqb LOSS_MAE LOSS_MSE LOSS_RMSE LOSS_LOG LOSS_BINARY_LOG LOSS_ONEHOT LOSS_HUBER Pos.eqb];
    (eexists; eexists; split; [reflexivity|]).
  - unfold loss_mae. rewrite T. reflexivity.
  - unfold loss_mse. rewrite T. reflexivity.
  - unfold loss_rmse, loss_mse. rewrite T. reflexivity.
  - unfold loss_log. rewrite T. reflexivity.
  - unfold loss_binary_log. rewrite T. reflexivity.
  - unfold loss_onehot. rewrite EM. cbn [obind]. rewrite (rd_ok f0) by lia. reflexivity.
  - unfold loss_huber. rewrite T. reflexivity.
Qed.
