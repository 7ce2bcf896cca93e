(** * Facts about random draws. *)
From Coq Require Import ZArith Bool List Reals Lra Lia Psatz SpecFloat.
From Flocq Require Import Core BinarySingleNaN Plus_error.
From Verif Require Import Outcome F64 F64Facts Rng.
Open Scope R_scope.

(** ** Monad rules. *)
Lemma post_ret {A} (a : A) g (P : A * rng -> Prop) : P (a, g) -> post (ret a g) P.
Proof. intros H; exact H. Qed.
Lemma post_bind {A B} (m : RM A) (k : A -> RM B) g (P : A * rng -> Prop) (Q : B * rng -> Prop) :
  post (m g) P -> (forall a g', P (a, g') -> post (k a g') Q) -> post (bind m k g) Q.
Proof.
  unfold bind, post. destruct (m g) as [[a g']| | |]; intros H K; try exact H; try exact I.
  apply K; exact H.
Qed.
Lemma total_bind {A B} (m : RM A) (k : A -> RM B) g (P : A * rng -> Prop) (Q : B * rng -> Prop) :
  total (m g) P -> (forall a g', P (a, g') -> total (k a g') Q) -> total (bind m k g) Q.
Proof.
  unfold bind, total. destruct (m g) as [[a g']| | |]; intros H K; try contradiction.
  apply K; exact H.
Qed.
Lemma post_mono {A} (m : outcome A) (P Q : A -> Prop) :
  (forall a, P a -> Q a) -> post m P -> post m Q.
Proof. destruct m; simpl; auto. Qed.
Lemma total_mono {A} (m : outcome A) (P Q : A -> Prop) :
  (forall a, P a -> Q a) -> total m P -> total m Q.
Proof. destruct m; simpl; auto. Qed.
Lemma total_post {A} (m : outcome A) (P : A -> Prop) : total m P -> post m P.
Proof. destruct m; simpl; tauto. Qed.
Lemma bind_assoc {A B C} (m : RM A) (f : A -> RM B) (h : B -> RM C) g :
  bind (bind m f) h g = bind m (fun x => bind (f x) h) g.
Proof. unfold bind. destruct (m g) as [[a g']| | |]; reflexivity. Qed.

(** ** A draw is an odd multiple of 2^-52 strictly between 0 and 1. *)
Lemma lor1_bounds m : (1 <= Z.lor (m mod 2 ^ 52) 1 <= 2 ^ 52 - 1)%Z.
Proof.
  assert (Hm : (0 <= m mod 2 ^ 52 < 2 ^ 52)%Z) by (apply Z.mod_pos_bound; lia).
  set (a := (m mod 2 ^ 52)%Z) in *.
  assert (P : (0 <= Z.lor a 1)%Z) by (apply Z.lor_nonneg; lia).
  assert (O : Z.odd (Z.lor a 1) = true).
  { rewrite <- Z.bit0_odd, Z.lor_spec. apply orb_true_r. }
  assert (U : (Z.lor a 1 < 2 ^ 52)%Z).
  { destruct (Z.eq_dec (Z.lor a 1) 0) as [E|E]; [lia|].
    apply Z.log2_lt_pow2; [lia|].
    rewrite Z.log2_lor by lia. change (Z.log2 1) with 0%Z.
    apply Z.max_lub_lt; [|lia].
    destruct (Z.eq_dec a 0) as [E0|E0]; [rewrite E0; simpl; lia|].
    apply Z.log2_lt_pow2; lia. }
  assert (NE : Z.lor a 1 <> 0%Z).
  { intros E. rewrite E in O. discriminate. }
  lia.
Qed.

Definition lo_u : R := bpow radix2 (-52).
Lemma lo_u_pos : 0 < lo_u. Proof. apply bpow_gt_0. Qed.

Lemma draw_value_R m :
  is_finite (draw_value m) = true /\
  B2R (draw_value m : f64) = IZR (Z.lor (m mod 2 ^ 52) 1) * lo_u.
Proof.
  pose proof (lor1_bounds m) as Hb. unfold draw_value.
  set (k := Z.lor (m mod 2 ^ 52) 1) in *.
  pose proof (binary_normalize_correct 53 1024 _ _ mode_NE k (-52) false) as H. cbv zeta in H.
  change (round_mode mode_NE) with ZnearestE in H.
  assert (E : F2R (Float radix2 k (-52)) = IZR k * lo_u) by reflexivity.
  rewrite E in H.
  assert (F : generic_format radix2 fexp64 (IZR k * lo_u)).
  { apply (generic_format_FLT radix2 (-1074) 53). exists (Float radix2 k (-52)).
    - symmetry; exact E.
    - simpl. change (Z.pow_pos 2 53) with (2 ^ 53)%Z. lia.
    - simpl. lia. }
  rewrite round_generic in H; [|typeclasses eauto|exact F].
  assert (HK : 1 <= IZR k <= IZR (2 ^ 52)) by (split; apply IZR_le; lia).
  assert (HL : 0 < lo_u) by apply bpow_gt_0.
  assert (H1 : IZR (2 ^ 52) * lo_u = 1).
  { unfold lo_u. change (IZR (2 ^ 52)) with (bpow radix2 52). rewrite <- bpow_plus. reflexivity. }
  rewrite Rlt_bool_true in H.
  - destruct H as (H2 & H3 & _). split; assumption.
  - assert (HB : 1 < bnd) by (apply (bpow_lt radix2 0 1024); lia).
    rewrite Rabs_pos_eq; nra.
Qed.

Lemma draw_value_range m : lo_u <= B2R (draw_value m : f64) <= 1 - lo_u.
Proof.
  destruct (draw_value_R m) as [_ ->]. pose proof (lor1_bounds m) as Hb.
  set (k := Z.lor (m mod 2 ^ 52) 1) in *.
  assert (HK : 1 <= IZR k <= IZR (2 ^ 52) - 1).
  { split; [apply IZR_le; lia|]. rewrite <- minus_IZR. apply IZR_le; lia. }
  assert (HL : 0 < lo_u) by apply bpow_gt_0.
  assert (H1 : IZR (2 ^ 52) * lo_u = 1).
  { unfold lo_u. change (IZR (2 ^ 52)) with (bpow radix2 52). rewrite <- bpow_plus. reflexivity. }
  nra.
Qed.

Lemma draw_value_01 m : 0 < B2R (draw_value m : f64) < 1.
Proof. pose proof (draw_value_range m). pose proof lo_u_pos. lra. Qed.

Definition advance (g : rng) : rng := mkRng (r_tape g) (S (r_pos g)) (r_generate g) (r_z1 g).

Lemma rand_uniform_eq lo hi g :
  rand_uniform lo hi g =
  Ok (fadd lo (fmul (draw_value (r_tape g (r_pos g))) (fsub hi lo)), advance g).
Proof. reflexivity. Qed.


Notation pred64 := (Ulp.pred radix2 fexp64).
Notation fmt64 := (generic_format radix2 fexp64).

Lemma fmt_B2R (x : f64) : fmt64 (B2R x). Proof. apply generic_format_B2R. Qed.
Lemma fmt_rnd x : fmt64 (rnd x).
Proof. apply generic_format_round; typeclasses eauto. Qed.

Lemma rnd_le_fmt x y : fmt64 y -> x <= y -> rnd x <= y.
Proof. intros F H. rewrite <- (round_generic radix2 fexp64 ZnearestE y F). apply rnd_le; exact H. Qed.
Lemma rnd_ge_fmt x y : fmt64 y -> y <= x -> y <= rnd x.
Proof. intros F H. rewrite <- (round_generic radix2 fexp64 ZnearestE y F). apply rnd_le; exact H. Qed.

(** Scaling a normal number by 1 - 2^-52 brings it at least to its predecessor. *)
Lemma scaled_le_pred d : fmt64 d -> bpow radix2 (-1022) <= d -> d * (1 - lo_u) <= pred64 d.
Proof.
  intros Fd Hd. assert (P : 0 < d) by (pose proof (bpow_gt_0 radix2 (-1022)); lra).
  pose proof (pred_plus_ulp radix2 fexp64 d P Fd) as E.
  assert (U1 : ulp radix2 fexp64 (pred64 d) <= ulp radix2 fexp64 d).
  { apply ulp_le_pos; [typeclasses eauto|typeclasses eauto|apply pred_ge_0; [typeclasses eauto|exact P|exact Fd]|apply pred_le_id]. }
  assert (U2 : ulp radix2 fexp64 d <= Rabs d * bpow radix2 (1 - 53)).
  { apply (ulp_FLT_le radix2 (-1074) 53). rewrite Rabs_pos_eq by lra. exact Hd. }
  rewrite Rabs_pos_eq in U2 by lra. change (bpow radix2 (1 - 53)) with lo_u in U2. lra.
Qed.

Lemma pred_fmt d : fmt64 d -> fmt64 (pred64 d).
Proof. intros F; apply generic_format_pred; [typeclasses eauto|exact F]. Qed.

(** u * d rounds at most to the predecessor of d (normal d). *)
Lemma rnd_scaled_le_pred u d : fmt64 d -> bpow radix2 (-1022) <= d -> 0 <= u <= 1 - lo_u ->
  rnd (u * d) <= pred64 d.
Proof.
  intros Fd Hd Hu. apply rnd_le_fmt; [apply pred_fmt; exact Fd|].
  pose proof (scaled_le_pred d Fd Hd) as H. pose proof (bpow_gt_0 radix2 (-1022)). nra.
Qed.

(** ** rand_uniform on finite bounds whose difference does not overflow stays within the
    closed interval [lo,hi]. *)
Lemma uniform_between (u lo hi : f64) :
  is_finite u = true -> 0 <= B2R u <= 1 - lo_u ->
  is_finite lo = true -> is_finite hi = true -> B2R lo <= B2R hi ->
  is_finite (fsub hi lo) = true ->
  let v := fadd lo (fmul u (fsub hi lo)) in
  is_finite v = true /\ B2R lo <= B2R v <= B2R hi.
Proof.
  intros Fu Hu Fl Fh Hle Fd v.
  pose proof bnd_pos as H0. pose proof lo_u_pos as HL.
  destruct (fsub_fin hi lo Fh Fl) as [_ Ed]. rewrite X_finite in Ed by exact Fd.
  set (d := fsub hi lo) in *.
  assert (Ed' : B2R d = rnd (B2R hi - B2R lo)).
  { rewrite Ed. unfold sat. destruct (Rlt_bool_spec (Rabs (rnd (B2R hi - B2R lo))) bnd) as [H|H]; [reflexivity|].
    exfalso. pose proof (B2R_bnd d) as B. rewrite Ed in B. unfold sat in B.
    rewrite Rlt_bool_false in B by exact H. destruct (Rlt_bool _ 0); lra. }
  assert (Hd : 0 <= B2R d). { rewrite Ed'. apply rnd_ge_0. lra. }
  destruct (fmul_fin u d Fu Fd) as [Nm Em].
  assert (Hr : 0 <= rnd (B2R u * B2R d) <= B2R d).
  { split; [apply rnd_ge_0; nra|apply rnd_le_B2R; nra]. }
  assert (Em' : X (fmul u d) = rnd (B2R u * B2R d)).
  { rewrite Em. apply sat_id. pose proof (B2R_bnd d). lra. }
  assert (Fm : is_finite (fmul u d) = true).
  { apply nn_X_finite; [exact Nm|]. rewrite Em'. pose proof (B2R_bnd d). lra. }
  rewrite X_finite in Em' by exact Fm.
  assert (Hm : B2R (fmul u d) <= B2R hi - B2R lo).
  { rewrite Em'. destruct (Rle_or_lt (B2R d) (B2R hi - B2R lo)) as [C|C]; [lra|].
    (* d was rounded up, hence d is normal and pred d < hi - lo *)
    assert (NF : ~ fmt64 (B2R hi - B2R lo)).
    { intros F. rewrite Ed', round_generic in C; [lra|typeclasses eauto|exact F]. }
    assert (Nd : bpow radix2 (-1022) <= B2R d).
    { destruct (Rle_or_lt (bpow radix2 (-1021)) (B2R hi - B2R lo)) as [G|G].
      - apply Rle_trans with (bpow radix2 (-1021)); [apply bpow_le; lia|lra].
      - exfalso. apply NF. unfold Rminus.
        apply (Plus_error.FLT_format_plus_small radix2 (-1074) 53); [apply fmt_B2R|apply generic_format_opp, fmt_B2R|].
        change (- B2R lo) with (- B2R lo). fold (B2R hi - B2R lo).
        rewrite Rabs_pos_eq by lra. apply Rlt_le. apply Rlt_le_trans with (1 := G). apply bpow_le. lia. }
    apply Rle_trans with (pred64 (B2R d)).
    - apply rnd_scaled_le_pred; [apply fmt_B2R|exact Nd|exact Hu].
    - destruct (Rle_or_lt (pred64 (B2R d)) (B2R hi - B2R lo)) as [G|G]; [exact G|exfalso].
      assert (B2R d <= pred64 (B2R d)).
      { rewrite Ed' at 1. apply rnd_le_fmt; [apply pred_fmt, fmt_B2R|lra]. }
      assert (pred64 (B2R d) < B2R d) by (apply pred_lt_id; pose proof (bpow_gt_0 radix2 (-1022)); lra).
      lra. }
  destruct (fadd_fin lo (fmul u d) Fl Fm) as [Nv Ev]. fold v in Nv, Ev.
  assert (Hv : B2R lo <= X v <= B2R hi).
  { rewrite Ev. split.
    - rewrite <- (sat_B2R lo) at 1. apply sat_le, rnd_ge_B2R. lra.
    - rewrite <- (sat_B2R hi). apply sat_le, rnd_le_B2R. lra. }
  assert (Fv : is_finite v = true).
  { apply nn_X_finite; [exact Nv|]. pose proof (B2R_bnd lo). pose proof (B2R_bnd hi). lra. }
  split; [exact Fv|]. rewrite X_finite in Hv by exact Fv. exact Hv.
Qed.

Lemma draw_fin m : is_finite (draw_value m) = true.
Proof. apply draw_value_R. Qed.
Lemma draw_u m : 0 <= B2R (draw_value m : f64) <= 1 - lo_u.
Proof. pose proof (draw_value_range m). pose proof lo_u_pos. lra. Qed.

Lemma rand_uniform_between lo hi g :
  is_finite lo = true -> is_finite hi = true -> B2R lo <= B2R hi ->
  is_finite (fsub hi lo) = true ->
  total (rand_uniform lo hi g) (fun '(v, g') =>
    is_finite v = true /\ B2R lo <= B2R v <= B2R hi /\ g' = advance g).
Proof.
  intros Fl Fh Hle Fd. rewrite rand_uniform_eq. simpl.
  destruct (uniform_between (draw_value (r_tape g (r_pos g))) lo hi (draw_fin _) (draw_u _) Fl Fh Hle Fd) as [F B].
  split; [exact F|]. split; [exact B|reflexivity].
Qed.

(** rand_uniform(0,1) is the draw itself: strictly between 0 and 1. *)
Lemma B2R_fsub_fin_le (x y : f64) : is_finite x = true -> is_finite y = true ->
  is_finite (fsub x y) = true -> B2R (fsub x y) = rnd (B2R x - B2R y).
Proof.
  intros Fx Fy F. destruct (fsub_fin x y Fx Fy) as [_ E]. rewrite X_finite in E by exact F.
  rewrite E. unfold sat. destruct (Rlt_bool_spec (Rabs (rnd (B2R x - B2R y))) bnd) as [H|H]; [reflexivity|].
  exfalso. pose proof (B2R_bnd (fsub x y)) as B. rewrite E in B. unfold sat in B.
  rewrite Rlt_bool_false in B by exact H. destruct (Rlt_bool _ 0); lra.
Qed.

Lemma rand_01_eq g : 
  total (rand_uniform f0 f1 g) (fun '(v, g') =>
    is_finite v = true /\ B2R v = B2R (draw_value (r_tape g (r_pos g)) : f64) /\ g' = advance g).
Proof.
  rewrite rand_uniform_eq. simpl. set (u := draw_value _).
  assert (Fu : is_finite u = true) by apply draw_fin.
  pose proof (draw_value_range (r_tape g (r_pos g))) as Hu. fold u in Hu. pose proof lo_u_pos as HL.
  pose proof (B2R_bnd u) as Bu.
  assert (L1 : (Z.abs 1 <= 2 ^ 53)%Z) by lia.
  assert (Fd : is_finite (fsub f1 f0) = true) by reflexivity.
  assert (Ed : B2R (fsub f1 f0) = 1).
  { rewrite B2R_fsub_fin_le; [|apply f1_fin|apply f0_fin|exact Fd].
    rewrite f1_R, f0_R, Rminus_0_r. apply (rnd_IZR 1 L1). }
  destruct (fmul_fin u _ Fu Fd) as [Nm Em]. rewrite Ed, Rmult_1_r, rnd_B2R, sat_B2R in Em.
  assert (Fm : is_finite (fmul u (fsub f1 f0)) = true).
  { apply nn_X_finite; [exact Nm|]. rewrite Em. exact Bu. }
  rewrite X_finite in Em by exact Fm.
  destruct (fadd_fin f0 _ f0_fin Fm) as [Nv Ev]. rewrite f0_R, Rplus_0_l, Em, rnd_B2R, sat_B2R in Ev.
  assert (Fv : is_finite (fadd f0 (fmul u (fsub f1 f0))) = true).
  { apply nn_X_finite; [exact Nv|]. rewrite Ev. exact Bu. }
  rewrite X_finite in Ev by exact Fv. split; [exact Fv|]. split; [exact Ev|reflexivity].
Qed.

Lemma rand_01 g :
  total (rand_uniform f0 f1 g) (fun '(v, g') => is_finite v = true /\ 0 < B2R v < 1 /\ g' = advance g).
Proof.
  eapply total_mono; [|apply rand_01_eq]. intros [v g'] (F & E & G). simpl in *.
  split; [exact F|]. split; [|exact G]. rewrite E. apply draw_value_01.
Qed.

(** ** floor and the conversion to int. *)
Lemma ffloor_R (x : f64) : is_finite x = true ->
  is_finite (ffloor x) = true /\ B2R (ffloor x) = IZR (Zfloor (B2R x)).
Proof.
  intros Fx. destruct (Bnearbyint_correct 53 1024 _ mode_DN x) as (H1 & H2 & _).
  split; [unfold ffloor; rewrite H2; exact Fx|]. unfold ffloor. rewrite H1.
  change (round_mode mode_DN) with Zfloor. unfold round, F2R, scaled_mantissa, cexp, FIX_exp; simpl.
  rewrite !Rmult_1_r. reflexivity.
Qed.

Lemma to_int_R (x : f64) z : is_finite x = true -> B2R x = IZR z ->
  to_int x = (if in_int z then Some z else None).
Proof.
  intros Fx E. unfold to_int. rewrite Fx.
  pose proof (Btrunc_correct 53 1024 _ x) as H. rewrite E in H.
  unfold round, F2R, scaled_mantissa, cexp, FIX_exp in H; simpl in H.
  rewrite !Rmult_1_r, Ztrunc_IZR in H. apply eq_IZR in H. rewrite H. reflexivity.
Qed.

Lemma rand_uniform_int_eq (lo hi : Z) g :
  (in_int lo = true) -> (in_int hi = true) -> (lo <= hi)%Z ->
  total (rand_uniform_int lo hi g) (fun '(z, g') =>
     (lo <= z <= hi)%Z /\ g' = advance g /\
     exists v : f64, rand_uniform (of_Z lo) (of_Z hi) g = Ok (v, advance g)
       /\ is_finite v = true /\ z = Zfloor (B2R v) /\ B2R v <= IZR hi).
Proof.
  intros Hlo Hhi Hle. unfold in_int, int_min, int_max in *.
  assert (Al : (Z.abs lo <= 2 ^ 53)%Z) by lia. assert (Ah : (Z.abs hi <= 2 ^ 53)%Z) by lia.
  destruct (of_Z_fin lo Al) as [Fl El]. destruct (of_Z_fin hi Ah) as [Fh Eh].
  assert (Fd : is_finite (fsub (of_Z hi) (of_Z lo)) = true).
  { destruct (fsub_fin (of_Z hi) (of_Z lo) Fh Fl) as [N E]. apply nn_X_finite; [exact N|].
    rewrite E, El, Eh, <- minus_IZR. rewrite rnd_IZR by lia.
    assert (- bnd < IZR (hi - lo) < bnd).
    { change bnd with (IZR (2 ^ 1024)). rewrite <- opp_IZR.
      assert (2 ^ 53 < 2 ^ 1024)%Z by (apply Z.pow_lt_mono_r; lia).
      split; apply IZR_lt; lia. }
    rewrite sat_id by lra. lra. }
  pose proof (rand_uniform_between (of_Z lo) (of_Z hi) g Fl Fh) as H.
  rewrite El, Eh in H. specialize (H (IZR_le _ _ Hle) Fd).
  unfold rand_uniform_int, bind. rewrite rand_uniform_eq in *. simpl in H.
  set (v := fadd (of_Z lo) (fmul (draw_value (r_tape g (r_pos g))) (fsub (of_Z hi) (of_Z lo)))) in *.
  destruct H as (Fv & Bv & _). destruct (ffloor_R v Fv) as [Ff Ef].
  rewrite (to_int_R _ _ Ff Ef).
  assert (Z1 : (lo <= Zfloor (B2R v))%Z) by (apply Zfloor_lub; lra).
  assert (Z2 : (Zfloor (B2R v) <= hi)%Z).
  { apply le_IZR. apply Rle_trans with (B2R v); [apply Zfloor_lb|lra]. }
  assert (I : in_int (Zfloor (B2R v)) = true) by (unfold in_int, int_min, int_max; lia).
  rewrite I. simpl. split; [lia|]. split; [reflexivity|]. exists v.
  split; [reflexivity|]. split; [exact Fv|]. split; [reflexivity|lra].
Qed.

(** With lower bound 0 the upper bound is exclusive. *)
Lemma rand_uniform_int_0 (n : Z) g : (0 < n <= int_max)%Z ->
  total (rand_uniform_int 0 n g) (fun '(z, g') => (0 <= z < n)%Z /\ g' = advance g).
Proof.
  intros Hn. unfold int_max in Hn.
  pose proof (rand_uniform_int_eq 0 n g eq_refl) as H.
  assert (I : in_int n = true) by (unfold in_int, int_min, int_max; lia).
  specialize (H I). assert (0 <= n)%Z as L by lia. specialize (H L).
  eapply total_mono; [|exact H]. intros [z g'] (B & -> & v & Ev & Fv & Ez & _).
  split; [|reflexivity]. split; [lia|].
  rewrite rand_uniform_eq in Ev. apply (f_equal (fun o => match o with Ok (a, _) => a | _ => v end)) in Ev. cbv beta iota in Ev.
  destruct (of_Z_fin n ltac:(lia)) as [Fn En].
  set (u := draw_value (r_tape g (r_pos g))) in *.
  pose proof (draw_u (r_tape g (r_pos g))) as Hu. fold u in Hu.
  assert (Fd : is_finite (fsub (of_Z n) (of_Z 0)) = true).
  { destruct (fsub_fin (of_Z n) (of_Z 0) Fn eq_refl) as [N E]. apply nn_X_finite; [exact N|].
    rewrite E. change (B2R (of_Z 0)) with 0. rewrite Rminus_0_r, rnd_B2R, sat_B2R. apply B2R_bnd. }
  assert (Ed : B2R (fsub (of_Z n) (of_Z 0)) = IZR n).
  { rewrite B2R_fsub_fin_le; [|exact Fn|reflexivity|exact Fd].
    change (B2R (of_Z 0)) with 0. rewrite Rminus_0_r, rnd_B2R. exact En. }
  assert (N1 : bpow radix2 (-1022) <= IZR n).
  { apply Rle_trans with (bpow radix2 0); [apply bpow_le; lia|]. simpl. apply IZR_le; lia. }
  assert (P : 0 < IZR n) by (apply IZR_lt; lia).
  assert (Fmt : fmt64 (IZR n)) by (rewrite <- En; apply fmt_B2R).
  pose proof (rnd_scaled_le_pred (B2R u) (IZR n) Fmt N1 Hu) as HP.
  assert (HP2 : pred64 (IZR n) < IZR n) by (apply pred_lt_id; lra).
  assert (HP0 : 0 <= rnd (B2R u * IZR n)) by (apply rnd_ge_0; nra).
  destruct (fmul_fin u _ (draw_fin _) Fd) as [Nm Em]. rewrite Ed in Em.
  assert (BN : IZR n < bnd).
  { pose proof (B2R_bnd (of_Z n)) as B0. rewrite En in B0. lra. }
  rewrite sat_id in Em by lra.
  assert (Fm : is_finite (fmul u (fsub (of_Z n) (of_Z 0))) = true).
  { apply nn_X_finite; [exact Nm|]. rewrite Em. lra. }
  rewrite X_finite in Em by exact Fm.
  destruct (fadd_fin (of_Z 0) _ eq_refl Fm) as [Nv Evv].
  change (B2R (of_Z 0)) with 0 in Evv. rewrite Rplus_0_l, Em in Evv.
  rewrite (round_generic radix2 fexp64 ZnearestE (rnd (B2R u * IZR n))) in Evv by apply fmt_rnd.
  rewrite Ev in Evv. rewrite X_finite in Evv by exact Fv. rewrite sat_id in Evv by lra.
  subst z. apply lt_IZR. apply Rle_lt_trans with (B2R v); [apply Zfloor_lb|]. lra.
Qed.

(** Roulette spins: rand_uniform(0, t) <= t for every t >= 0, infinite included. *)
Lemma rand_uniform_0_le (t : f64) g : fpos t ->
  total (rand_uniform f0 t g) (fun '(v, g') => fpos v /\ fle v t = true /\ g' = advance g).
Proof.
  intros Ht. rewrite rand_uniform_eq. simpl. set (u := draw_value (r_tape g (r_pos g))).
  assert (Fu : is_finite u = true) by apply draw_fin.
  pose proof (draw_value_range (r_tape g (r_pos g))) as Hu. fold u in Hu. pose proof lo_u_pos as HL.
  destruct (fpos_cases t Ht) as [[Ft Pt]| ->].
  - assert (Fd : is_finite (fsub t f0) = true).
    { destruct (fsub_fin t f0 Ft f0_fin) as [N E]. apply nn_X_finite; [exact N|].
      rewrite E, f0_R, Rminus_0_r, rnd_B2R, sat_B2R. apply B2R_bnd. }
    assert (Hu2 : 0 <= B2R u <= 1 - lo_u) by (split; lra).
    pose proof (uniform_between u f0 t Fu Hu2 f0_fin Ft) as H. rewrite f0_R in H.
    destruct (H Pt Fd) as [Fv Bv]. split; [|split; [|reflexivity]].
    + apply fpos_of_X; [apply fin_nn; exact Fv|]. rewrite X_finite by exact Fv. exact (proj1 Bv).
    + apply fle_X; [apply fin_nn; exact Fv|apply fin_nn; exact Ft|]. rewrite !X_finite by assumption. exact (proj2 Bv).
  - assert (E : fadd f0 (fmul u (fsub finf f0)) = finf).
    { assert (S : Bsign u = false /\ is_finite_strict u = true).
      { destruct u as [s|s| |s m e Hb]; try discriminate Fu.
        - simpl in Hu. lra.
        - destruct s; [|split; reflexivity].
          exfalso. assert (B2R (B754_finite true m e Hb : f64) < 0) by (apply F2R_lt_0; reflexivity). lra. }
      destruct u as [s|s| |[|] m e Hb]; try (destruct S; discriminate); reflexivity. }
    rewrite E. repeat split; reflexivity.
Qed.
