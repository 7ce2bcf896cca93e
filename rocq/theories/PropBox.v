(** * Hyperrectangles and hyperellipsoids: covering, generality (C22-C24). *)
From Coq Require Import ZArith Bool List Lia Reals Lra.
From Flocq Require Import Core BinarySingleNaN.
From Verif Require Import Outcome F64 F64Facts F64Bounds Rng RngFacts Pop PopSpec Arr ArrFacts Sam SamFacts Cond TernFacts RectFacts EllipFacts PredFacts.
Import ListNotations.
Open Scope Z_scope.

Lemma at_iota {A} (d : A) (f : Z -> A) n i : 0 <= i < n -> at_ d (map f (iota n)) i = f i.
Proof.
  intros H. unfold at_, iota. rewrite map_map.
  rewrite (nth_indep _ d (f (Z.of_nat 0))) by (rewrite map_length, seq_length; lia).
  rewrite (map_nth (fun k => f (Z.of_nat k))), seq_nth by lia. f_equal. lia.
Qed.

Section Box.
Context (K : cfg) (P : cpar) (HX : 1 <= x_dim K).
Notation xd := (x_dim K).

(** ** C22 *)
Lemma C22_lemma c x : flt (cp_spread_min P) f0 = false -> wf_rect K c -> len x = xd ->
  rt (fun _ => True) (rect_cover K P c x) (fun c' => wf_rect K c' /\ r_mu c' = r_mu c /\ rect_match K P c' x = Ok true /\ covered K P c' x).
Proof.
  intros S W L. eapply rt_mono; [exact (rect_cover_ok _ K P _ (src_any (lm K)) HX c x W L)|].
  intros c' (W' & M & C). split; [exact W'|]. split; [exact M|]. split; [|exact C].
  destruct (rect_match_ok K P HX c' x W' L) as (b & E & I). rewrite E. f_equal. apply I. exact (covered_box K P c' x S C).
Qed.
Lemma C22_match_lemma c x : wf_rect K c -> len x = xd -> exists b, rect_match K P c x = Ok b /\ (b = true <-> box K P c x).
Proof. intros W L. exact (rect_match_ok K P HX c x W L). Qed.

(** ** C23 *)
Definition ordered (c : rect) : Prop := forall i, 0 <= i < xd ->
  flt (hi_bound P (at_ f0 (r_b1 c) i) (at_ f0 (r_b2 c) i)) (lo_bound P (at_ f0 (r_b1 c) i) (at_ f0 (r_b2 c) i)) = false.

Lemma C23_lemma c1 c2 : wf_rect K c1 -> wf_rect K c2 -> nn_bounds K P c1 -> nn_bounds K P c2 ->
  exists b, rect_general K P c1 c2 = Ok b /\
    (b = true -> forall x, len x = xd -> rect_match K P c2 x = Ok true -> rect_match K P c1 x = Ok true) /\
    (ordered c2 -> (forall x, len x = xd -> rect_match K P c2 x = Ok true -> rect_match K P c1 x = Ok true) -> b = true).
Proof.
  intros W1 W2 N1 N2. destruct (rect_general_ok K P HX c1 c2 W1 W2) as (b & E & I). exists b. split; [exact E|].
  assert (MB : forall c x, wf_rect K c -> len x = xd -> (rect_match K P c x = Ok true <-> box K P c x)).
  { intros c x W L. destruct (rect_match_ok K P HX c x W L) as (b' & E' & I'). rewrite E', <- I'. split; [now intros [= ->]|now intros ->]. }
  split.
  - intros B x L M. apply MB in M; [|assumption..]. apply MB; [assumption..|]. apply (contains_box K P c1 c2 x N1 N2 (proj1 I B) M).
  - intros O INC. apply I.
    set (lo := map (fun i => lo_bound P (at_ f0 (r_b1 c2) i) (at_ f0 (r_b2 c2) i)) (iota xd)).
    set (hi := map (fun i => hi_bound P (at_ f0 (r_b1 c2) i) (at_ f0 (r_b2 c2) i)) (iota xd)).
    assert (Ll : len lo = xd) by (unfold lo; rewrite len_map; apply len_iota; lia).
    assert (Lh : len hi = xd) by (unfold hi; rewrite len_map; apply len_iota; lia).
    assert (Bl : box K P c1 lo).
    { apply MB; [assumption..|]. apply INC; [assumption|]. apply MB; [assumption..|]. intros i Hi. unfold lo. rewrite at_iota by exact Hi.
      split; [apply flt_irrefl|exact (O i Hi)]. }
    assert (Bh : box K P c1 hi).
    { apply MB; [assumption..|]. apply INC; [assumption|]. apply MB; [assumption..|]. intros i Hi. unfold hi. rewrite at_iota by exact Hi.
      split; [exact (O i Hi)|apply flt_irrefl]. }
    intros i Hi. pose proof (Bl i Hi) as (A & _). pose proof (Bh i Hi) as (_ & A2). unfold lo in A. unfold hi in A2. rewrite at_iota in A, A2 by exact Hi.
    split; assumption.
Qed.
Lemma C23_order_lemma c1 c2 c3 : wf_rect K c1 -> wf_rect K c2 -> wf_rect K c3 ->
  nn_bounds K P c1 -> nn_bounds K P c2 -> nn_bounds K P c3 ->
  rect_general K P c1 c1 = Ok true /\
  (rect_general K P c1 c2 = Ok true -> rect_general K P c2 c3 = Ok true -> rect_general K P c1 c3 = Ok true).
Proof.
  intros W1 W2 W3 N1 N2 N3. destruct (rect_general_ok K P HX c1 c1 W1 W1) as (b11 & E11 & I11).
  destruct (rect_general_ok K P HX c1 c2 W1 W2) as (b12 & E12 & I12).
  destruct (rect_general_ok K P HX c2 c3 W2 W3) as (b23 & E23 & I23).
  destruct (rect_general_ok K P HX c1 c3 W1 W3) as (b13 & E13 & I13).
  split; [rewrite E11; f_equal; apply I11, contains_refl|].
  rewrite E12, E23, E13. intros [= ->] [= ->]. f_equal. apply I13.
  exact (contains_trans K P c1 c2 c3 N1 N2 N3 (proj1 I12 eq_refl) (proj1 I23 eq_refl)).
Qed.
Lemma C23_finite_lemma c : wf_rect K c -> fin_rect c -> nn_bounds K P c.
Proof. apply fin_bounds. Qed.

(** ** C24 *)
Lemma C24_cover_lemma c x : wf_ellip K c -> len x = xd -> Forall (fun v => is_finite v = true) x ->
  fpos (cp_spread_min P) -> is_finite (cp_spread_min P) = true -> nn (spread_max P) ->
  (dbl_min <= B2R (cp_spread_min P))%R \/ (dbl_min <= X (spread_max P))%R ->
  rt (fun _ => True) (ellip_cover K P c x) (fun c' => wf_ellip K c' /\ e_mu c' = e_mu c /\ ellip_match K c' x = Ok true /\ ellip_covered K P c' x).
Proof.
  intros W L F S1 S2 S3 S4. eapply rt_mono; [exact (ellip_cover_ok _ K P _ (src_any (lm K)) HX c x W L)|].
  intros c' (W' & M & C). split; [exact W'|]. split; [exact M|]. split; [|exact C].
  destruct (ellip_match_ok K HX c' x W' L) as (b & E & I). rewrite E. f_equal. apply I. exact (ellip_covered_ball K P c' x W' L F S1 S2 S3 S4 C).
Qed.
Lemma C24_match_lemma c x : wf_ellip K c -> len x = xd -> exists b, ellip_match K c x = Ok b /\ (b = true <-> ball K c x).
Proof. intros W L. exact (ellip_match_ok K HX c x W L). Qed.
Lemma C24_test_lemma c1 c2 : wf_ellip K c1 -> wf_ellip K c2 ->
  exists b, ellip_general K c1 c2 = Ok b /\ (b = true <-> tips_near K c1 c2 0).
Proof. intros W1 W2. exact (ellip_general_ok K HX c1 c2 W1 W2). Qed.

(** With the same centre, wider spreads accept more. *)
Definition wider (c1 c2 : ellip) : Prop := e_center c1 = e_center c2 /\
  forall i, 0 <= i < xd -> let s1 := at_ f0 (e_spread c1) i in let s2 := at_ f0 (e_spread c2) i in
    is_finite s1 = true /\ is_finite s2 = true /\ (0 < B2R s2 <= B2R s1)%R.

Lemma rnd_abs r : Rabs (rnd r) = rnd (Rabs r).
Proof. symmetry. apply round_NE_abs. typeclasses eauto. Qed.
Lemma square_fpos (d : f64) : nn d -> fpos (fmul d d).
Proof.
  intros N. destruct (is_finite d) eqn:F.
  - destruct (fmul_fin d d F F) as (Nm & E). apply fpos_of_X; [exact Nm|]. rewrite E. apply sat_ge_0, rnd_ge_0. nra.
  - destruct d as [s|s| |s m e H]; try discriminate; destruct s; reflexivity.
Qed.
Lemma term_le (a s1 s2 : f64) : is_finite a = true -> is_finite s1 = true -> is_finite s2 = true -> (0 < B2R s2 <= B2R s1)%R ->
  let d1 := fdiv a s1 in let d2 := fdiv a s2 in fpos (fmul d1 d1) /\ fpos (fmul d2 d2) /\ fle (fmul d1 d1) (fmul d2 d2) = true.
Proof.
  intros Fa F1 F2 H d1 d2.
  destruct (fdiv_fin a s1 Fa F1 ltac:(lra)) as (N1 & E1). fold d1 in N1, E1.
  destruct (fdiv_fin a s2 Fa F2 ltac:(lra)) as (N2 & E2). fold d2 in N2, E2.
  split; [now apply square_fpos|]. split; [now apply square_fpos|].
  destruct (is_finite d2) eqn:FD2.
  - assert (AB : (Rabs (rnd (B2R a / B2R s1)) <= Rabs (rnd (B2R a / B2R s2)))%R).
    { rewrite !rnd_abs. apply rnd_le. unfold Rdiv. rewrite !Rabs_mult. apply Rmult_le_compat_l; [apply Rabs_pos|].
      rewrite !Rabs_pos_eq by (apply Rlt_le, Rinv_0_lt_compat; lra). apply Rinv_le; lra. }
    rewrite X_finite in E2 by exact FD2.
    assert (B2 : (Rabs (rnd (B2R a / B2R s2)) < bnd)%R).
    { pose proof (B2R_bnd d2) as B. rewrite E2 in B. unfold sat in B. destruct (Rlt_bool_spec (Rabs (rnd (B2R a / B2R s2))) bnd) as [|C]; [assumption|].
      destruct (Rlt_bool _ 0); lra. }
    assert (B1 : (Rabs (rnd (B2R a / B2R s1)) < bnd)%R) by lra.
    apply Rabs_def2 in B2 as B2'. apply Rabs_def2 in B1 as B1'. rewrite sat_id in E2 by lra. rewrite sat_id in E1 by lra.
    assert (FD1 : is_finite d1 = true) by (apply nn_X_finite; [exact N1|rewrite E1; lra]).
    rewrite X_finite in E1 by exact FD1.
    destruct (fmul_fin d1 d1 FD1 FD1) as (M1 & Q1). destruct (fmul_fin d2 d2 FD2 FD2) as (M2 & Q2).
    apply fle_X; [exact M1|exact M2|]. rewrite Q1, Q2. apply sat_le, rnd_le. rewrite E1, E2.
    apply Rsqr_le_abs_1 in AB. exact AB.
  - assert (EI : fmul d2 d2 = finf) by (destruct d2 as [s|s| |s m e Hm]; try discriminate; destruct s; reflexivity).
    rewrite EI. apply fle_X; [apply fpos_nn, square_fpos, N1|reflexivity|]. apply X_bnd.
Qed.
Lemma infinite_term (a s2 : f64) : nn a -> is_finite a = false -> is_finite s2 = true -> (0 < B2R s2)%R ->
  let d2 := fdiv a s2 in fmul d2 d2 = finf.
Proof.
  intros N F F2 P2 d2. subst d2. destruct a as [s|s| |s m e Hm]; try discriminate.
  destruct s2 as [s'|s'| |s' m' e' Hm']; try discriminate; [cbn in P2; lra|]. destruct s, s'; reflexivity.
Qed.

Lemma C24_wider_lemma c1 c2 x : wf_ellip K c1 -> wf_ellip K c2 -> len x = xd -> Forall (fun v => is_finite v = true) x ->
  Forall (fun v => is_finite v = true) (e_center c2) -> wider c1 c2 -> ellip_match K c2 x = Ok true -> ellip_match K c1 x = Ok true.
Proof.
  intros W1 W2 L F FC (EC & S) M.
  destruct (ellip_match_ok K HX c1 x W1 L) as (b1 & E1 & I1). destruct (ellip_match_ok K HX c2 x W2 L) as (b2 & E2 & I2).
  rewrite E2 in M. injection M as ->. rewrite E1. f_equal. apply I1. pose proof (proj1 I2 eq_refl) as B. unfold ball in *.
  set (t1 := fun i => let d := fdiv (fsub (at_ f0 x i) (at_ f0 (e_center c1) i)) (at_ f0 (e_spread c1) i) in fmul d d).
  set (t2 := fun i => let d := fdiv (fsub (at_ f0 x i) (at_ f0 (e_center c2) i)) (at_ f0 (e_spread c2) i) in fmul d d).
  assert (FA : forall l i, Forall (fun v : f64 => is_finite v = true) l -> is_finite (at_ f0 l i) = true).
  { intros l i Hl. unfold at_. destruct (le_lt_dec (length l) (Z.to_nat i)); [rewrite nth_overflow by assumption; reflexivity|].
    apply (proj1 (Forall_forall _ _) Hl). now apply nth_In. }
  assert (T : forall i, 0 <= i < xd -> fpos (t1 i) /\ fpos (t2 i) /\ fle (t1 i) (t2 i) = true).
  { intros i Hi. destruct (S i Hi) as (F1 & F2 & O). unfold t1, t2. rewrite EC.
    pose proof (FA x i F) as Fx. pose proof (FA _ i FC) as Fc.
    destruct (is_finite (fsub (at_ f0 x i) (at_ f0 (e_center c2) i))) eqn:FS; [exact (term_le _ _ _ FS F1 F2 O)|].
    destruct (fsub_fin _ _ Fx Fc) as (NS & _). rewrite !infinite_term by (assumption || lra). repeat split; reflexivity. }
  assert (SUM : forall l a1 a2, fpos a1 -> fpos a2 -> fle a1 a2 = true -> (forall i, In i l -> 0 <= i < xd) ->
    fle (fold_left (fun a i => fadd a (t1 i)) l a1) (fold_left (fun a i => fadd a (t2 i)) l a2) = true).
  { induction l as [|i l IH]; intros a1 a2 P1 P2 LE R; [exact LE|]. cbn [fold_left].
    destruct (T i (R i (or_introl eq_refl))) as (Q1 & Q2 & QL). apply IH; try (apply fpos_add; assumption).
    - apply fadd_mono; try assumption; apply fpos_nn, fpos_add; assumption.
    - intros j Hj. apply R. now right. }
  assert (C : fle (sq_dist K c1 x) (sq_dist K c2 x) = true).
  { apply SUM; try reflexivity. intros i Hi. unfold iota in Hi. apply in_map_iff in Hi. destruct Hi as (k & <- & Hk). apply in_seq in Hk. lia. }
  exact (fle_flt_trans _ _ _ C B).
Qed.
End Box.
