(** * Hyperrectangle conditions. *)
From Coq Require Import ZArith Bool List Lia Reals Lra.
From Flocq Require Import Core BinarySingleNaN.
From Verif Require Import Outcome F64 F64Facts F64Bounds Rng RngFacts Pop PopSpec Arr ArrFacts Sam SamFacts Cond TernFacts.
Import ListNotations.

(** ** Intervals in double precision. *)
Local Open Scope R_scope.

(** Not below [lo] and not above [hi]; a NaN bound excludes nothing. *)
Definition within (lo hi x : f64) : Prop := flt x lo = false /\ flt hi x = false.

Lemma nan_flt_l x y : is_nan x = true -> flt x y = false.
Proof. destruct x; try discriminate. reflexivity. Qed.
Lemma nan_flt_r x y : is_nan y = true -> flt x y = false.
Proof. destruct y; try discriminate. destruct x as [|[]| |]; reflexivity. Qed.
Lemma nn_or_nan (x : f64) : nn x \/ is_nan x = true.
Proof. unfold nn. destruct (is_nan x); auto. Qed.

(** x - r <= x <= x + r, unless NaN. *)
Lemma flt_sub x r : fpos r \/ is_nan r = true -> flt x (fsub x r) = false.
Proof.
  intros [P|N].
  - destruct (nn_or_nan x) as [Nx|Nx]; [|apply nan_flt_l, Nx].
    destruct (nn_cases x Nx) as [Fx|[-> | ->]].
    + destruct (fpos_cases r P) as [(Fr & Br)| ->].
      * destruct (fsub_fin x r Fx Fr) as (N1 & E1). apply flt_X_false; [exact Nx|exact N1|].
        rewrite E1, X_finite by exact Fx. rewrite <- (sat_B2R x) at 2. apply sat_le. apply rnd_le_B2R. lra.
      * destruct x; try discriminate; reflexivity.
    + destruct (fpos_cases r P) as [(Fr & Br)| ->]; [destruct r; try discriminate; reflexivity|reflexivity].
    + destruct (fpos_cases r P) as [(Fr & Br)| ->]; [destruct r; try discriminate; reflexivity|reflexivity].
  - apply nan_flt_r. destruct r; try discriminate. destruct x as [|[]| |]; reflexivity.
Qed.
Lemma flt_add x r : fpos r \/ is_nan r = true -> flt (fadd x r) x = false.
Proof.
  intros [P|N].
  - destruct (nn_or_nan x) as [Nx|Nx]; [|apply nan_flt_r, Nx].
    destruct (nn_cases x Nx) as [Fx|[-> | ->]].
    + destruct (fpos_cases r P) as [(Fr & Br)| ->].
      * destruct (fadd_fin x r Fx Fr) as (N1 & E1). apply flt_X_false; [exact N1|exact Nx|].
        rewrite E1, X_finite by exact Fx. rewrite <- (sat_B2R x) at 1. apply sat_le. apply rnd_ge_B2R. lra.
      * destruct x; try discriminate; reflexivity.
    + destruct (fpos_cases r P) as [(Fr & Br)| ->]; [destruct r; try discriminate; reflexivity|reflexivity].
    + destruct (fpos_cases r P) as [(Fr & Br)| ->]; [destruct r; try discriminate; reflexivity|reflexivity].
  - apply nan_flt_l. destruct r; try discriminate. destruct x as [|[]| |]; reflexivity.
Qed.

(** fmin/fmax return one of their arguments. *)
Lemma fmin_nn a b : nn a -> nn b -> nn (fmin a b) /\ X (fmin a b) = Rmin (X a) (X b).
Proof.
  intros Na Nb. unfold fmin. rewrite Na, Nb. destruct (flt b a) eqn:E.
  - split; [exact Nb|]. apply (flt_X b a Nb Na) in E. rewrite Rmin_right; lra.
  - split; [exact Na|]. apply (flt_X_false b a Nb Na) in E. rewrite Rmin_left; lra.
Qed.
Lemma fmax_nn a b : nn a -> nn b -> nn (fmax a b) /\ X (fmax a b) = Rmax (X a) (X b).
Proof.
  intros Na Nb. unfold fmax. rewrite Na, Nb. destruct (flt a b) eqn:E.
  - split; [exact Nb|]. apply (flt_X a b Na Nb) in E. rewrite Rmax_right; lra.
  - split; [exact Na|]. apply (flt_X_false a b Na Nb) in E. rewrite Rmax_left; lra.
Qed.

(** The two corners of the unordered form around x. *)
Lemma within_corners x r1 r2 : (fpos r1 /\ fpos r2) \/ (is_nan r1 = true /\ is_nan r2 = true) ->
  let b1 := fsub x r1 in let b2 := fadd x r2 in within (fmin b1 b2) (fmax b1 b2) x.
Proof.
  intros H b1 b2. destruct (nn_or_nan x) as [Nx|Nx]; [|split; [apply nan_flt_l|apply nan_flt_r]; exact Nx].
  destruct H as [(P1 & P2)|(N1 & N2)].
  - assert (L1 : flt x b1 = false) by (apply flt_sub; auto). assert (U2 : flt b2 x = false) by (apply flt_add; auto).
    destruct (nn_or_nan b1) as [Nb1|Nb1]; destruct (nn_or_nan b2) as [Nb2|Nb2].
    + destruct (fmin_nn b1 b2 Nb1 Nb2) as (M1 & M2). destruct (fmax_nn b1 b2 Nb1 Nb2) as (M3 & M4).
      apply (flt_X_false _ _ Nx Nb1) in L1. apply (flt_X_false _ _ Nb2 Nx) in U2.
      split; apply flt_X_false; try assumption.
      * rewrite M2. apply Rle_trans with (X b1); [apply Rmin_l|exact L1].
      * rewrite M4. apply Rle_trans with (X b2); [exact U2|apply Rmax_r].
    + (* b2 NaN: x = -inf and r2 = inf, so b1 = -inf *)
      assert (E : x = B754_infinity true).
      { destruct (nn_cases x Nx) as [Fx|[-> | ->]]; [|exfalso|reflexivity]; exfalso || idtac.
        - exfalso. destruct (fpos_cases r2 P2) as [(Fr & _)| ->].
          + destruct (fadd_fin x r2 Fx Fr) as (K & _). unfold nn in K. unfold b2 in Nb2. congruence.
          + unfold b2 in Nb2. destruct x; discriminate.
        - unfold b2 in Nb2. destruct (fpos_cases r2 P2) as [(Fr & _)| ->]; [destruct r2; discriminate|discriminate]. }
      assert (E1 : b1 = B754_infinity true).
      { unfold b1. rewrite E. destruct (fpos_cases r1 P1) as [(Fr & _)| ->]; [destruct r1; try discriminate; reflexivity|reflexivity]. }
      unfold fmin, fmax. rewrite Nb1, Nb2, E1, E. split; reflexivity.
    + assert (E : x = finf).
      { destruct (nn_cases x Nx) as [Fx|[-> | ->]]; [exfalso|reflexivity|exfalso].
        - destruct (fpos_cases r1 P1) as [(Fr & _)| ->].
          + destruct (fsub_fin x r1 Fx Fr) as (K & _). unfold nn in K. unfold b1 in Nb1. congruence.
          + unfold b1 in Nb1. destruct x; discriminate.
        - unfold b1 in Nb1. destruct (fpos_cases r1 P1) as [(Fr & _)| ->]; [destruct r1; discriminate|discriminate]. }
      assert (E2 : b2 = finf).
      { unfold b2. rewrite E. destruct (fpos_cases r2 P2) as [(Fr & _)| ->]; [destruct r2; try discriminate; reflexivity|reflexivity]. }
      unfold fmin, fmax. rewrite Nb1, E2, E. split; reflexivity.
    + unfold fmin, fmax. rewrite Nb1. split; [apply nan_flt_r, Nb2|apply nan_flt_l, Nb2].
  - assert (Nb1 : is_nan b1 = true) by (unfold b1; destruct r1; try discriminate; destruct x as [|[]| |]; reflexivity).
    assert (Nb2 : is_nan b2 = true) by (unfold b2; destruct r2; try discriminate; destruct x as [|[]| |]; reflexivity).
    unfold fmin, fmax. rewrite Nb1. split; [apply nan_flt_r, Nb2|apply nan_flt_l, Nb2].
Qed.

(** ** Random spreads. *)
Lemma fabs_fpos x : nn x -> fpos (fabs x).
Proof. intros N. destruct x as [s|[]| |s m e H]; try discriminate; reflexivity. Qed.
Lemma spread_value lo hi m : fpos lo -> is_finite lo = true -> fpos hi ->
  fpos (fadd lo (fmul (draw_value m) (fsub hi lo))).
Proof.
  intros P1 Fl P2. pose proof (draw_value_01 m) as U. pose proof (draw_fin m) as FU.
  destruct (fpos_cases hi P2) as [(Fh & Bh)| ->].
  - pose proof (fpos_X lo P1) as Bl. rewrite X_finite in Bl by exact Fl.
    pose proof (B2R_bnd lo) as BL. pose proof (B2R_bnd hi) as BH.
    assert (L1 : - bnd < - B2R lo) by lra. assert (L2 : B2R hi < bnd) by lra.
    destruct (fsub_in (- B2R lo) (B2R hi) (fmt_opp _ (fmt_B2R lo)) (fmt_B2R hi) L1 L2 hi lo Fh Fl ltac:(lra)) as (Fd & Bd).
    set (d := fsub hi lo) in *. set (u := draw_value m) in *.
    assert (BP : - B2R lo <= B2R u * B2R d <= B2R hi).
    { assert (Q1 : 0 <= B2R u * (B2R d + B2R lo)) by (apply Rmult_le_pos; lra).
      assert (Q2 : 0 <= (1 - B2R u) * B2R lo) by (apply Rmult_le_pos; lra).
      assert (Q3 : 0 <= B2R u * (B2R hi - B2R d)) by (apply Rmult_le_pos; lra).
      assert (Q4 : 0 <= (1 - B2R u) * B2R hi) by (apply Rmult_le_pos; lra). lra. }
    destruct (fmul_in (- B2R lo) (B2R hi) (fmt_opp _ (fmt_B2R lo)) (fmt_B2R hi) L1 L2 u d FU Fd BP) as (Fp & Bp).
    destruct (fadd_fin lo (fmul u d) Fl Fp) as (N & E). apply fpos_of_X; [exact N|]. rewrite E. apply sat_ge_0, rnd_ge_0. lra.
  - assert (E1 : fsub finf lo = finf) by (destruct lo; try discriminate; reflexivity).
    assert (E2 : fmul (draw_value m) finf = finf).
    { revert FU U. generalize (draw_value m) as u. intros u FU U. pose proof (Bsign_neg_le u) as NS.
      destruct u as [s| | |s k e H]; try discriminate; [cbn in U; lra|].
      destruct s; [|reflexivity]. specialize (NS eq_refl). lra. }
    rewrite E1, E2. destruct lo; try discriminate; reflexivity.
Qed.
(** All spreads drawn are non-negative, or all are NaN. *)
Lemma spread_alt lo hi : (is_nan lo = true \/ fpos lo) -> (is_nan hi = true \/ fpos hi) ->
  (forall m, fpos (fadd lo (fmul (draw_value m) (fsub hi lo)))) \/
  (forall m, is_nan (fadd lo (fmul (draw_value m) (fsub hi lo))) = true).
Proof.
  intros [Nl|Pl] Hh.
  - right. intros m. destruct lo; try discriminate. reflexivity.
  - destruct Hh as [Nh|Ph].
    + right. intros m. destruct hi; try discriminate. destruct (fpos_cases lo Pl) as [(Fl & _)| ->].
      * destruct lo; try discriminate; destruct (draw_value m) as [|[]| |]; reflexivity.
      * destruct (draw_value m) as [|[]| |]; reflexivity.
    + destruct (fpos_cases lo Pl) as [(Fl & _)| ->].
      * left. intros m. apply spread_value; assumption.
      * right. intros m. pose proof (draw_value_01 m) as U. pose proof (draw_fin m) as FU.
        destruct (fpos_cases hi Ph) as [(Fh & _)| ->].
        -- assert (E1 : fsub hi finf = B754_infinity true) by (destruct hi; try discriminate; reflexivity). rewrite E1.
           revert FU U. generalize (draw_value m) as u. intros u FU U. pose proof (Bsign_neg_le u) as NS.
           destruct u as [s| | |s k e H]; try discriminate; [reflexivity|].
           destruct s; [|reflexivity]. specialize (NS eq_refl). lra.
        -- destruct (draw_value m) as [|[]| |]; reflexivity.
Qed.

Local Open Scope Z_scope.
Section Rect.
Context (J : rng -> Prop) (K : cfg) (P : cpar) (Zok : f64 -> Prop) (SR : src (lm K) J Zok).
Context (HX : 1 <= x_dim K).
Notation rt := (rt J).
Notation xd := (x_dim K).

(** A value [rand_uniform(lo, hi)] can return. *)
Definition drawn (lo hi v : f64) : Prop := exists m, v = fadd lo (fmul (draw_value m) (fsub hi lo)).
Notation spread := (drawn (cp_spread_min P) (spread_max P)).

Lemma rt_drawn lo hi : rt (rand_uniform lo hi) (drawn lo hi).
Proof. apply (rt_uniform J (lm K) Zok SR). Qed.

Definition wf_rect (c : rect) : Prop := len (r_b1 c) = xd /\ len (r_b2 c) = xd /\ length (r_mu c) = 1%nat.

(** Interval accepted on axis [i], as the two forms define it. *)
Definition lo_bound (b1 b2 : f64) : f64 :=
  if cp_type P =? COND_TYPE_HYPERRECTANGLE_CSR then fsub b1 b2 else fmin b1 b2.
Definition hi_bound (b1 b2 : f64) : f64 :=
  if cp_type P =? COND_TYPE_HYPERRECTANGLE_CSR then fadd b1 b2 else fmax b1 b2.
Definition box (c : rect) (x : list f64) : Prop := forall i, 0 <= i < xd ->
  within (lo_bound (at_ f0 (r_b1 c) i) (at_ f0 (r_b2 c) i)) (hi_bound (at_ f0 (r_b1 c) i) (at_ f0 (r_b2 c) i)) (at_ f0 x i).

Lemma rect_match_ok c x : wf_rect c -> len x = xd -> exists b, rect_match K P c x = Ok b /\ (b = true <-> box c x).
Proof.
  intros (W1 & W2 & W3) L. unfold rect_match.
  set (p := fun i => negb (flt (at_ f0 x i) (lower P (at_ f0 (r_b1 c) i) (at_ f0 (r_b2 c) i)) || fgt (at_ f0 x i) (upper P (at_ f0 (r_b1 c) i) (at_ f0 (r_b2 c) i)))).
  destruct (oall_ok p (fun i => (b1 <- rd (r_b1 c) i ;; b2 <- rd (r_b2 c) i ;; xi <- rd x i ;;
     Ok (negb (flt xi (lower P b1 b2) || fgt xi (upper P b1 b2))))%out) xd ltac:(lia)) as (b & E & H).
  - intros i Hi. rewrite (rd_ok f0) by lia. cbn [obind]. rewrite (rd_ok f0) by lia. cbn [obind]. rewrite (rd_ok f0) by lia. reflexivity.
  - exists b. split; [exact E|]. rewrite H. unfold box, p, within. 
    split; intros G i Hi; specialize (G i Hi).
    + apply negb_true_iff, orb_false_iff in G. exact G.
    + apply negb_true_iff, orb_false_iff. exact G.
Qed.

(** ** Covering. *)
Definition covered (c : rect) (x : list f64) : Prop := forall i, 0 <= i < xd ->
  let xi := at_ f0 x i in
  if cp_type P =? COND_TYPE_HYPERRECTANGLE_CSR
  then at_ f0 (r_b1 c) i = xi /\ spread (at_ f0 (r_b2 c) i)
  else exists r1 r2, spread r1 /\ spread r2 /\
       at_ f0 (r_b1 c) i = fsub xi (fmul r1 fhalf) /\ at_ f0 (r_b2 c) i = fadd xi (fmul r2 fhalf).

Lemma rect_cover_ok c x : wf_rect c -> len x = xd ->
  rt (rect_cover K P c x) (fun c' => wf_rect c' /\ r_mu c' = r_mu c /\ covered c' x).
Proof.
  intros (W1 & W2 & W3) L. unfold rect_cover.
  eapply rt_bind with (P := fun st => let '(b1, b2) := st in len b1 = xd /\ len b2 = xd /\ covered (mkRect b1 b2 (r_mu c)) x).
  - unfold covered. cbn [r_b1 r_b2].
    eapply rt_for_mono with (I := fun n st => let '(b1, b2) := st in len b1 = xd /\ len b2 = xd /\
      forall i, 0 <= i < n -> let xi := at_ f0 x i in
      if cp_type P =? COND_TYPE_HYPERRECTANGLE_CSR
      then at_ f0 b1 i = xi /\ spread (at_ f0 b2 i)
      else exists r1 r2, spread r1 /\ spread r2 /\
       at_ f0 b1 i = fsub xi (fmul r1 fhalf) /\ at_ f0 b2 i = fadd xi (fmul r2 fhalf)).
    + lia.
    + split; [exact W1|]. split; [exact W2|]. intros; lia.
    + intros i [b1 b2] Hi (S1 & S2 & S3). unfold csr, rand_spread. 
      destruct (cp_type P =? COND_TYPE_HYPERRECTANGLE_CSR).
      * eapply rt_bind_lift; [apply (rd_ok f0); lia|].
        destruct (wr_ok b1 i (at_ f0 x i) ltac:(lia)) as (b1' & E1 & (A1 & A2 & A3 & A4)). eapply rt_bind_lift; [exact E1|].
        eapply rt_bind; [apply rt_drawn|]. intros v Hv.
        destruct (wr_ok b2 i v ltac:(lia)) as (b2' & E2 & (B1 & B2 & B3 & B4)). eapply rt_bind_lift; [exact E2|].
        apply rt_ret. split; [congruence|]. split; [congruence|]. intros k Hk.
        destruct (Z.eq_dec k i) as [-> |D]; [rewrite A2, B2; auto|rewrite A3, B3 by lia; apply S3; lia].
      * eapply rt_bind; [apply rt_drawn|]. intros u Hu. eapply rt_bind; [apply rt_drawn|]. intros v Hv.
        eapply rt_bind_lift; [apply (rd_ok f0); lia|].
        destruct (wr_ok b1 i (fsub (at_ f0 x i) (fmul u fhalf)) ltac:(lia)) as (b1' & E1 & (A1 & A2 & A3 & A4)). eapply rt_bind_lift; [exact E1|].
        destruct (wr_ok b2 i (fadd (at_ f0 x i) (fmul v fhalf)) ltac:(lia)) as (b2' & E2 & (B1 & B2 & B3 & B4)). eapply rt_bind_lift; [exact E2|].
        apply rt_ret. split; [congruence|]. split; [congruence|]. intros k Hk.
        destruct (Z.eq_dec k i) as [-> |D]; [exists u, v; rewrite A2, B2; auto|rewrite A3, B3 by lia; apply S3; lia].
    + auto.
  - intros [b1 b2] (S1 & S2 & S3). apply rt_ret. split; [split; [exact S1|split; assumption]|]. split; [reflexivity|exact S3].
Qed.

Lemma half_alt r : (fpos r -> fpos (fmul r fhalf)) /\ (is_nan r = true -> is_nan (fmul r fhalf) = true).
Proof.
  split.
  - intros H. destruct (fpos_cases r H) as [(F & B)| ->]; [|reflexivity].
    apply fpos_mul; try assumption; reflexivity.
  - intros H. destruct r; try discriminate. reflexivity.
Qed.
Lemma spread_max_ok : is_nan (spread_max P) = true \/ fpos (spread_max P).
Proof.
  unfold spread_max. destruct (nn_or_nan (fsub (cp_max P) (cp_min P))) as [N|N]; [right; apply fabs_fpos, N|left].
  destruct (fsub (cp_max P) (cp_min P)); try discriminate. reflexivity.
Qed.
(** Whatever the input: a covered rectangle accepts it. *)
Lemma covered_box c x : flt (cp_spread_min P) f0 = false -> covered c x -> box c x.
Proof.
  intros HS C i Hi. specialize (C i Hi). cbv zeta in C. unfold lo_bound, hi_bound.
  assert (HL : is_nan (cp_spread_min P) = true \/ fpos (cp_spread_min P)).
  { destruct (nn_or_nan (cp_spread_min P)) as [N|N]; [right; apply flt_false_fle; [exact N|reflexivity|exact HS]|auto]. }
  pose proof (spread_alt _ _ HL spread_max_ok) as A.
  destruct (cp_type P =? COND_TYPE_HYPERRECTANGLE_CSR).
  - destruct C as (E1 & (m & E2)). rewrite E1, E2. split; [apply flt_sub|apply flt_add]; destruct A as [A|A]; auto.
  - destruct C as (r1 & r2 & (m1 & E1) & (m2 & E2) & -> & ->). apply within_corners. subst r1 r2.
    destruct A as [A|A]; [left|right]; split; apply half_alt, A.
Qed.

(** ** Generality. *)
Definition contains (c1 c2 : rect) : Prop := forall i, 0 <= i < xd ->
  flt (lo_bound (at_ f0 (r_b1 c2) i) (at_ f0 (r_b2 c2) i)) (lo_bound (at_ f0 (r_b1 c1) i) (at_ f0 (r_b2 c1) i)) = false /\
  flt (hi_bound (at_ f0 (r_b1 c1) i) (at_ f0 (r_b2 c1) i)) (hi_bound (at_ f0 (r_b1 c2) i) (at_ f0 (r_b2 c2) i)) = false.
Lemma rect_general_ok c1 c2 : wf_rect c1 -> wf_rect c2 -> exists b, rect_general K P c1 c2 = Ok b /\ (b = true <-> contains c1 c2).
Proof.
  intros (A1 & A2 & A3) (B1 & B2 & B3). unfold rect_general.
  set (p := fun i => negb (fgt (lower P (at_ f0 (r_b1 c1) i) (at_ f0 (r_b2 c1) i)) (lower P (at_ f0 (r_b1 c2) i) (at_ f0 (r_b2 c2) i))
     || flt (upper P (at_ f0 (r_b1 c1) i) (at_ f0 (r_b2 c1) i)) (upper P (at_ f0 (r_b1 c2) i) (at_ f0 (r_b2 c2) i)))).
  destruct (oall_ok p (fun i => (a1 <- rd (r_b1 c1) i ;; a2 <- rd (r_b2 c1) i ;; d1 <- rd (r_b1 c2) i ;; d2 <- rd (r_b2 c2) i ;;
     Ok (negb (fgt (lower P a1 a2) (lower P d1 d2) || flt (upper P a1 a2) (upper P d1 d2))))%out) xd ltac:(lia)) as (b & E & H).
  - intros i Hi. do 4 (rewrite (rd_ok f0) by lia; cbn [obind]). reflexivity.
  - exists b. split; [exact E|]. rewrite H. unfold contains, p.
    split; intros G i Hi; specialize (G i Hi).
    + apply negb_true_iff, orb_false_iff in G. exact G.
    + apply negb_true_iff, orb_false_iff. exact G.
Qed.

(** Bounds that are numbers. *)
Definition fin_rect (c : rect) : Prop := Forall (fun v => is_finite v = true) (r_b1 c) /\ Forall (fun v => is_finite v = true) (r_b2 c).
Definition nn_bounds (c : rect) : Prop := forall i, 0 <= i < xd ->
  nn (lo_bound (at_ f0 (r_b1 c) i) (at_ f0 (r_b2 c) i)) /\ nn (hi_bound (at_ f0 (r_b1 c) i) (at_ f0 (r_b2 c) i)).
Lemma fin_bounds c : wf_rect c -> fin_rect c -> nn_bounds c.
Proof.
  intros (W1 & W2 & _) (F1 & F2) i Hi.
  pose proof (proj1 (Forall_at _ f0 _) F1 i ltac:(lia)) as G1. pose proof (proj1 (Forall_at _ f0 _) F2 i ltac:(lia)) as G2. cbv beta in G1, G2.
  unfold lo_bound, hi_bound. destruct (cp_type P =? COND_TYPE_HYPERRECTANGLE_CSR).
  - split; [apply fsub_fin|apply fadd_fin]; assumption.
  - split; [apply fmin_nn|apply fmax_nn]; apply fin_nn; assumption.
Qed.
(** A more general rectangle accepts all the other accepts: inputs may be infinite or NaN. *)
Lemma contains_box c1 c2 x : nn_bounds c1 -> nn_bounds c2 -> contains c1 c2 -> box c2 x -> box c1 x.
Proof.
  intros N1 N2 C B i Hi. destruct (N1 i Hi) as (A1 & A2). destruct (N2 i Hi) as (A3 & A4).
  destruct (C i Hi) as (C1 & C2). destruct (B i Hi) as (B1 & B2).
  destruct (nn_or_nan (at_ f0 x i)) as [Nx|Nx]; [|split; [apply nan_flt_l|apply nan_flt_r]; exact Nx].
  apply flt_X_false in C1; try assumption. apply flt_X_false in C2; try assumption.
  apply flt_X_false in B1; try assumption. apply flt_X_false in B2; try assumption.
  split; apply flt_X_false; try assumption; lra.
Qed.
Lemma contains_refl c : contains c c.
Proof. intros i Hi. split; apply flt_irrefl. Qed.
Lemma contains_trans c1 c2 c3 : nn_bounds c1 -> nn_bounds c2 -> nn_bounds c3 -> contains c1 c2 -> contains c2 c3 -> contains c1 c3.
Proof.
  intros N1 N2 N3 G H i Hi. destruct (N1 i Hi) as (A1 & A2). destruct (N2 i Hi) as (A3 & A4). destruct (N3 i Hi) as (A5 & A6).
  destruct (G i Hi) as (G1 & G2). destruct (H i Hi) as (H1 & H2).
  apply flt_X_false in G1; try assumption. apply flt_X_false in G2; try assumption.
  apply flt_X_false in H1; try assumption. apply flt_X_false in H2; try assumption.
  split; apply flt_X_false; try assumption; lra.
Qed.

(** ** Initialisation. *)
Lemma len_alloc : len (alloc_x K) = xd. Proof. apply len_repeat. lia. Qed.
Definition init_rect (c : rect) : Prop := forall i, 0 <= i < xd ->
  drawn (cp_min P) (cp_max P) (at_ f0 (r_b1 c) i) /\
  if cp_type P =? COND_TYPE_HYPERRECTANGLE_CSR then spread (at_ f0 (r_b2 c) i) else drawn (cp_min P) (cp_max P) (at_ f0 (r_b2 c) i).
Lemma rect_init_ok : rt (rect_init K P) (fun c => wf_rect c /\ init_rect c /\ Forall rate_ok (r_mu c)).
Proof.
  unfold rect_init.
  eapply rt_bind with (P := fun st => let '(b1, b2) := st in len b1 = xd /\ len b2 = xd /\
    forall i, 0 <= i < xd -> drawn (cp_min P) (cp_max P) (at_ f0 b1 i) /\ drawn (cp_min P) (cp_max P) (at_ f0 b2 i)).
  - apply (rt_for J (fun n st => let '(b1, b2) := st in len b1 = xd /\ len b2 = xd /\
      forall i, 0 <= i < n -> drawn (cp_min P) (cp_max P) (at_ f0 b1 i) /\ drawn (cp_min P) (cp_max P) (at_ f0 b2 i))).
    + lia.
    + split; [apply len_alloc|]. split; [apply len_alloc|]. intros; lia.
    + intros i [b1 b2] Hi (S1 & S2 & S3). eapply rt_bind; [apply rt_drawn|]. intros u Hu.
      destruct (wr_ok b1 i u ltac:(lia)) as (b1' & E1 & (A1 & A2 & A3 & A4)). eapply rt_bind_lift; [exact E1|].
      eapply rt_bind; [apply rt_drawn|]. intros v Hv.
      destruct (wr_ok b2 i v ltac:(lia)) as (b2' & E2 & (B1 & B2 & B3 & B4)). eapply rt_bind_lift; [exact E2|].
      apply rt_ret. split; [congruence|]. split; [congruence|]. intros k Hk.
      destruct (Z.eq_dec k i) as [-> |D]; [rewrite A2, B2; auto|rewrite A3, B3 by lia; apply S3; lia].
  - intros [b1 b2] (S1 & S2 & S3).
    eapply rt_bind with (P := fun b2' => len b2' = xd /\ init_rect (mkRect b1 b2' [])).
    + unfold init_rect, csr. cbn [r_b1 r_b2]. destruct (cp_type P =? COND_TYPE_HYPERRECTANGLE_CSR).
      * eapply rt_for_mono with (I := fun n l => len l = xd /\ forall i, 0 <= i < n -> spread (at_ f0 l i)).
        -- lia.
        -- split; [exact S2|]. intros; lia.
        -- intros i l Hi (T1 & T2). eapply rt_bind; [apply rt_drawn|]. intros v Hv.
           destruct (wr_ok l i v ltac:(lia)) as (l' & E2 & (B1 & B2 & B3 & B4)). eapply rt_lift; [exact E2|].
           split; [congruence|]. intros k Hk. destruct (Z.eq_dec k i) as [-> |D]; [rewrite B2; auto|rewrite B3 by lia; apply T2; lia].
        -- intros l (T1 & T2). split; [exact T1|]. intros i Hi. split; [apply S3, Hi|apply T2, Hi].
      * apply rt_ret. split; [exact S2|exact S3].
    + intros b2' (T1 & T2). eapply rt_bind; [apply (sam_init_ok J (lm K) Zok SR _ scheme1)|]. intros mu (L & R).
      apply rt_ret. split; [split; [exact S1|split; [exact T1|exact L]]|]. split; [exact T2|exact R].
Qed.

(** ** Copying. *)
Lemma memcpy_ok l : len l = xd -> memcpy_x K l = Ok l.
Proof.
  intros H. unfold memcpy_x. unfold len in H. destruct (Z.ltb_spec (Z.of_nat (length l)) xd); [lia|].
  rewrite <- H, Nat2Z.id, firstn_all. reflexivity.
Qed.
Lemma rect_copy_ok c : wf_rect c -> rect_copy K c = Ok c.
Proof. intros (W1 & W2 & W3). unfold rect_copy. rewrite !memcpy_ok by assumption. destruct c. reflexivity. Qed.

(** ** Update: centres move towards the input. *)
Lemma move_centre_ok b x : len b = xd -> len x = xd -> exists b', move_centre K P b x = Ok b' /\ len b' = xd /\
  forall i, 0 <= i < xd -> at_ f0 b' i = fadd (at_ f0 b i) (fmul (cp_eta P) (fsub (at_ f0 x i) (at_ f0 b i))).
Proof.
  intros Lb Lx. unfold move_centre.
  destruct (ofor_ind (fun n l => len l = xd /\ (forall i, 0 <= i < n -> at_ f0 l i = fadd (at_ f0 b i) (fmul (cp_eta P) (fsub (at_ f0 x i) (at_ f0 b i)))) /\
    forall i, n <= i < xd -> at_ f0 l i = at_ f0 b i)
    (fun i b1 => (b <- rd b1 i ;; xi <- rd x i ;; wr b1 i (fadd b (fmul (cp_eta P) (fsub xi b))))%out) xd b) as (b' & E & H1 & H2 & _).
  - lia.
  - split; [exact Lb|]. split; [intros; lia|auto].
  - intros i l Hi (S1 & S2 & S3). rewrite (rd_ok f0) by lia. cbn [obind]. rewrite (rd_ok f0) by lia. cbn [obind].
    destruct (wr_ok l i (fadd (at_ f0 l i) (fmul (cp_eta P) (fsub (at_ f0 x i) (at_ f0 l i)))) ltac:(lia)) as (l' & EW & (A1 & A2 & A3 & A4)).
    exists l'. split; [exact EW|]. split; [congruence|]. split.
    + intros k Hk. destruct (Z.eq_dec k i) as [-> |D]; [rewrite A2, S3 by lia; reflexivity|rewrite A3 by lia; apply S2; lia].
    + intros k Hk. rewrite A3 by lia. apply S3. lia.
  - exists b'. auto.
Qed.
Definition rect_moved (c c' : rect) (x : list f64) : Prop :=
  r_b2 c' = r_b2 c /\ r_mu c' = r_mu c /\
  if (cp_type P =? COND_TYPE_HYPERRECTANGLE_CSR) && flt f0 (cp_eta P)
  then forall i, 0 <= i < xd -> at_ f0 (r_b1 c') i = fadd (at_ f0 (r_b1 c) i) (fmul (cp_eta P) (fsub (at_ f0 x i) (at_ f0 (r_b1 c) i)))
  else r_b1 c' = r_b1 c.
Lemma rect_update_ok c x : wf_rect c -> len x = xd -> exists c', rect_update K P c x = Ok c' /\ wf_rect c' /\ rect_moved c c' x.
Proof.
  intros (W1 & W2 & W3) L. unfold rect_update, rect_moved, csr. unfold fgt. fold (flt f0 (cp_eta P)).
  destruct ((cp_type P =? COND_TYPE_HYPERRECTANGLE_CSR) && flt f0 (cp_eta P)).
  - destruct (move_centre_ok (r_b1 c) x W1 L) as (b' & E & Lb & Hb). rewrite E. cbn [obind]. eexists. split; [reflexivity|].
    split; [split; [exact Lb|split; assumption]|]. cbn. auto.
  - exists c. split; [reflexivity|]. split; [split; [exact W1|split; assumption]|auto].
Qed.

(** ** Crossover. *)
Lemma swap_arrays_ok a1 a2 b1 b2 : len a1 = xd -> len a2 = xd -> len b1 = xd -> len b2 = xd ->
  rt (swap_arrays K a1 a2 b1 b2) (fun r => let '((p1, p2), (q1, q2), ch) := r in
    len p1 = xd /\ len p2 = xd /\ len q1 = xd /\ len q2 = xd /\
    exchanged f0 xd a1 b1 p1 q1 /\ exchanged f0 xd a2 b2 p2 q2 /\
    (ch = false -> p1 = a1 /\ p2 = a2 /\ q1 = b1 /\ q2 = b2) /\
    (ch = true -> exists i, 0 <= i < xd /\ ((at_ f0 p1 i = at_ f0 b1 i /\ at_ f0 q1 i = at_ f0 a1 i) \/
        (at_ f0 p2 i = at_ f0 b2 i /\ at_ f0 q2 i = at_ f0 a2 i)))).
Proof.
  intros L1 L2 L3 L4. unfold swap_arrays.
  (* one exchange step on a pair of arrays *)
  assert (STEP : forall i a b p q ch, 0 <= i < xd -> len p = xd -> len q = xd ->
     exchanged f0 i a b p q -> (forall k, i <= k < xd -> at_ f0 p k = at_ f0 a k /\ at_ f0 q k = at_ f0 b k) ->
     rt (u <- draw01 ;; if flt u fhalf then
               x <- lift (rd p i) ;; y <- lift (rd q i) ;;
               p' <- lift (wr p i y) ;; q' <- lift (wr q i x) ;; ret (p', q', true)
             else ret (p, q, ch))%rng
       (fun r => let '(p', q', ch') := r in len p' = xd /\ len q' = xd /\ exchanged f0 (i + 1) a b p' q' /\
          (forall k, i + 1 <= k < xd -> at_ f0 p' k = at_ f0 a k /\ at_ f0 q' k = at_ f0 b k) /\
          (forall k, 0 <= k < i -> at_ f0 p' k = at_ f0 p k /\ at_ f0 q' k = at_ f0 q k) /\
          (ch' = false -> ch = false /\ p' = p /\ q' = q) /\
          (ch' = true -> (ch = true /\ p' = p /\ q' = q) \/ (at_ f0 p' i = at_ f0 b i /\ at_ f0 q' i = at_ f0 a i)))).
  { intros i a b p q ch Hi Lp Lq EX RE. eapply rt_bind; [apply (rt_draw01 J K Zok SR)|]. intros u Hu. destruct (flt u fhalf).
    - eapply rt_bind_lift; [apply (rd_ok f0); lia|]. eapply rt_bind_lift; [apply (rd_ok f0); lia|].
      destruct (wr_ok p i (at_ f0 q i) ltac:(lia)) as (p' & E1 & (P1 & P2 & P3 & P4)). eapply rt_bind_lift; [exact E1|].
      destruct (wr_ok q i (at_ f0 p i) ltac:(lia)) as (q' & E2 & (Q1 & Q2 & Q3 & Q4)). eapply rt_bind_lift; [exact E2|].
      apply rt_ret. destruct (RE i ltac:(lia)) as (R1 & R2).
      split; [congruence|]. split; [congruence|]. split; [|split; [|split; [|split; [discriminate|]]]].
      + intros k Hk. destruct (Z.eq_dec k i) as [-> |D]; [right; rewrite P2, Q2; auto|rewrite P3, Q3 by lia; apply EX; lia].
      + intros k Hk. rewrite P3, Q3 by lia. apply RE. lia.
      + intros k Hk. rewrite P3, Q3 by lia. auto.
      + intros _. right. rewrite P2, Q2. auto.
    - apply rt_ret. split; [exact Lp|]. split; [exact Lq|]. split; [|split; [|split; [|split]]].
      + intros k Hk. destruct (Z.eq_dec k i) as [-> |D]; [left; apply RE; lia|apply EX; lia].
      + intros k Hk. apply RE. lia.
      + auto.
      + auto.
      + auto. }
  eapply rt_for_mono with (I := fun n r => let '((p1, p2), (q1, q2), ch) := r in
    len p1 = xd /\ len p2 = xd /\ len q1 = xd /\ len q2 = xd /\
    exchanged f0 n a1 b1 p1 q1 /\ exchanged f0 n a2 b2 p2 q2 /\
    (forall k, n <= k < xd -> at_ f0 p1 k = at_ f0 a1 k /\ at_ f0 q1 k = at_ f0 b1 k) /\
    (forall k, n <= k < xd -> at_ f0 p2 k = at_ f0 a2 k /\ at_ f0 q2 k = at_ f0 b2 k) /\
    (ch = false -> p1 = a1 /\ p2 = a2 /\ q1 = b1 /\ q2 = b2) /\
    (ch = true -> exists i, 0 <= i < n /\ ((at_ f0 p1 i = at_ f0 b1 i /\ at_ f0 q1 i = at_ f0 a1 i) \/
        (at_ f0 p2 i = at_ f0 b2 i /\ at_ f0 q2 i = at_ f0 a2 i)))).
  - lia.
  - do 4 (split; [assumption|]). split; [intros i Hi; lia|]. split; [intros i Hi; lia|]. split; [auto|]. split; [auto|]. split; [auto|discriminate].
  - intros i [[[p1 p2] [q1 q2]] ch] Hi (S1 & S2 & S3 & S4 & S5 & S6 & S7 & S8 & S9 & S10).
    eapply rt_mono with (P := fun r => let '((p1', p2'), (q1', q2'), ch'') := r in exists ch',
       (len p1' = xd /\ len q1' = xd /\ exchanged f0 (i + 1) a1 b1 p1' q1' /\
          (forall k, i + 1 <= k < xd -> at_ f0 p1' k = at_ f0 a1 k /\ at_ f0 q1' k = at_ f0 b1 k) /\
          (forall k, 0 <= k < i -> at_ f0 p1' k = at_ f0 p1 k /\ at_ f0 q1' k = at_ f0 q1 k) /\
          (ch' = false -> ch = false /\ p1' = p1 /\ q1' = q1) /\
          (ch' = true -> (ch = true /\ p1' = p1 /\ q1' = q1) \/ (at_ f0 p1' i = at_ f0 b1 i /\ at_ f0 q1' i = at_ f0 a1 i))) /\
       (len p2' = xd /\ len q2' = xd /\ exchanged f0 (i + 1) a2 b2 p2' q2' /\
          (forall k, i + 1 <= k < xd -> at_ f0 p2' k = at_ f0 a2 k /\ at_ f0 q2' k = at_ f0 b2 k) /\
          (forall k, 0 <= k < i -> at_ f0 p2' k = at_ f0 p2 k /\ at_ f0 q2' k = at_ f0 q2 k) /\
          (ch'' = false -> ch' = false /\ p2' = p2 /\ q2' = q2) /\
          (ch'' = true -> (ch' = true /\ p2' = p2 /\ q2' = q2) \/ (at_ f0 p2' i = at_ f0 b2 i /\ at_ f0 q2' i = at_ f0 a2 i)))).
    + intros g G. pose proof (STEP i a1 b1 p1 q1 ch Hi S1 S3 S5 S7 g G) as T.
      destruct T as ([[p1' q1'] ch'] & g1 & E1 & G1 & T1).
      pose proof (STEP i a2 b2 p2 q2 ch' Hi S2 S4 S6 S8 g1 G1) as T.
      destruct T as ([[p2' q2'] ch''] & g2 & E2 & G2 & T2).
      exists ((p1', p2'), (q1', q2'), ch''), g2. split; [|split; [exact G2|exists ch'; auto]].
      unfold bind in E1, E2 |- *. destruct (draw01 g) as [[u gu]| | |]; try discriminate. cbv beta iota in E1 |- *.
      rewrite E1. cbv beta iota. destruct (draw01 g1) as [[v gv]| | |]; try discriminate. cbv beta iota in E2 |- *.
      rewrite E2. reflexivity.
    + intros [[[p1' p2'] [q1' q2']] ch''] (ch' & (T1 & T2 & T3 & T4 & T5 & T6 & T7) & (U1 & U2 & U3 & U4 & U5 & U6 & U7)).
      do 4 (split; [assumption|]). do 4 (split; [assumption|]). split.
      * intros Hc. destruct (U6 Hc) as (Hc' & -> & ->). destruct (T6 Hc') as (Hc0 & -> & ->). auto.
      * intros Hc. destruct (U7 Hc) as [(Hc' & -> & ->)|SW]; [|exists i; split; [lia|auto]].
        destruct (T7 Hc') as [(Hc0 & -> & ->)|SW]; [|exists i; split; [lia|auto]].
        destruct (S10 Hc0) as (k & Hk & SW). exists k. split; [lia|exact SW].
  - intros [[[p1 p2] [q1 q2]] ch] (S1 & S2 & S3 & S4 & S5 & S6 & S7 & S8 & S9 & S10). auto 10.
Qed.
Lemma rect_crossover_ok c1 c2 : wf_rect c1 -> wf_rect c2 ->
  rt (rect_crossover K P c1 c2) (fun r => let '(d1, d2, ch) := r in wf_rect d1 /\ wf_rect d2 /\
    r_mu d1 = r_mu c1 /\ r_mu d2 = r_mu c2 /\
    exchanged f0 xd (r_b1 c1) (r_b1 c2) (r_b1 d1) (r_b1 d2) /\ exchanged f0 xd (r_b2 c1) (r_b2 c2) (r_b2 d1) (r_b2 d2) /\
    (ch = false -> d1 = c1 /\ d2 = c2) /\
    (ch = true -> (exists u, u01 u /\ flt u (ea_p_crossover P) = true) /\ exists i, 0 <= i < xd /\
       ((at_ f0 (r_b1 d1) i = at_ f0 (r_b1 c2) i /\ at_ f0 (r_b1 d2) i = at_ f0 (r_b1 c1) i) \/
        (at_ f0 (r_b2 d1) i = at_ f0 (r_b2 c2) i /\ at_ f0 (r_b2 d2) i = at_ f0 (r_b2 c1) i)))).
Proof.
  intros (A1 & A2 & A3) (B1 & B2 & B3). unfold rect_crossover. eapply rt_bind; [apply (rt_draw01 J K Zok SR)|]. intros u Hu.
  destruct (flt u (ea_p_crossover P)) eqn:E.
  - eapply rt_bind; [apply swap_arrays_ok; assumption|]. intros [[[p1 p2] [q1 q2]] ch] (S1 & S2 & S3 & S4 & S5 & S6 & S7 & S8).
    apply rt_ret. cbn [r_b1 r_b2 r_mu]. split; [split; [exact S1|split; assumption]|]. split; [split; [exact S3|split; assumption]|].
    split; [reflexivity|]. split; [reflexivity|]. split; [exact S5|]. split; [exact S6|]. split.
    + intros Hc. destruct (S7 Hc) as (-> & -> & -> & ->). destruct c1, c2. auto.
    + intros Hc. split; [eauto|exact (S8 Hc)].
  - apply rt_ret. split; [split; [exact A1|split; assumption]|]. split; [split; [exact B1|split; assumption]|].
    split; [reflexivity|]. split; [reflexivity|]. split; [intros i _; auto|]. split; [intros i _; auto|]. split; [auto|discriminate].
Qed.

(** ** Mutation. *)
Definition nudged (fx : f64 -> f64) (m0 : f64) (a v : f64) : Prop :=
  exists z, Zok z /\ v = fx (fadd a (fadd (fmul z m0) f0)).
Lemma mutate_arrays_ok fx1 fx2 m0 b1 b2 : len b1 = xd -> len b2 = xd ->
  rt (mutate_arrays K fx1 fx2 m0 b1 b2) (fun r => let '(p1, p2, ch) := r in len p1 = xd /\ len p2 = xd /\
    (forall i, 0 <= i < xd -> nudged fx1 m0 (at_ f0 b1 i) (at_ f0 p1 i) /\ nudged fx2 m0 (at_ f0 b2 i) (at_ f0 p2 i)) /\
    (ch = true <-> exists i, 0 <= i < xd /\ (feq (at_ f0 b1 i) (at_ f0 p1 i) = false \/ feq (at_ f0 b2 i) (at_ f0 p2 i) = false))).
Proof.
  intros L1 L2. unfold mutate_arrays.
  eapply rt_for_mono with (I := fun n r => let '(p1, p2, ch) := r in len p1 = xd /\ len p2 = xd /\
    (forall i, 0 <= i < n -> nudged fx1 m0 (at_ f0 b1 i) (at_ f0 p1 i) /\ nudged fx2 m0 (at_ f0 b2 i) (at_ f0 p2 i)) /\
    (forall i, n <= i < xd -> at_ f0 p1 i = at_ f0 b1 i /\ at_ f0 p2 i = at_ f0 b2 i) /\
    (ch = true <-> exists i, 0 <= i < n /\ (feq (at_ f0 b1 i) (at_ f0 p1 i) = false \/ feq (at_ f0 b2 i) (at_ f0 p2 i) = false))).
  - lia.
  - split; [exact L1|]. split; [exact L2|]. split; [intros; lia|]. split; [auto|]. split; [discriminate|intros (i & Hi & _); lia].
  - intros i [[p1 p2] ch] Hi (S1 & S2 & S3 & S4 & S5). destruct (S4 i ltac:(lia)) as (R1 & R2).
    eapply rt_bind_lift; [apply (rd_ok f0); lia|]. rewrite R1.
    eapply rt_bind; [apply (rt_normal J (lm K) Zok SR)|]. intros z1 (y1 & Y1 & ->).
    set (v1 := fx1 (fadd (at_ f0 b1 i) (fadd (fmul y1 m0) f0))).
    destruct (wr_ok p1 i v1 ltac:(lia)) as (p1' & E1 & (A1 & A2 & A3 & A4)). eapply rt_bind_lift; [exact E1|].
    eapply rt_bind_lift; [apply (rd_ok f0); lia|]. rewrite R2.
    eapply rt_bind; [apply (rt_normal J (lm K) Zok SR)|]. intros z2 (y2 & Y2 & ->).
    set (v2 := fx2 (fadd (at_ f0 b2 i) (fadd (fmul y2 m0) f0))).
    destruct (wr_ok p2 i v2 ltac:(lia)) as (p2' & E2 & (B1 & B2 & B3 & B4)). eapply rt_bind_lift; [exact E2|].
    apply rt_ret. split; [congruence|]. split; [congruence|]. split; [|split].
    + intros k Hk. destruct (Z.eq_dec k i) as [-> |D].
      * rewrite A2, B2. split; [exists y1; auto|exists y2; auto].
      * rewrite A3, B3 by lia. apply S3. lia.
    + intros k Hk. rewrite A3, B3 by lia. apply S4. lia.
    + unfold fne. fold (feq (at_ f0 b2 i) v2) (feq (at_ f0 b1 i) v1). assert (KEEP : forall k, 0 <= k < i -> at_ f0 p1' k = at_ f0 p1 k /\ at_ f0 p2' k = at_ f0 p2 k).
      { intros k Hk. rewrite A3, B3 by lia. auto. }
      split.
      * intros H. destruct (feq (at_ f0 b2 i) v2) eqn:Q2; [|exists i; split; [lia|]; right; rewrite B2; exact Q2].
        destruct (feq (at_ f0 b1 i) v1) eqn:Q1; [|exists i; split; [lia|]; left; rewrite A2; exact Q1].
        cbn [negb] in H. destruct (proj1 S5 H) as (k & Hk & D). exists k. split; [lia|]. destruct (KEEP k Hk) as (-> & ->). exact D.
      * intros (k & Hk & D). destruct (Z.eq_dec k i) as [-> |NE].
        -- rewrite A2, B2 in D. destruct D as [D|D].
           ++ destruct (feq (at_ f0 b2 i) v2); cbn [negb]; [|reflexivity]. rewrite D. reflexivity.
           ++ rewrite D. reflexivity.
        -- destruct (KEEP k ltac:(lia)) as (Q1 & Q2). rewrite Q1, Q2 in D.
           assert (ch = true) as -> by (apply S5; exists k; split; [lia|exact D]).
           destruct (feq (at_ f0 b2 i) v2), (feq (at_ f0 b1 i) v1); reflexivity.
  - intros [[p1 p2] ch] (S1 & S2 & S3 & S4 & S5). auto.
Qed.
Lemma rect_mutate_gen (Qm : list f64 -> Prop) c : wf_rect c ->
  rt (sam_adapt (lm K) mu_type1 (r_mu c)) (fun mu => length mu = 1%nat /\ Qm mu) ->
  rt (rect_mutate K P c) (fun r => let '(d, ch) := r in wf_rect d /\ Qm (r_mu d) /\
    (forall i, 0 <= i < xd ->
      nudged (fun v => clamp v (cp_min P) (cp_max P)) (at_ f0 (r_mu d) 0) (at_ f0 (r_b1 c) i) (at_ f0 (r_b1 d) i) /\
      nudged (fun v => if cp_type P =? COND_TYPE_HYPERRECTANGLE_CSR then fmax dbl_epsilon v else clamp v (cp_min P) (cp_max P))
        (at_ f0 (r_mu d) 0) (at_ f0 (r_b2 c) i) (at_ f0 (r_b2 d) i)) /\
    (ch = true <-> exists i, 0 <= i < xd /\
       (feq (at_ f0 (r_b1 c) i) (at_ f0 (r_b1 d) i) = false \/ feq (at_ f0 (r_b2 c) i) (at_ f0 (r_b2 d) i) = false))).
Proof.
  intros (W1 & W2 & W3) SA. unfold rect_mutate. eapply rt_bind; [exact SA|]. intros mu (Lmu & Qmu).
  eapply rt_bind_lift; [apply (rd_ok f0); unfold len; lia|].
  eapply rt_bind; [apply mutate_arrays_ok; assumption|]. intros [[p1 p2] ch] (S1 & S2 & S3 & S4).
  apply rt_ret. cbn [r_b1 r_b2 r_mu]. split; [split; [exact S1|split; [exact S2|exact Lmu]]|]. split; [exact Qmu|]. split; [|exact S4].
  intros i Hi. destruct (S3 i Hi) as (T1 & (z & Z1 & E)). split; [exact T1|]. exists z. split; [exact Z1|]. rewrite E. unfold csr.
  destruct (cp_type P =? COND_TYPE_HYPERRECTANGLE_CSR); reflexivity.
Qed.
End Rect.
