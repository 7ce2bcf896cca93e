(** * Ternary conditions: generality is exactly strict inclusion (C21). *)
From Coq Require Import ZArith Bool List Lia Reals Lra.
From Flocq Require Import Core BinarySingleNaN.
From Verif Require Import Outcome F64 F64Facts F64Bounds Rng RngFacts Pop PopSpec Arr ArrFacts Sam SamFacts Cond TernFacts RandInt PredFacts.
Import ListNotations.
Open Scope Z_scope.

(** Any digits are those of some number. *)
Lemma digits_exist (f : Z -> Z) : (forall j, f j = 0 \/ f j = 1) -> forall n : nat,
  exists v, 0 <= v < 2 ^ Z.of_nat n /\ forall j, 0 <= j < Z.of_nat n -> (v / 2 ^ (Z.of_nat n - 1 - j)) mod 2 = f j.
Proof.
  intros F. induction n as [|n (v & Hv & D)]; [exists 0; split; [cbn; lia|intros j Hj; lia]|].
  exists (2 * v + f (Z.of_nat n)). split.
  - rewrite Nat2Z.inj_succ, Z.pow_succ_r by lia. destruct (F (Z.of_nat n)); lia.
  - intros j Hj. destruct (Z.eq_dec j (Z.of_nat n)) as [->|N].
    + replace (Z.of_nat (S n) - 1 - Z.of_nat n) with 0 by lia. rewrite Z.pow_0_r, Z.div_1_r.
      rewrite Z.add_comm, Z.mul_comm, Z.mod_add by lia. destruct (F (Z.of_nat n)) as [-> | ->]; reflexivity.
    + replace (Z.of_nat (S n) - 1 - j) with (Z.succ (Z.of_nat n - 1 - j)) by lia. rewrite Z.pow_succ_r by lia.
      rewrite <- Z.div_div by (try apply Z.pow_pos_nonneg; lia).
      replace ((2 * v + f (Z.of_nat n)) / 2) with v; [apply D; lia|].
      apply (Z.div_unique_pos _ _ _ (f (Z.of_nat n))); destruct (F (Z.of_nat n)); lia.
Qed.

(** Any digits are the encoding of some input. *)
Lemma encode_exist bits (f : Z -> Z) : 1 <= bits <= 31 -> (forall j, f j = 0 \/ f j = 1) ->
  exists x : f64, is_finite x = true /\ forall j, 0 <= j < bits -> enc_bit bits x j = f j.
Proof.
  intros HB F. destruct (digits_exist f F (Z.to_nat bits)) as (v & Hv & D). rewrite Z2Nat.id in Hv, D by lia.
  set (x := binary_normalize 53 1024 eq_refl eq_refl mode_NE v (- bits) false).
  assert (BB : 2 ^ bits <= 2 ^ 31) by (apply Z.pow_le_mono_r; lia).
  pose proof (binary_normalize_correct 53 1024 eq_refl eq_refl mode_NE v (- bits) false) as H. cbv zeta in H.
  change (round_mode mode_NE) with ZnearestE in H. fold x in H.
  assert (E : F2R (Float radix2 v (- bits)) = (IZR v * bpow radix2 (- bits))%R) by reflexivity. rewrite E in H.
  assert (FM : fmt64 (IZR v * bpow radix2 (- bits))).
  { replace (- bits) with ((52 - bits) - 52) by lia. apply fmt_grid; lia. }
  rewrite round_generic in H; [|typeclasses eauto|exact FM].
  assert (PB : (0 < bpow radix2 (- bits))%R) by apply bpow_gt_0.
  assert (P1 : (IZR (2 ^ bits) * bpow radix2 (- bits) = 1)%R) by (rewrite pow2_R, <- bpow_plus by lia; replace (bits + - bits) with 0 by lia; reflexivity).
  assert (VR : (0 <= IZR v < IZR (2 ^ bits))%R) by (split; [apply IZR_le|apply IZR_lt]; lia).
  assert (B1 : (1 < bnd)%R) by (apply (bpow_lt radix2 0 1024); lia).
  rewrite Rlt_bool_true in H by (rewrite Rabs_pos_eq; nra). destruct H as (EX & FX & _).
  exists x. split; [exact FX|]. intros j Hj. unfold enc_bit.
  assert (NX : nn x) by now apply fin_nn.
  assert (X01 : (0 <= B2R x < 1)%R) by (rewrite EX; nra).
  assert (G1 : fge x f1 = false).
  { unfold fge. apply fle_X_false; [reflexivity|exact NX|]. rewrite !X_finite by (try exact FX; apply f1_fin). rewrite f1_R. lra. }
  rewrite G1. rewrite <- (D j Hj).
  assert (FL : Zfloor (B2R x * IZR (2 ^ bits)) = v).
  { rewrite EX, Rmult_assoc, (Rmult_comm (bpow _ _)), P1, Rmult_1_r. apply Zfloor_IZR. }
  destruct (fle x f0) eqn:E0.
  - apply fle_X in E0; [|exact NX|reflexivity]. rewrite !X_finite in E0 by (try exact FX; apply f0_fin). rewrite f0_R in E0.
    assert (v = 0) as ->; [|rewrite Z.div_0_l; [reflexivity|apply Z.pow_nonzero; lia]].
    rewrite <- FL. replace (B2R x) with 0%R by lra. rewrite Rmult_0_l. apply (Zfloor_IZR 0).
  - rewrite FL. reflexivity.
Qed.

Section C21.
Context (K : cfg) (P : cpar) (HX : 1 <= x_dim K) (HB : 1 <= cp_bits P <= 31)
  (HP : m_pow (lm K) f2 (of_Z (cp_bits P)) = of_Z (2 ^ cp_bits P)).
Notation bits := (cp_bits P).
Notation xd := (x_dim K).

Lemma C21_cover_lemma c x : wf_tern K P c -> len x = xd -> Forall nn x ->
  rt (fun _ => True) (ternary_cover K P c x) (fun c' => wf_tern K P c' /\ t_mu c' = t_mu c /\ ternary_match K P c' x = Ok true /\
    forall i j, 0 <= i < xd -> 0 <= j < bits -> cover_char P x i j (at_ 0 (t_string c') (i * bits + j))).
Proof.
  intros W L N. eapply rt_mono; [exact (ternary_cover_ok _ K P _ (src_any (lm K)) HX HB HP c x W L N)|].
  intros c' (W' & M & C). split; [exact W'|]. split; [exact M|]. split; [|exact C].
  destruct (ternary_match_ok K P HX HB HP c' x W' L N) as (b & E & I).
  rewrite E. f_equal. apply I. exact (cover_accepts K P x _ C).
Qed.

(** Matching is agreement of every specified character with the digit of the input. *)
Lemma C21_match_lemma c x : wf_tern K P c -> len x = xd -> Forall nn x ->
  exists b, ternary_match K P c x = Ok b /\ (b = true <-> accepts xd bits (t_string c) x).
Proof. intros W L N. exact (ternary_match_ok K P HX HB HP c x W L N). Qed.

(** An input accepted by a string, with a chosen digit at an open position. *)
Lemma accepted_input s p b : Forall trit s -> len s = xd * bits -> 0 <= p < xd * bits -> b = 0 \/ b = 1 ->
  at_ 0 s p = DONT_CARE \/ at_ 0 s p = ch0 + b ->
  exists x, len x = xd /\ Forall (fun v => is_finite v = true) x /\ accepts xd bits s x /\
    forall i j, 0 <= i < xd -> 0 <= j < bits -> i * bits + j = p -> enc_bit bits (at_ f0 x i) j = b.
Proof.
  intros T L Hp Hb Op.
  set (f := fun i j => if i * bits + j =? p then b else if at_ 0 s (i * bits + j) =? ch1 then 1 else 0).
  assert (F01 : forall i j, f i j = 0 \/ f i j = 1).
  { intros i j. unfold f. destruct (_ =? p); [exact Hb|]. destruct (_ =? ch1); auto. }
  assert (BLD : forall n : nat, exists x, length x = n /\ Forall (fun v : f64 => is_finite v = true) x /\
    forall i, 0 <= i < Z.of_nat n -> forall j, 0 <= j < bits -> enc_bit bits (at_ f0 x i) j = f i j).
  { induction n as [|n (x & Lx & Fx & Dx)]; [exists []; split; [reflexivity|split; [constructor|intros; lia]]|].
    destruct (encode_exist bits (f (Z.of_nat n)) HB (F01 (Z.of_nat n))) as (v & Fv & Dv).
    exists (x ++ [v]). split; [rewrite app_length; cbn; lia|]. split; [apply Forall_app; auto|].
    intros i Hi j Hj. destruct (Z.eq_dec i (Z.of_nat n)) as [->|N].
    - unfold at_. rewrite app_nth2 by lia. replace (Z.to_nat (Z.of_nat n) - length x)%nat with 0%nat by lia. cbn [nth]. now apply Dv.
    - unfold at_. rewrite app_nth1 by lia. apply Dx; lia. }
  destruct (BLD (Z.to_nat xd)) as (x & Lx & Fx & Dx). rewrite Z2Nat.id in Dx by lia.
  exists x. split; [change (Z.of_nat (length (x : list f64)) = xd); rewrite <- (Z2Nat.id xd) by lia; f_equal; exact Lx|]. split; [exact Fx|]. split.
  - intros i j Hi Hj. rewrite Dx by assumption. pose proof (pos_lt K P HB i j Hi Hj) as Q.
    unfold f. destruct (Z.eqb_spec (i * bits + j) p) as [->|N]; [exact Op|].
    assert (TR : trit (at_ 0 s (i * bits + j))).
    { apply (proj1 (Forall_forall trit s) T). apply nth_In. unfold len in L. lia. }
    destruct TR as [-> | [-> | ->]]; [right|right|left]; reflexivity.
  - intros i j Hi Hj E. rewrite Dx by assumption. unfold f. rewrite (proj2 (Z.eqb_eq _ _) E). reflexivity.
Qed.

(** One condition is reported more general than another iff it accepts strictly more inputs. *)
Lemma C21_general_lemma c1 c2 : wf_tern K P c1 -> wf_tern K P c2 ->
  exists b, ternary_general c1 c2 = Ok b /\
    (b = true <->
      (forall x, len x = xd -> Forall (fun v => is_finite v = true) x -> ternary_match K P c2 x = Ok true -> ternary_match K P c1 x = Ok true) /\
      (exists x, len x = xd /\ Forall (fun v => is_finite v = true) x /\ ternary_match K P c1 x = Ok true /\ ternary_match K P c2 x = Ok false)).
Proof.
  intros W1 W2. destruct (ternary_general_ok K P HB c1 c2 W1 W2) as (b & E & I). exists b. split; [exact E|]. rewrite I. clear E I b.
  destruct W1 as (L1 & T1 & M1), W2 as (L2 & T2 & M2).
  assert (NN : forall x, Forall (fun v : f64 => is_finite v = true) x -> Forall nn x).
  { intros x Fx. eapply Forall_impl; [|exact Fx]. intros v Fv. now apply fin_nn. }
  assert (MA : forall c x, wf_tern K P c -> len x = xd -> Forall (fun v => is_finite v = true) x -> (ternary_match K P c x = Ok true <-> accepts xd bits (t_string c) x)).
  { intros c x W L Fx. destruct (ternary_match_ok K P HX HB HP c x W L (NN x Fx)) as (b & E & I). rewrite E, <- I. split; [now intros [= ->]|now intros ->]. }
  assert (MF : forall c x, wf_tern K P c -> len x = xd -> Forall (fun v => is_finite v = true) x -> ~ accepts xd bits (t_string c) x -> ternary_match K P c x = Ok false).
  { intros c x W L Fx A. destruct (ternary_match_ok K P HX HB HP c x W L (NN x Fx)) as (b & E & I). rewrite E. f_equal. destruct b; [|reflexivity]. elim A. now apply I. }
  assert (W1 : wf_tern K P c1) by now split. assert (W2 : wf_tern K P c2) by now split.
  assert (TR : forall s p, Forall trit s -> 0 <= p < len s -> trit (at_ 0 s p)).
  { intros s p T Hp. apply (proj1 (Forall_forall trit s) T). apply nth_In. unfold len in Hp. lia. }
  assert (POS : forall p, 0 <= p < xd * bits -> exists i j, 0 <= i < xd /\ 0 <= j < bits /\ i * bits + j = p).
  { intros p Hp. exists (p / bits), (p mod bits). pose proof (Z.mod_pos_bound p bits ltac:(lia)). pose proof (Z.div_mod p bits ltac:(lia)).
    split; [split; [apply Z.div_pos; lia|apply Z.div_lt_upper_bound; nia]|]. split; [lia|nia]. }
  split.
  - intros (S & NE). split.
    + intros x L Fx A. apply MA in A; [|assumption..]. apply MA; [assumption..|]. exact (subsumes_accepts K P HB (t_string c1) (t_string c2) x L1 (conj S NE) A).
    + (* a position where they differ: c1 is open there, c2 is not *)
      assert (D : exists p, 0 <= p < xd * bits /\ at_ 0 (t_string c1) p <> at_ 0 (t_string c2) p).
      { assert (D0 : forall n : nat, Z.of_nat n <= xd * bits -> (forall p, 0 <= p < Z.of_nat n -> at_ 0 (t_string c1) p = at_ 0 (t_string c2) p) \/
          exists p, 0 <= p < xd * bits /\ at_ 0 (t_string c1) p <> at_ 0 (t_string c2) p).
        { induction n as [|n IH]; intros Hn; [left; intros; lia|]. destruct IH as [A|A]; [lia| |now right].
          destruct (Z.eq_dec (at_ 0 (t_string c1) (Z.of_nat n)) (at_ 0 (t_string c2) (Z.of_nat n))) as [E|E].
          - left. intros p Hp. destruct (Z.eq_dec p (Z.of_nat n)) as [->|]; [exact E|apply A; lia].
          - right. exists (Z.of_nat n). split; [lia|exact E]. }
        destruct (D0 (Z.to_nat (xd * bits))) as [A|A]; [nia| |exact A].
        elim NE. apply (list_ext 0); [congruence|]. intros i Hi. apply A. nia. }
      destruct D as (p & Hp & DP).
      assert (O1 : at_ 0 (t_string c1) p = DONT_CARE) by (destruct (S p ltac:(lia)); [assumption|contradiction]).
      assert (C2 : exists b, (b = 0 \/ b = 1) /\ at_ 0 (t_string c2) p = ch0 + (1 - b)).
      { destruct (TR (t_string c2) p T2 ltac:(lia)) as [A|[A|A]].
        - exists 1. split; [auto|]. exact A.
        - exists 0. split; [auto|]. exact A.
        - congruence. }
      destruct C2 as (b & Hb & A2).
      destruct (accepted_input (t_string c1) p b T1 L1 Hp Hb (or_introl O1)) as (x & Lx & Fx & AX & DX).
      exists x. split; [exact Lx|]. split; [exact Fx|]. split; [apply MA; assumption|]. apply MF; [assumption..|].
      intros A. destruct (POS p Hp) as (i & j & Hi & Hj & E). specialize (A i j Hi Hj). rewrite E, (DX i j Hi Hj E), A2 in A.
      unfold ch0, DONT_CARE in A. destruct Hb as [-> | ->], A; discriminate.
  - intros (INC & (x & Lx & Fx & X1 & X2)). split.
    + intros p Hp. rewrite L1 in Hp.
      destruct (TR (t_string c1) p T1 ltac:(lia)) as [A|[A|A]]; [| |now left];
      (destruct (Z.eq_dec (at_ 0 (t_string c1) p) (at_ 0 (t_string c2) p)) as [Q|Q]; [now right|exfalso]).
      * assert (O2 : at_ 0 (t_string c2) p = DONT_CARE \/ at_ 0 (t_string c2) p = ch0 + 1).
        { destruct (TR (t_string c2) p T2 ltac:(lia)) as [A2|[A2|A2]]; [congruence|now right|now left]. }
        destruct (accepted_input (t_string c2) p 1 T2 L2 Hp (or_intror eq_refl) O2) as (z & Lz & Fz & AZ & DZ).
        assert (C : accepts xd bits (t_string c1) z) by (apply MA; [assumption..|]; apply INC; [assumption..|]; apply MA; assumption).
        destruct (POS p Hp) as (i & j & Hi & Hj & E). specialize (C i j Hi Hj). rewrite E, (DZ i j Hi Hj E), A in C. destruct C; discriminate.
      * assert (O2 : at_ 0 (t_string c2) p = DONT_CARE \/ at_ 0 (t_string c2) p = ch0 + 0).
        { destruct (TR (t_string c2) p T2 ltac:(lia)) as [A2|[A2|A2]]; [now right|congruence|now left]. }
        destruct (accepted_input (t_string c2) p 0 T2 L2 Hp (or_introl eq_refl) O2) as (z & Lz & Fz & AZ & DZ).
        assert (C : accepts xd bits (t_string c1) z) by (apply MA; [assumption..|]; apply INC; [assumption..|]; apply MA; assumption).
        destruct (POS p Hp) as (i & j & Hi & Hj & E). specialize (C i j Hi Hj). rewrite E, (DZ i j Hi Hj E), A in C. destruct C; discriminate.
    + intros EQ. apply MA in X1; [|assumption..]. rewrite EQ in X1. assert (X3 : ternary_match K P c2 x = Ok true) by (apply MA; assumption). congruence.
Qed.

Lemma C21_order_lemma c1 c2 c3 : wf_tern K P c1 -> wf_tern K P c2 -> wf_tern K P c3 ->
  (ternary_general c1 c2 = Ok true -> ternary_general c2 c1 = Ok false /\ t_string c1 <> t_string c2) /\
  (ternary_general c1 c2 = Ok true -> ternary_general c2 c3 = Ok true -> ternary_general c1 c3 = Ok true).
Proof.
  intros W1 W2 W3. destruct (ternary_general_ok K P HB c1 c2 W1 W2) as (b12 & E12 & I12).
  destruct (ternary_general_ok K P HB c2 c1 W2 W1) as (b21 & E21 & I21).
  destruct (ternary_general_ok K P HB c2 c3 W2 W3) as (b23 & E23 & I23).
  destruct (ternary_general_ok K P HB c1 c3 W1 W3) as (b13 & E13 & I13).
  assert (L12 : len (t_string c1) = len (t_string c2)) by (rewrite (proj1 W1), (proj1 W2); reflexivity).
  assert (L23 : len (t_string c2) = len (t_string c3)) by (rewrite (proj1 W2), (proj1 W3); reflexivity).
  split.
  - rewrite E12, E21. intros [= ->]. pose proof (proj1 I12 eq_refl) as S. split; [|exact (proj2 S)].
    f_equal. destruct b21; [|reflexivity]. elim (subsumes_asym P HB _ _ L12 S (proj1 I21 eq_refl)).
  - rewrite E12, E23, E13. intros [= ->] [= ->]. f_equal. apply I13.
    exact (subsumes_trans P HB _ _ _ L12 L23 (proj1 I12 eq_refl) (proj1 I23 eq_refl)).
Qed.
End C21.
