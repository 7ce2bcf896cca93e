(** * Ternary conditions. *)
From Coq Require Import ZArith Bool List Lia Reals Lra Znumtheory.
From Flocq Require Import Core BinarySingleNaN.
From Verif Require Import Outcome F64 F64Facts F64Bounds Rng RngFacts Pop PopSpec Arr ArrFacts Sam SamFacts Cond.
Import ListNotations.
Open Scope Z_scope.

(** ** Specification. *)
Definition trit (c : Z) : Prop := c = ch0 \/ c = ch1 \/ c = DONT_CARE.

(** The [j]-th most significant of [bits] binary digits of x, with x >= 1 read as all ones
    and x <= 0 as all zeros. *)
Definition enc_bit (bits : Z) (x : f64) (j : Z) : Z :=
  if fge x f1 then 1 else if fle x f0 then 0
  else (Zfloor (B2R x * IZR (2 ^ bits)) / 2 ^ (bits - 1 - j)) mod 2.

(** A string of x_dim * bits characters accepts x: every character is a don't care or the
    corresponding digit. *)
Definition accepts (xdim bits : Z) (s : list Z) (x : list f64) : Prop :=
  forall i j, 0 <= i < xdim -> 0 <= j < bits ->
    at_ 0 s (i * bits + j) = DONT_CARE \/ at_ 0 s (i * bits + j) = ch0 + enc_bit bits (at_ f0 x i) j.

(** A draw from the open unit interval. *)
Definition u01 (u : f64) : Prop := is_finite u = true /\ (0 < B2R u < 1)%R.

(** ** Binary encoding. *)
Lemma scale_fmt x e : fmt64 x -> 0 <= e -> fmt64 (x * bpow radix2 e)%R.
Proof.
  intros H He. apply generic_format_FLT. apply FLT_format_generic in H; [|reflexivity].
  destruct H as [[m k] E1 E2 E3]. cbn in E2, E3. exists (Float radix2 m (k + e)); cbn; try assumption; try lia.
  rewrite E1. unfold F2R. cbn [Fnum Fexp]. rewrite bpow_plus. ring.
Qed.
Lemma btrunc_R (x : f64) : Btrunc x = Ztrunc (B2R x).
Proof.
  apply eq_IZR. rewrite Btrunc_correct by reflexivity. apply round_FIX_IZR.
Qed.
Lemma pow2_R n : 0 <= n -> IZR (2 ^ n) = bpow radix2 n.
Proof. intros H. change 2 with (radix_val radix2) at 1. apply IZR_Zpower. exact H. Qed.

Lemma scaled_int (x : f64) bits : nn x -> fge x f1 = false -> fle x f0 = false -> 0 <= bits <= 31 ->
  to_int (fmul x (of_Z (2 ^ bits))) = Some (Zfloor (B2R x * IZR (2 ^ bits))) /\
  0 <= Zfloor (B2R x * IZR (2 ^ bits)) < 2 ^ bits.
Proof.
  intros N H1 H0 Hb.
  assert (PB : 1 <= 2 ^ bits <= 2 ^ 31) by (split; [change 1 with (2 ^ 0)|]; apply Z.pow_le_mono_r; lia).
  apply fle_X_false in H0; [|exact N|reflexivity]. unfold fge in H1. apply (fle_X_false f1 x) in H1; [|reflexivity|exact N].
  rewrite X_f0 in H0. rewrite X_f1 in H1.
  assert (F : is_finite x = true) by (apply nn_X_finite; [exact N|]; pose proof one_lt_bnd; lra).
  rewrite X_finite in H0, H1 by exact F.
  destruct (of_Z_fin (2 ^ bits) ltac:(lia)) as (F2 & E2).
  assert (PR : (1 <= IZR (2 ^ bits))%R) by (apply IZR_le; lia).
  set (p := (B2R x * IZR (2 ^ bits))%R) in *.
  assert (Bp : (0 < p < IZR (2 ^ bits))%R) by (unfold p; split; nra).
  assert (FMT : fmt64 p) by (unfold p; rewrite pow2_R by lia; apply scale_fmt; [apply fmt_B2R|lia]).
  assert (RP : rnd p = p) by (apply round_generic; [apply valid_rnd_N|exact FMT]).
  assert (LB : (IZR (2 ^ bits) < bnd)%R) by (apply (lt_bnd (2 ^ bits)); lia).
  destruct (fmul_R x (of_Z (2 ^ bits)) F F2) as (F3 & E3).
  { rewrite E2. fold p. rewrite RP. rewrite Rabs_pos_eq; lra. }
  rewrite E2 in E3. fold p in E3. rewrite RP in E3.
  assert (ZF : 0 <= Zfloor p < 2 ^ bits).
  { split; [apply Zfloor_lub; cbn; lra|]. apply lt_IZR. apply Rle_lt_trans with p; [apply Zfloor_lb|lra]. }
  split; [|exact ZF]. unfold to_int. rewrite F3. rewrite btrunc_R, E3.
  rewrite Ztrunc_floor by lra. unfold in_int, int_min, int_max. 
  destruct (Z.leb_spec (- 2 ^ 31) (Zfloor p)); [|lia]. destruct (Z.leb_spec (Zfloor p) (2 ^ 31 - 1)); [reflexivity|lia].
Qed.

Lemma digits_len n : forall a acc, len (digits n a acc) = Z.of_nat n + len acc.
Proof.
  induction n as [|n IH]; intros a acc; cbn [digits]; [reflexivity|].
  rewrite IH. unfold len. cbn [length]. lia.
Qed.
Lemma digits_at n : forall a acc j, 0 <= a -> 0 <= j < Z.of_nat n + len acc ->
  at_ 0 (digits n a acc) j = if j <? Z.of_nat n then ch0 + (a / 2 ^ (Z.of_nat n - 1 - j)) mod 2 else at_ 0 acc (j - Z.of_nat n).
Proof.
  induction n as [|n IH]; intros a acc j Ha Hj.
  - cbn [digits]. destruct (Z.ltb_spec j (Z.of_nat 0)); [lia|]. f_equal. lia.
  - cbn [digits]. rewrite Z.quot_div_nonneg, Z.rem_mod_nonneg by lia.
    rewrite IH; [|apply Z.div_pos; lia|unfold len in *; cbn [length]; lia].
    destruct (Z.ltb_spec j (Z.of_nat n)) as [L|L].
    + destruct (Z.ltb_spec j (Z.of_nat (S n))); [|lia].
      rewrite Z.div_div by (try apply Z.pow_pos_nonneg; lia).
      replace (2 * 2 ^ (Z.of_nat n - 1 - j)) with (2 ^ (Z.of_nat (S n) - 1 - j)); [reflexivity|].
      rewrite <- Z.pow_succ_r by lia. f_equal. lia.
    + destruct (Z.ltb_spec j (Z.of_nat (S n))) as [L2|L2].
      * replace (j - Z.of_nat n) with 0 by lia. replace (Z.of_nat (S n) - 1 - j) with 0 by lia.
        rewrite Z.pow_0_r, Z.div_1_r. unfold at_. cbn [Z.to_nat nth]. apply Z.add_comm.
      * unfold at_. replace (Z.to_nat (j - Z.of_nat n)) with (S (Z.to_nat (j - Z.of_nat (S n)))) by lia. reflexivity.
Qed.

Lemma at_repeat {A} (d a : A) n j : 0 <= j < n -> at_ d (repeat a (Z.to_nat n)) j = a.
Proof.
  intros H. unfold at_. assert (L : (Z.to_nat j < Z.to_nat n)%nat) by lia. revert L. generalize (Z.to_nat j).
  induction (Z.to_nat n) as [|k IH]; intros [|i] L; cbn; try lia; [reflexivity|apply IH; lia].
Qed.

Section Bin.
Context (lm : libm) (bits : Z) (HB : 1 <= bits <= 31) (HP : m_pow lm f2 (of_Z bits) = of_Z (2 ^ bits)).
Lemma float_to_binary_ok x : nn x -> exists tmp, float_to_binary lm x bits = Ok tmp /\ len tmp = bits /\
  forall j, 0 <= j < bits -> at_ 0 tmp j = ch0 + enc_bit bits x j.
Proof.
  intros N. unfold float_to_binary, enc_bit. destruct (fge x f1) eqn:E1.
  - eexists. split; [reflexivity|]. split; [apply len_repeat; lia|]. intros j Hj. rewrite at_repeat by lia. reflexivity.
  - destruct (fle x f0) eqn:E0.
    + eexists. split; [reflexivity|]. split; [apply len_repeat; lia|]. intros j Hj. rewrite at_repeat by lia. reflexivity.
    + rewrite HP. destruct (scaled_int x bits N E1 E0 ltac:(lia)) as (-> & B).
      eexists. split; [reflexivity|]. split; [rewrite digits_len; unfold len; cbn; lia|].
      intros j Hj. rewrite digits_at by (unfold len; cbn; lia).
      replace (Z.of_nat (Z.to_nat bits)) with bits by lia. destruct (Z.ltb_spec j bits); [reflexivity|lia].
Qed.
Lemma enc_bit_01 x j : enc_bit bits x j = 0 \/ enc_bit bits x j = 1.
Proof.
  unfold enc_bit. destruct (fge x f1); [auto|]. destruct (fle x f0); [auto|].
  pose proof (Z.mod_pos_bound (Zfloor (B2R x * IZR (2 ^ bits)) / 2 ^ (bits - 1 - j)) 2 ltac:(lia)). lia.
Qed.
End Bin.

(** [float_to_binary] of a number in (0,1) with 32 bits overflows the int conversion. *)
Lemma trit_bit bits x j : trit (ch0 + enc_bit bits x j).
Proof. destruct (enc_bit_01 bits x j) as [-> | ->]; [left|right; left]; reflexivity. Qed.

(** ** The operations. *)
Ltac spl7 := repeat match goal with |- _ /\ _ => split end; try assumption; try reflexivity; try (intros; lia).
Section Tern.
Context (J : rng -> Prop) (K : cfg) (P : cpar) (Zok : f64 -> Prop) (SR : src (lm K) J Zok).
Context (HX : 1 <= x_dim K) (HB : 1 <= cp_bits P <= 31)
  (HP : m_pow (lm K) f2 (of_Z (cp_bits P)) = of_Z (2 ^ cp_bits P)).
Notation rt := (rt J).
Notation xd := (x_dim K).
Notation bits := (cp_bits P).

Definition wf_tern (c : ternary) : Prop :=
  len (t_string c) = xd * bits /\ Forall trit (t_string c) /\ length (t_mu c) = 1%nat.

Lemma rt_draw01 : rt draw01 u01.
Proof.
  intros g G. pose proof (rand_01 g) as T. unfold draw01. destruct (rand_uniform f0 f1 g) as [[v g']| | |]; try contradiction.
  destruct T as (F & B & ->). exists v, (advance g). split; [reflexivity|]. split; [|split; assumption].
  destruct g. apply (src_draw _ _ _ SR). exact G.
Qed.
Lemma scheme1 : Forall scheme_ok mu_type1. Proof. repeat constructor. Qed.

(** One random character: '#' only when a draw is below p_dontcare. *)
Definition rand_char (c : Z) : Prop :=
  (c = DONT_CARE /\ exists u, u01 u /\ flt u (cp_p_dontcare P) = true) \/
  ((exists u, u01 u /\ flt u (cp_p_dontcare P) = false) /\
   ((c = ch0 /\ exists v, u01 v /\ flt v fhalf = true) \/ (c = ch1 /\ exists v, u01 v /\ flt v fhalf = false))).
Lemma rand_char_trit c : rand_char c -> trit c.
Proof. unfold rand_char, trit. intros [(-> & _)|(_ & [(-> & _)|(-> & _)])]; auto. Qed.

Lemma ternary_rand_ok n : rt (ternary_rand P n) (fun s => length s = n /\ Forall rand_char s).
Proof.
  induction n as [|n IH]; cbn [ternary_rand].
  - apply rt_ret. split; constructor.
  - eapply rt_bind with (P := rand_char).
    + unfold ternary_rand1. eapply rt_bind; [apply rt_draw01|]. intros u Hu. destruct (flt u (cp_p_dontcare P)) eqn:E.
      * apply rt_ret. left. eauto.
      * eapply rt_bind; [apply rt_draw01|]. intros v Hv. destruct (flt v fhalf) eqn:E2; apply rt_ret; right; eauto 10.
    + intros c Hc. eapply rt_bind; [exact IH|]. intros s (L & F). apply rt_ret. split; [cbn; congruence|constructor; assumption].
Qed.
Lemma ternary_init_ok : rt (ternary_init K P) (fun c => wf_tern c /\ Forall rand_char (t_string c) /\ Forall rate_ok (t_mu c)).
Proof.
  unfold ternary_init. eapply rt_bind; [apply (sam_init_ok J (lm K) Zok SR _ scheme1)|]. intros mu (L & R).
  eapply rt_bind; [apply ternary_rand_ok|]. intros s (Ls & F). apply rt_ret. cbn [t_string t_mu].
  split; [|split; assumption]. unfold wf_tern; cbn [t_string t_mu]. split; [unfold len; rewrite Ls; apply Z2Nat.id, Z.mul_nonneg_nonneg; lia|].
  split; [eapply Forall_impl; [|exact F]; apply rand_char_trit|exact L].
Qed.

(** The character covering puts at digit j of input i. *)
Definition cover_char (x : list f64) (i j : Z) (c : Z) : Prop :=
  (c = DONT_CARE /\ exists u, u01 u /\ flt u (cp_p_dontcare P) = true) \/
  (c = ch0 + enc_bit bits (at_ f0 x i) j /\ exists u, u01 u /\ flt u (cp_p_dontcare P) = false).

Lemma pos_lt i j : 0 <= i < xd -> 0 <= j < bits -> 0 <= i * bits + j < xd * bits.
Proof. intros Hi Hj. nia. Qed.
Lemma pos_inj i j i' j' : 0 <= j < bits -> 0 <= j' < bits -> i * bits + j = i' * bits + j' -> i = i' /\ j = j'.
Proof. intros Hj Hj' E. assert (i = i') by nia. split; [assumption|]. subst. lia. Qed.

Lemma ternary_cover_ok c x : wf_tern c -> len x = xd -> Forall nn x ->
  rt (ternary_cover K P c x) (fun c' => wf_tern c' /\ t_mu c' = t_mu c /\
    forall i j, 0 <= i < xd -> 0 <= j < bits -> cover_char x i j (at_ 0 (t_string c') (i * bits + j))).
Proof.
  intros (W1 & W2 & W3) Lx Nx. unfold ternary_cover.
  eapply rt_bind with (P := fun s => len s = xd * bits /\ Forall trit s /\
    forall i j, 0 <= i < xd -> 0 <= j < bits -> cover_char x i j (at_ 0 s (i * bits + j))).
  - apply (rt_for J (fun n s => len s = xd * bits /\ Forall trit s /\
      forall i j, 0 <= i < n -> 0 <= j < bits -> cover_char x i j (at_ 0 s (i * bits + j)))).
    + lia.
    + split; [exact W1|]. split; [exact W2|]. intros; lia.
    + intros i s Hi (S1 & S2 & S3). eapply rt_bind_lift; [apply (rd_ok f0); lia|].
      destruct (float_to_binary_ok (lm K) bits HB HP (at_ f0 x i)) as (tmp & ET & LT & HT).
      { apply (proj1 (Forall_at nn f0 x) Nx). lia. }
      eapply rt_bind_lift; [exact ET|].
      eapply rt_for_mono with (I := fun n s => len s = xd * bits /\ Forall trit s /\
         (forall i' j, 0 <= i' < i -> 0 <= j < bits -> cover_char x i' j (at_ 0 s (i' * bits + j))) /\
         (forall j, 0 <= j < n -> cover_char x i j (at_ 0 s (i * bits + j)))).
      * lia.
      * split; [exact S1|]. split; [exact S2|]. split; [exact S3|]. intros; lia.
      * intros j s' Hj (T1 & T2 & T3 & T4). eapply rt_bind; [apply rt_draw01|]. intros u Hu.
        pose proof (pos_lt i j Hi Hj) as PL.
        assert (FR : forall v s'', wrote s' s'' (i * bits + j) v -> cover_char x i j v -> trit v ->
          len s'' = xd * bits /\ Forall trit s'' /\
         (forall i' j', 0 <= i' < i -> 0 <= j' < bits -> cover_char x i' j' (at_ 0 s'' (i' * bits + j'))) /\
         (forall j', 0 <= j' < j + 1 -> cover_char x i j' (at_ 0 s'' (i * bits + j')))).
        { intros v s'' (A1 & A2 & A3 & A4) CV TV. split; [congruence|]. split; [apply A4; assumption|]. split.
          - intros i' j' Hi' Hj'. rewrite A3; [apply T3; assumption| |]. 
            + pose proof (pos_lt i' j' ltac:(lia) Hj'). lia.
            + intros E. destruct (pos_inj _ _ _ _ Hj' Hj E). lia.
          - intros j' Hj'. destruct (Z.eq_dec j' j) as [-> |D]; [rewrite A2; exact CV|].
            rewrite A3; [apply T4; lia|nia|nia]. }
        destruct (flt u (cp_p_dontcare P)) eqn:E.
        -- destruct (wr_ok s' (i * bits + j) DONT_CARE ltac:(lia)) as (s'' & EW & W). eapply rt_lift; [exact EW|].
           apply (FR _ _ W); [left; eauto|right; right; reflexivity].
        -- eapply rt_bind_lift; [apply (rd_ok 0); lia|]. rewrite HT by lia.
           destruct (wr_ok s' (i * bits + j) (ch0 + enc_bit bits (at_ f0 x i) j) ltac:(lia)) as (s'' & EW & W). eapply rt_lift; [exact EW|].
           apply (FR _ _ W); [right; eauto|apply trit_bit].
      * intros s' (T1 & T2 & T3 & T4). split; [exact T1|]. split; [exact T2|]. intros i' j Hi' Hj.
        destruct (Z.eq_dec i' i) as [-> |D]; [apply T4; exact Hj|apply T3; lia].
  - intros s (S1 & S2 & S3). apply rt_ret. split; [split; [exact S1|split; assumption]|]. split; [reflexivity|exact S3].
Qed.
Lemma cover_accepts x s : (forall i j, 0 <= i < xd -> 0 <= j < bits -> cover_char x i j (at_ 0 s (i * bits + j))) -> accepts xd bits s x.
Proof. intros H i j Hi Hj. destruct (H i j Hi Hj) as [(-> & _)|(-> & _)]; auto. Qed.

Lemma ternary_match_ok c x : wf_tern c -> len x = xd -> Forall nn x ->
  exists b, ternary_match K P c x = Ok b /\ (b = true <-> accepts xd bits (t_string c) x).
Proof.
  intros (W1 & W2 & W3) Lx Nx. unfold ternary_match.
  assert (IN : forall i, 0 <= i < xd -> exists b, (xi <- rd x i ;; tmp <- float_to_binary (lm K) xi bits ;;
     oall bits (fun j => s <- rd (t_string c) (i * bits + j) ;; t <- rd tmp j ;; Ok (negb (negb (s =? DONT_CARE) && negb (s =? t)))))%out = Ok b /\
     (b = true <-> forall j, 0 <= j < bits -> at_ 0 (t_string c) (i * bits + j) = DONT_CARE \/
        at_ 0 (t_string c) (i * bits + j) = ch0 + enc_bit bits (at_ f0 x i) j)).
  { intros i Hi. rewrite (rd_ok f0) by lia. cbn [obind].
    destruct (float_to_binary_ok (lm K) bits HB HP (at_ f0 x i)) as (tmp & ET & LT & HT).
    { apply (proj1 (Forall_at nn f0 x) Nx). lia. }
    rewrite ET. cbn [obind].
    destruct (oall_ok (fun j => (at_ 0 (t_string c) (i * bits + j) =? DONT_CARE) || (at_ 0 (t_string c) (i * bits + j) =? ch0 + enc_bit bits (at_ f0 x i) j))
      (fun j => s <- rd (t_string c) (i * bits + j) ;; t <- rd tmp j ;; Ok (negb (negb (s =? DONT_CARE) && negb (s =? t))))%out bits ltac:(lia)) as (b & Eb & Hb).
    { intros j Hj. pose proof (pos_lt i j Hi Hj). rewrite (rd_ok 0) by lia. cbn [obind]. rewrite (rd_ok 0) by lia. cbn [obind].
      rewrite HT by exact Hj. rewrite negb_andb, !negb_involutive. reflexivity. }
    exists b. split; [exact Eb|]. rewrite Hb. split; intros H j Hj; specialize (H j Hj).
    - apply orb_true_iff in H. destruct H as [H|H]; apply Z.eqb_eq in H; auto.
    - apply orb_true_iff. destruct H as [H|H]; [left|right]; apply Z.eqb_eq, H. }
  set (f := fun i => (xi <- rd x i ;; _)%out) in *.
  destruct (oall_ok (fun i => match f i with Ok b => b | _ => false end) f xd ltac:(lia)) as (b & Eb & Hb).
  { intros i Hi. destruct (IN i Hi) as (b & E & _). fold (f i) in E. rewrite E. reflexivity. }
  exists b. split; [exact Eb|]. rewrite Hb. unfold accepts. split; intros H i.
  - intros j Hi Hj. destruct (IN i Hi) as (bi & E & Hbi). fold (f i) in E. specialize (H i Hi). rewrite E in H. subst bi.
    apply Hbi; [reflexivity|exact Hj].
  - intros Hi. destruct (IN i Hi) as (bi & E & Hbi). fold (f i) in E. rewrite E. apply Hbi. intros j Hj. apply H; assumption.
Qed.

(** ** Crossover: at each position the characters are kept or exchanged. *)
Definition exchanged {A} (d : A) (n : Z) (a1 a2 b1 b2 : list A) : Prop := forall i, 0 <= i < n ->
  (at_ d b1 i = at_ d a1 i /\ at_ d b2 i = at_ d a2 i) \/ (at_ d b1 i = at_ d a2 i /\ at_ d b2 i = at_ d a1 i).

Lemma ternary_crossover_ok c1 c2 : wf_tern c1 -> wf_tern c2 ->
  rt (ternary_crossover P c1 c2) (fun r => let '(d1, d2, ch) := r in wf_tern d1 /\ wf_tern d2 /\
    t_mu d1 = t_mu c1 /\ t_mu d2 = t_mu c2 /\
    exchanged 0 (xd * bits) (t_string c1) (t_string c2) (t_string d1) (t_string d2) /\
    (ch = false -> d1 = c1 /\ d2 = c2) /\
    (ch = true -> (exists u, u01 u /\ flt u (ea_p_crossover P) = true) /\
      exists i, 0 <= i < xd * bits /\ at_ 0 (t_string d1) i = at_ 0 (t_string c2) i /\ at_ 0 (t_string d2) i = at_ 0 (t_string c1) i)).
Proof.
  intros (A1 & A2 & A3) (B1 & B2 & B3). unfold ternary_crossover. eapply rt_bind; [apply rt_draw01|]. intros u Hu.
  destruct (flt u (ea_p_crossover P)) eqn:E.
  - eapply rt_bind with (P := fun st => let '(s1, s2, ch) := st in len s1 = xd * bits /\ len s2 = xd * bits /\ Forall trit s1 /\ Forall trit s2 /\
       exchanged 0 (xd * bits) (t_string c1) (t_string c2) s1 s2 /\ (ch = false -> s1 = t_string c1 /\ s2 = t_string c2) /\
       (ch = true -> exists i, 0 <= i < xd * bits /\ at_ 0 s1 i = at_ 0 (t_string c2) i /\ at_ 0 s2 i = at_ 0 (t_string c1) i)).
    + fold (len (t_string c1)). rewrite A1.
      eapply rt_for_mono with (I := fun n st => let '(s1, s2, ch) := st in len s1 = xd * bits /\ len s2 = xd * bits /\ Forall trit s1 /\ Forall trit s2 /\
        exchanged 0 n (t_string c1) (t_string c2) s1 s2 /\
        (forall i, n <= i < xd * bits -> at_ 0 s1 i = at_ 0 (t_string c1) i /\ at_ 0 s2 i = at_ 0 (t_string c2) i) /\
        (ch = false -> s1 = t_string c1 /\ s2 = t_string c2) /\
        (ch = true -> exists i, 0 <= i < n /\ at_ 0 s1 i = at_ 0 (t_string c2) i /\ at_ 0 s2 i = at_ 0 (t_string c1) i)).
      * nia.
      * spl7; try (intros i Hi; lia); auto; discriminate.
      * intros i [[s1 s2] ch] Hi (S1 & S2 & S3 & S4 & S5 & S6 & S7 & S8).
        eapply rt_bind; [apply rt_draw01|]. intros v Hv. destruct (flt v fhalf) eqn:EV.
        -- eapply rt_bind_lift; [apply (rd_ok 0); lia|]. eapply rt_bind_lift; [apply (rd_ok 0); lia|].
           destruct (wr_ok s1 i (at_ 0 s2 i) ltac:(lia)) as (s1' & E1 & W1). eapply rt_bind_lift; [exact E1|].
           destruct (wr_ok s2 i (at_ 0 s1 i) ltac:(lia)) as (s2' & E2 & W2). eapply rt_bind_lift; [exact E2|].
           apply rt_ret. destruct W1 as (P1 & P2 & P3 & P4). destruct W2 as (Q1 & Q2 & Q3 & Q4).
           split; [congruence|]. split; [congruence|].
           split; [apply P4; [exact S3|apply (proj1 (Forall_at trit 0 s2) S4); lia]|].
           split; [apply Q4; [exact S4|apply (proj1 (Forall_at trit 0 s1) S3); lia]|].
           split; [|split; [|split; [discriminate|intros _; exists i; split; [lia|]; rewrite P2, Q2; destruct (S6 i ltac:(lia)) as (-> & ->); auto]]].
           ++ intros k Hk. destruct (Z.eq_dec k i) as [-> |D].
              ** right. rewrite P2, Q2. destruct (S6 i ltac:(lia)) as (-> & ->). auto.
              ** rewrite P3, Q3 by lia. apply S5. lia.
           ++ intros k Hk. rewrite P3, Q3 by lia. apply S6. lia.
        -- apply rt_ret. split; [exact S1|]. split; [exact S2|]. split; [exact S3|]. split; [exact S4|]. split; [|split; [|split; [exact S7|intros Hc; destruct (S8 Hc) as (k & Hk & Hk'); exists k; split; [lia|exact Hk']]]].
           ++ intros k Hk. destruct (Z.eq_dec k i) as [-> |D]; [left; apply S6; lia|apply S5; lia].
           ++ intros k Hk. apply S6. lia.
      * intros [[s1 s2] ch] (S1 & S2 & S3 & S4 & S5 & S6 & S7 & S8). auto 10.
    + intros [[s1 s2] ch] (S1 & S2 & S3 & S4 & S5 & S6 & S7). apply rt_ret. cbn [t_string t_mu].
      split; [split; [exact S1|split; assumption]|]. split; [split; [exact S2|split; assumption]|].
      split; [reflexivity|]. split; [reflexivity|]. split; [exact S5|]. split; [|eauto].
      intros Hc. destruct (S6 Hc) as (-> & ->). destruct c1, c2. auto.
  - apply rt_ret. split; [repeat split; assumption|]. split; [repeat split; assumption|].
    split; [reflexivity|]. split; [reflexivity|]. split; [intros i _; left; auto|]. split; [auto|discriminate].
Qed.

(** ** Mutation. *)
Definition mutated_char (m0 : f64) (a c : Z) : Prop :=
  (c = a /\ exists u, u01 u /\ flt u m0 = false) \/
  ((exists u, u01 u /\ flt u m0 = true) /\ (a <> DONT_CARE -> c = DONT_CARE) /\ (a = DONT_CARE ->
   (c = ch0 /\ exists v, u01 v /\ flt v fhalf = true) \/ (c = ch1 /\ exists v, u01 v /\ flt v fhalf = false))).

Lemma ternary_mutate_gen (Qm : list f64 -> Prop) c : wf_tern c ->
  rt (sam_adapt (lm K) mu_type1 (t_mu c)) (fun mu => length mu = 1%nat /\ Qm mu) ->
  rt (ternary_mutate K c) (fun r => let '(d, ch) := r in wf_tern d /\ Qm (t_mu d) /\
    (forall i, 0 <= i < xd * bits -> mutated_char (at_ f0 (t_mu d) 0) (at_ 0 (t_string c) i) (at_ 0 (t_string d) i)) /\
    (ch = true <-> t_string d <> t_string c)).
Proof.
  intros (W1 & W2 & W3) SA. unfold ternary_mutate. eapply rt_bind; [exact SA|]. intros mu (Lmu & Qmu).
  eapply rt_bind_lift; [apply (rd_ok f0); unfold len; lia|].
  set (m0 := at_ f0 mu 0).
  eapply rt_bind with (P := fun st => let '(s, ch) := st in len s = xd * bits /\ Forall trit s /\
    (forall i, 0 <= i < xd * bits -> mutated_char m0 (at_ 0 (t_string c) i) (at_ 0 s i)) /\
    (ch = false -> s = t_string c) /\ (ch = true -> s <> t_string c)).
  - fold (len (t_string c)). rewrite W1.
    eapply rt_for_mono with (I := fun n st => let '(s, ch) := st in len s = xd * bits /\ Forall trit s /\
      (forall i, 0 <= i < n -> mutated_char m0 (at_ 0 (t_string c) i) (at_ 0 s i)) /\
      (forall i, n <= i < xd * bits -> at_ 0 s i = at_ 0 (t_string c) i) /\
      (ch = false -> s = t_string c) /\ (ch = true -> exists i, 0 <= i < n /\ at_ 0 s i <> at_ 0 (t_string c) i)).
    + nia.
    + split; [exact W1|]. split; [exact W2|]. split; [intros; lia|]. split; [auto|]. split; [auto|discriminate].
    + intros i [s ch] Hi (S1 & S2 & S3 & S4 & S5 & S6). eapply rt_bind; [apply rt_draw01|]. intros u Hu.
      destruct (flt u m0) eqn:E.
      * eapply rt_bind_lift; [apply (rd_ok 0); lia|]. rewrite S4 by lia.
        eapply rt_bind with (P := fun v => mutated_char m0 (at_ 0 (t_string c) i) v /\ v <> at_ 0 (t_string c) i /\ trit v).
        -- destruct (Z.eqb_spec (at_ 0 (t_string c) i) DONT_CARE) as [ED|ND].
           ++ eapply rt_bind; [apply rt_draw01|]. intros w Hw. unfold mutated_char, trit. rewrite ED.
              destruct (flt w fhalf) eqn:E2; apply rt_ret; (split; [right; split; [eauto|split; [congruence|intros _; eauto 6]]|split; [discriminate|auto]]).
           ++ apply rt_ret. split; [right; split; [eauto|split; [auto|congruence]]|split; [congruence|right; right; reflexivity]].
        -- intros v (V1 & V2 & V3). destruct (wr_ok s i v ltac:(lia)) as (s' & EW & (A1 & A2 & A3 & A4)).
           eapply rt_bind_lift; [exact EW|]. apply rt_ret. split; [congruence|]. split; [auto|]. split; [|split; [|split; [discriminate|]]].
           ++ intros k Hk. destruct (Z.eq_dec k i) as [-> |D]; [rewrite A2; exact V1|rewrite A3 by lia; apply S3; lia].
           ++ intros k Hk. rewrite A3 by lia. apply S4. lia.
           ++ intros _. exists i. split; [lia|]. rewrite A2. exact V2.
      * apply rt_ret. split; [exact S1|]. split; [exact S2|]. split; [|split; [|split; [exact S5|]]].
        -- intros k Hk. destruct (Z.eq_dec k i) as [-> |D]; [left; rewrite S4 by lia; eauto|apply S3; lia].
        -- intros k Hk. apply S4. lia.
        -- intros Hc. destruct (S6 Hc) as (k & Hk & Hn). exists k. split; [lia|exact Hn].
    + intros [s ch] (S1 & S2 & S3 & S4 & S5 & S6). split; [exact S1|]. split; [exact S2|]. split; [exact S3|]. split; [exact S5|].
      intros Hc E. destruct (S6 Hc) as (k & Hk & Hn). apply Hn. now rewrite E.
  - intros [s ch] (S1 & S2 & S3 & S4 & S5). apply rt_ret. cbn [t_mu t_string]. split; [split; [exact S1|split; [exact S2|exact Lmu]]|].
    split; [exact Qmu|]. split; [exact S3|]. split; [exact S5|]. intros Hn. destruct ch; [reflexivity|]. elim Hn. auto.
Qed.

(** ** Generality. *)
Lemma ternary_general_loop_ok s1 s2 : len s1 = len s2 -> forall n i g, 0 <= i -> i + Z.of_nat n = len s1 ->
  exists b, ternary_general_loop n i s1 s2 g = Ok b /\
    (b = true <-> (forall k, i <= k < len s1 -> at_ 0 s1 k = DONT_CARE \/ at_ 0 s1 k = at_ 0 s2 k) /\
       (g = true \/ exists k, i <= k < len s1 /\ at_ 0 s1 k <> at_ 0 s2 k)).
Proof.
  intros HL. induction n as [|n IH]; intros i g Hi Hn; cbn [ternary_general_loop].
  - exists g. split; [reflexivity|]. split; [intros ->; split; [intros; lia|auto]|]. intros (_ & [H|(k & Hk & _)]); [exact H|lia].
  - rewrite (rd_ok 0) by lia. cbn [obind]. rewrite (rd_ok 0) by lia. cbn [obind].
    destruct (Z.eqb_spec (at_ 0 s1 i) DONT_CARE) as [ED|ND]; destruct (Z.eqb_spec (at_ 0 s1 i) (at_ 0 s2 i)) as [EE|NE]; cbn [negb andb].
    1-3: destruct (IH (i + 1) (if negb (at_ 0 s1 i =? at_ 0 s2 i) then true else g)) as (b & Eb & Hb); try lia.
    + destruct (Z.eqb_spec (at_ 0 s1 i) (at_ 0 s2 i)); [|congruence]. cbn [negb] in *. exists b. split; [exact Eb|]. rewrite Hb. split.
      * intros (H1 & H2). split; [intros k Hk; destruct (Z.eq_dec k i) as [-> |]; [auto|apply H1; lia]|].
        destruct H2 as [H2|(k & Hk & H2)]; [auto|right; exists k; split; [lia|auto]].
      * intros (H1 & H2). split; [intros k Hk; apply H1; lia|]. destruct H2 as [H2|(k & Hk & H2)]; [auto|].
        right. exists k. split; [|auto]. destruct (Z.eq_dec k i) as [-> |]; [congruence|lia].
    + destruct (Z.eqb_spec (at_ 0 s1 i) (at_ 0 s2 i)); [congruence|]. cbn [negb] in *. exists b. split; [exact Eb|]. rewrite Hb. split.
      * intros (H1 & H2). split; [intros k Hk; destruct (Z.eq_dec k i) as [-> |]; [auto|apply H1; lia]|].
        right. exists i. split; [lia|auto].
      * intros (H1 & H2). split; [intros k Hk; apply H1; lia|auto].
    + destruct (Z.eqb_spec (at_ 0 s1 i) (at_ 0 s2 i)); [|congruence]. cbn [negb] in *. exists b. split; [exact Eb|]. rewrite Hb. split.
      * intros (H1 & H2). split; [intros k Hk; destruct (Z.eq_dec k i) as [-> |]; [auto|apply H1; lia]|].
        destruct H2 as [H2|(k & Hk & H2)]; [auto|right; exists k; split; [lia|auto]].
      * intros (H1 & H2). split; [intros k Hk; apply H1; lia|]. destruct H2 as [H2|(k & Hk & H2)]; [auto|].
        right. exists k. split; [|auto]. destruct (Z.eq_dec k i) as [-> |]; [congruence|lia].
    + exists false. split; [reflexivity|]. split; [discriminate|]. intros (H & _). destruct (H i); [lia|congruence|congruence].
Qed.
Definition subsumes (s1 s2 : list Z) : Prop :=
  (forall k, 0 <= k < len s1 -> at_ 0 s1 k = DONT_CARE \/ at_ 0 s1 k = at_ 0 s2 k) /\ s1 <> s2.
Lemma ternary_general_ok c1 c2 : wf_tern c1 -> wf_tern c2 ->
  exists b, ternary_general c1 c2 = Ok b /\ (b = true <-> subsumes (t_string c1) (t_string c2)).
Proof.
  intros (A1 & A2 & A3) (B1 & B2 & B3). unfold ternary_general.
  assert (HL : len (t_string c1) = len (t_string c2)) by congruence.
  destruct (ternary_general_loop_ok _ _ HL (length (t_string c1)) 0 false ltac:(lia) ltac:(reflexivity)) as (b & Eb & Hb).
  exists b. split; [exact Eb|]. rewrite Hb. unfold subsumes. split.
  - intros (H1 & [H2|(k & Hk & H2)]); [discriminate|]. split; [exact H1|]. intros E. apply H2. now rewrite E.
  - intros (H1 & H2). split; [exact H1|]. right.
    destruct (list_eq_dec Z.eq_dec (t_string c1) (t_string c2)) as [E|_]; [contradiction|].
    assert (D : ~ (forall k, 0 <= k < len (t_string c1) -> at_ 0 (t_string c1) k = at_ 0 (t_string c2) k)).
    { intros H. apply H2. apply (list_ext 0); assumption. }
    clear - D HL. revert D. generalize (t_string c2) as l2, HL. clear. intros l2 HL D.
    assert (G : forall n, (forall k, 0 <= k < Z.of_nat n -> at_ 0 (t_string c1) k = at_ 0 l2 k) \/
       exists k, 0 <= k < Z.of_nat n /\ at_ 0 (t_string c1) k <> at_ 0 l2 k).
    { induction n as [|n [IH|(k & Hk & H)]].
      - left. intros; lia.
      - destruct (Z.eq_dec (at_ 0 (t_string c1) (Z.of_nat n)) (at_ 0 l2 (Z.of_nat n))) as [E|N].
        + left. intros k Hk. destruct (Z.eq_dec k (Z.of_nat n)) as [-> |]; [exact E|apply IH; lia].
        + right. exists (Z.of_nat n). split; [lia|exact N].
      - right. exists k. split; [lia|exact H]. }
    destruct (G (length (t_string c1))) as [H|H]; [elim (D H)|exact H].
Qed.
(** A more general string accepts everything the other accepts. *)
Lemma subsumes_accepts s1 s2 x : len s1 = xd * bits -> subsumes s1 s2 -> accepts xd bits s2 x -> accepts xd bits s1 x.
Proof.
  intros L (H & _) A i j Hi Hj. destruct (H (i * bits + j)) as [E|E]; [rewrite L; apply pos_lt; assumption|auto|].
  rewrite E. apply A; assumption.
Qed.
Lemma subsumes_asym s1 s2 : len s1 = len s2 -> subsumes s1 s2 -> ~ subsumes s2 s1.
Proof.
  intros L (H1 & N1) (H2 & _). apply N1. apply (list_ext 0); [exact L|]. intros i Hi.
  destruct (H1 i Hi) as [E1|E1]; [|exact E1]. destruct (H2 i ltac:(lia)) as [E2|E2]; congruence.
Qed.
Lemma subsumes_trans s1 s2 s3 : len s1 = len s2 -> len s2 = len s3 -> subsumes s1 s2 -> subsumes s2 s3 -> subsumes s1 s3.
Proof.
  intros L1 L2 G1 G2. assert (H : forall k, 0 <= k < len s1 -> at_ 0 s1 k = DONT_CARE \/ at_ 0 s1 k = at_ 0 s3 k).
  { intros k Hk. destruct (proj1 G1 k Hk) as [E|E]; [auto|]. destruct (proj1 G2 k ltac:(lia)) as [E2|E2]; [left|right]; congruence. }
  split; [exact H|]. intros E. subst s3. exact (subsumes_asym s1 s2 L1 G1 G2).
Qed.
End Tern.
