(** * Which draws decide what a crossover exchanges (C67). *)
From Coq Require Import ZArith Bool List Reals Lia Lra.
From Flocq Require Import Core BinarySingleNaN.
From Verif Require Import Outcome F64 F64Facts F64Bounds Rng RngFacts Arr ArrFacts Sam Pop PopSpec Cond.
Import ListNotations.
Open Scope Z_scope.

(** The [k]-th word from here, and the generator after [k] words. *)
Definition word (g : rng) (k : Z) : Z := r_tape g (r_pos g + Z.to_nat k)%nat.
Definition skip (k : Z) (g : rng) : rng := mkRng (r_tape g) (r_pos g + Z.to_nat k) (r_generate g) (r_z1 g).
(** The number in (0,1) the word is turned into. *)
Definition u01 (m : Z) : f64 := fadd f0 (fmul (draw_value m) (fsub f1 f0)).
(** The lower half of the 2^52 values of a word. *)
Definition low (m : Z) : bool := m mod 2 ^ 52 <? 2 ^ 51.

Lemma draw01_eq g : draw01 g = Ok (u01 (word g 0), skip 1 g).
Proof. unfold draw01. rewrite rand_uniform_eq. unfold word, skip, advance. cbn [Z.to_nat]. rewrite Nat.add_0_r. change (Pos.to_nat 1) with 1%nat. rewrite Nat.add_1_r. reflexivity. Qed.
Lemma word_skip g j k : 0 <= j -> 0 <= k -> word (skip j g) k = word g (j + k).
Proof. intros Hj Hk. unfold word, skip; cbn [r_tape r_pos]. f_equal. lia. Qed.
Lemma skip_skip g j k : 0 <= j -> 0 <= k -> skip k (skip j g) = skip (j + k) g.
Proof. intros Hj Hk. unfold skip; cbn [r_tape r_pos r_generate r_z1]. f_equal. lia. Qed.
Lemma skip_0 g : skip 0 g = g.
Proof. destruct g as [t p b z]. unfold skip; cbn [r_tape r_pos r_generate r_z1 Z.to_nat]. rewrite Nat.add_0_r. reflexivity. Qed.

Lemma lor_one x : 0 <= x -> Z.lor x 1 = 2 * (x / 2) + 1.
Proof.
  intros H. pose proof (Z.div_mod x 2 ltac:(lia)) as E. pose proof (Z.mod_pos_bound x 2 ltac:(lia)) as M. assert (Q : 0 <= x / 2) by (apply Z.div_pos; lia).
  set (q := x / 2) in *. assert (D : x mod 2 = 0 \/ x mod 2 = 1) by lia. destruct D as [D|D]; rewrite D in E; rewrite E; destruct q as [|p|p]; try lia; reflexivity.
Qed.
(** Drawing a number below one half is drawing a word of the lower half. *)
Lemma half_of_words m : flt (u01 m) fhalf = low m.
Proof.
  assert (G : exists g, word g 0 = m) by (exists (mkRng (fun _ => m) 0 false f0); reflexivity). destruct G as (g & G).
  pose proof (rand_01_eq g) as T. pose proof (draw01_eq g) as E. unfold draw01 in E. rewrite E in T. cbn [total] in T. destruct T as (F & R & _).
  rewrite G in *. replace (r_tape g (r_pos g)) with m in R by (rewrite <- G; unfold word; cbn [Z.to_nat]; rewrite Nat.add_0_r; reflexivity).
  destruct (draw_value_R m) as (_ & V). rewrite V in R. clear E V.
  assert (Fh : is_finite fhalf = true) by reflexivity.
  assert (Eh : B2R fhalf = (/ 2)%R) by apply fhalf_R.
  assert (B : 0 <= m mod 2 ^ 52 < 2 ^ 52) by (apply Z.mod_pos_bound; lia).
  pose proof (lor_one _ (proj1 B)) as L. set (x := m mod 2 ^ 52) in *. pose proof (Z.div_mod x 2 ltac:(lia)) as Q. pose proof (Z.mod_pos_bound x 2 ltac:(lia)) as M.
  assert (U : (lo_u * IZR (2 ^ 51) = / 2)%R) by (unfold lo_u; change (IZR (2 ^ 51)) with (bpow radix2 51); rewrite <- bpow_plus; reflexivity).
  pose proof lo_u_pos as P. unfold low. fold x. destruct (Z.ltb_spec x (2 ^ 51)) as [H|H].
  - apply flt_X; [apply fin_nn; assumption..|]. rewrite !X_finite by assumption. rewrite R, Eh, <- U. rewrite Rmult_comm. apply Rmult_lt_compat_l; [exact P|]. apply IZR_lt. lia.
  - apply flt_X_false; [apply fin_nn; assumption..|]. rewrite !X_finite by assumption. rewrite R, Eh, <- U. rewrite (Rmult_comm (IZR _)). apply Rmult_le_compat_l; [lra|]. apply IZR_le. lia.
Qed.

(** [a'] and [b'] are [a] and [b] with the elements exchanged where [u] says so. *)
Definition swapped {A} (d : A) (n : Z) (u : Z -> bool) (a b a' b' : list A) : Prop :=
  len a' = len a /\ len b' = len b /\
  forall k, 0 <= k < n -> at_ d a' k = (if u k then at_ d b k else at_ d a k) /\ at_ d b' k = (if u k then at_ d a k else at_ d b k).
Definition upto {A} (d : A) (n i : Z) (u : Z -> bool) (a b a' b' : list A) : Prop :=
  len a' = len a /\ len b' = len b /\
  forall k, 0 <= k < n -> at_ d a' k = (if u k && (k <? i) then at_ d b k else at_ d a k) /\ at_ d b' k = (if u k && (k <? i) then at_ d a k else at_ d b k).

Lemma upto_end {A} (d : A) n u a b a' b' : upto d n n u a b a' b' -> swapped d n u a b a' b'.
Proof.
  intros (H1 & H2 & H3). split; [exact H1|]. split; [exact H2|]. intros k Hk. specialize (H3 k Hk).
  destruct (Z.ltb_spec k n); [|lia]. rewrite andb_true_r in H3. exact H3.
Qed.
Lemma upto_0 {A} (d : A) n u a b : upto d n 0 u a b a b.
Proof. split; [reflexivity|]. split; [reflexivity|]. intros k Hk. destruct (Z.ltb_spec k 0); [lia|]. rewrite andb_false_r. auto. Qed.

Lemma cell {A} (d : A) n i u a b a' b' ch g : len a = n -> len b = n -> 0 <= i < n -> upto d n i u a b a' b' ->
  exists a2 b2, (if u i then (p <- lift (rd a' i) ;; q <- lift (rd b' i) ;; x <- lift (wr a' i q) ;; y <- lift (wr b' i p) ;; ret (x, y, true))
                 else ret (a', b', ch))%rng g = Ok ((a2, b2, ch || u i), g) /\ upto d n (i + 1) u a b a2 b2.
Proof.
  intros La Lb Hi (H1 & H2 & H3). destruct (u i) eqn:E.
  - unfold bind, lift. rewrite (rd_ok d) by lia. rewrite (rd_ok d) by lia.
    destruct (wr_ok a' i (at_ d b' i) ltac:(lia)) as (a2 & W1 & L1 & A1 & B1 & _). destruct (wr_ok b' i (at_ d a' i) ltac:(lia)) as (b2 & W2 & L2 & A2 & B2 & _).
    rewrite W1, W2. exists a2, b2. rewrite orb_true_r. split; [reflexivity|]. split; [lia|]. split; [lia|]. intros k Hk.
    destruct (Z.eq_dec k i) as [->|N].
    + destruct (H3 i Hi) as (X1 & X2). destruct (Z.ltb_spec i i); [lia|]. rewrite andb_false_r in X1, X2.
      rewrite A1, A2. rewrite E. destruct (Z.ltb_spec i (i + 1)); [|lia]. cbn [andb]. auto.
    + rewrite B1, B2 by lia. destruct (H3 k Hk) as (X1 & X2).
      destruct (Z.ltb_spec k i), (Z.ltb_spec k (i + 1)); try lia; auto.
  - exists a', b'. rewrite orb_false_r. split; [reflexivity|]. split; [exact H1|]. split; [exact H2|]. intros k Hk. destruct (H3 k Hk) as (X1 & X2).
    destruct (Z.eq_dec k i) as [->|N]; [rewrite E in *; auto|]. destruct (Z.ltb_spec k i), (Z.ltb_spec k (i + 1)); try lia; auto.
Qed.

(** Whether [u] holds of one of the positions below [n]. *)
Definition somewhere (u : Z -> bool) (n : Z) : bool := existsb (fun k => u (Z.of_nat k)) (seq 0 (Z.to_nat n)).
Lemma somewhere_S u n : 0 <= n -> somewhere u (n + 1) = somewhere u n || u n.
Proof.
  intros H. unfold somewhere. replace (Z.to_nat (n + 1)) with (S (Z.to_nat n)) by lia. rewrite seq_S, existsb_app. cbn [existsb Nat.add].
  rewrite Z2Nat.id by exact H. rewrite orb_false_r. reflexivity.
Qed.
Lemma rfor_det {S} (I : Z -> S -> rng -> Prop) n (f : Z -> S -> RM S) s g : 0 <= n -> I 0 s g ->
  (forall i s g, 0 <= i < n -> I i s g -> exists s' g', f i s g = Ok (s', g') /\ I (i + 1) s' g') ->
  exists s' g', rfor n f s g = Ok (s', g') /\ I n s' g'.
Proof.
  intros Hn H0 HF. unfold rfor.
  assert (L : forall k i s g, 0 <= i -> i + Z.of_nat k = n -> I i s g -> exists s' g', rloop k i f s g = Ok (s', g') /\ I n s' g').
  { induction k as [|k IH]; intros i s1 g1 Hi E H.
    - exists s1, g1. split; [reflexivity|]. replace n with i by lia. exact H.
    - destruct (HF i s1 g1 ltac:(lia) H) as (s2 & g2 & E2 & H2). cbn [rloop]. unfold bind. rewrite E2. apply IH; [lia|lia|exact H2]. }
  apply L; [lia|lia|exact H0].
Qed.

Lemma ternary_draws P c1 c2 g : let n := len (t_string c1) in let u := fun k => low (word g (1 + k)) in
  len (t_string c2) = n ->
  if flt (u01 (word g 0)) (ea_p_crossover P)
  then exists s1 s2, ternary_crossover P c1 c2 g = Ok ((mkTernary s1 (t_mu c1), mkTernary s2 (t_mu c2), somewhere u n), skip (1 + n) g) /\
         swapped 0 n u (t_string c1) (t_string c2) s1 s2
  else ternary_crossover P c1 c2 g = Ok ((c1, c2, false), skip 1 g).
Proof.
  intros n u L. unfold ternary_crossover. destruct (flt (u01 (word g 0)) (ea_p_crossover P)) eqn:C; unfold bind at 1; rewrite draw01_eq, C; [|reflexivity].
  change (Z.of_nat (length (t_string c1))) with n. assert (Hn : 0 <= n) by (unfold n, len; lia).
  destruct (rfor_det (fun i (st : list Z * list Z * bool) g' => g' = skip (1 + i) g /\ snd st = somewhere u i /\
      upto 0 n i u (t_string c1) (t_string c2) (fst (fst st)) (snd (fst st))) n
      (fun i (st : list Z * list Z * bool) =>
        let '(s1, s2, ch) := st in
        (v <- draw01 ;;
        if flt v fhalf then
          a <- lift (rd s1 i) ;; b <- lift (rd s2 i) ;;
          s1' <- lift (wr s1 i b) ;; s2' <- lift (wr s2 i a) ;;
          ret (s1', s2', true)
        else ret st)%rng) (t_string c1, t_string c2, false) (skip 1 g) Hn) as ([[s1 s2] ch] & g' & E & G & S & U).
  - split; [reflexivity|]. split; [reflexivity|]. apply upto_0.
  - intros i [[s1 s2] ch] g1 Hi (G & S & U). cbn [fst snd] in S, U. subst g1 ch. unfold bind at 1. rewrite draw01_eq. rewrite half_of_words.
    rewrite word_skip by lia. rewrite Z.add_0_r. change (low (word g (1 + i))) with (u i). rewrite skip_skip by lia.
    destruct (cell 0 n i u _ _ s1 s2 (somewhere u i) (skip (1 + i + 1) g) eq_refl L Hi U) as (a & b & E & U').
    exists (a, b, somewhere u i || u i), (skip (1 + i + 1) g). split; [exact E|]. cbn [fst snd]. rewrite Z.add_assoc, somewhere_S by lia. auto.
  - unfold bind. match goal with |- exists s1 s2, match ?m with _ => _ end = _ /\ _ => change m with (rfor n (fun i (st : list Z * list Z * bool) =>
        let '(s1, s2, ch) := st in
        (v <- draw01 ;;
        if flt v fhalf then
          a <- lift (rd s1 i) ;; b <- lift (rd s2 i) ;;
          s1' <- lift (wr s1 i b) ;; s2' <- lift (wr s2 i a) ;;
          ret (s1', s2', true)
        else ret st)%rng) (t_string c1, t_string c2, false) (skip 1 g)) end. rewrite E.
    cbn [fst snd] in S, U. subst. exists s1, s2. split; [reflexivity|]. apply upto_end, U.
Qed.

Lemma arrays_draws K a1 a2 b1 b2 g : let n := x_dim K in let u := fun k => low (word g (2 * k)) in let v := fun k => low (word g (2 * k + 1)) in
  0 <= n -> len a1 = n -> len a2 = n -> len b1 = n -> len b2 = n ->
  exists x1 x2 y1 y2, swap_arrays K a1 a2 b1 b2 g = Ok (((x1, x2), (y1, y2), somewhere (fun k => u k || v k) n), skip (2 * n) g) /\
    swapped f0 n u a1 b1 x1 y1 /\ swapped f0 n v a2 b2 x2 y2.
Proof.
  intros n u v Hn L1 L2 L3 L4. unfold swap_arrays. change (x_dim K) with n.
  match goal with |- context [rfor n ?f ?s g] =>
  destruct (rfor_det (fun i (st : (list f64 * list f64) * (list f64 * list f64) * bool) g' => g' = skip (2 * i) g /\ snd st = somewhere (fun k => u k || v k) i /\
      upto f0 n i u a1 b1 (fst (fst (fst st))) (fst (snd (fst st))) /\ upto f0 n i v a2 b2 (snd (fst (fst st))) (snd (snd (fst st)))) n f s g Hn) as ([[[x1 x2] [y1 y2]] ch] & g' & E & G & S & U & V)
  end.
  - split; [symmetry; apply skip_0|]. split; [reflexivity|]. split; apply upto_0.
  - intros i [[[x1 x2] [y1 y2]] ch] g1 Hi (G & S & U & V). cbn [fst snd] in S, U, V. subst g1 ch. unfold bind at 1. rewrite draw01_eq. rewrite half_of_words.
    rewrite word_skip by lia. rewrite Z.add_0_r. change (low (word g (2 * i))) with (u i). rewrite skip_skip by lia.
    destruct (cell f0 n i u _ _ x1 y1 (somewhere (fun k => u k || v k) i) (skip (2 * i + 1) g) L1 L3 Hi U) as (p & q & E & U').
    unfold bind at 1. rewrite E. unfold bind at 1. rewrite draw01_eq. rewrite half_of_words. rewrite word_skip by lia. rewrite Z.add_0_r.
    change (low (word g (2 * i + 1))) with (v i). rewrite skip_skip by lia.
    destruct (cell f0 n i v _ _ x2 y2 (somewhere (fun k => u k || v k) i || u i) (skip (2 * i + 1 + 1) g) L2 L4 Hi V) as (p' & q' & E' & V').
    unfold bind at 1. rewrite E'. eexists. eexists. split; [reflexivity|]. cbn [fst snd].
    split; [f_equal; lia|]. split; [rewrite somewhere_S by lia; rewrite orb_assoc; reflexivity|]. split; assumption.
  - rewrite E. cbn [fst snd] in S, U, V. subst. exists x1, x2, y1, y2. split; [reflexivity|]. split; apply upto_end; assumption.
Qed.
Lemma swapped_ext {A} (d : A) n u v a b a' b' : (forall k, 0 <= k -> u k = v k) -> swapped d n u a b a' b' -> swapped d n v a b a' b'.
Proof. intros E (H1 & H2 & H3). split; [exact H1|]. split; [exact H2|]. intros k Hk. rewrite <- E by lia. apply H3, Hk. Qed.
Lemma somewhere_ext u v n : (forall k, 0 <= k -> u k = v k) -> somewhere u n = somewhere v n.
Proof. intros E. unfold somewhere. induction (seq 0 (Z.to_nat n)) as [|k l IH]; [reflexivity|]. cbn [existsb]. rewrite IH, E by lia. reflexivity. Qed.
Lemma word_1 g k : 0 <= k -> word (skip 1 g) (2 * k) = word g (1 + 2 * k) /\ word (skip 1 g) (2 * k + 1) = word g (2 + 2 * k).
Proof. intros H. rewrite !word_skip by lia. split; f_equal; lia. Qed.

Lemma rect_draws K P c1 c2 g : let n := x_dim K in let u := fun k => low (word g (1 + 2 * k)) in let v := fun k => low (word g (2 + 2 * k)) in
  0 <= n -> len (r_b1 c1) = n -> len (r_b2 c1) = n -> len (r_b1 c2) = n -> len (r_b2 c2) = n ->
  if flt (u01 (word g 0)) (ea_p_crossover P)
  then exists d1 d2, rect_crossover K P c1 c2 g = Ok ((d1, d2, somewhere (fun k => u k || v k) n), skip (1 + 2 * n) g) /\
         swapped f0 n u (r_b1 c1) (r_b1 c2) (r_b1 d1) (r_b1 d2) /\ swapped f0 n v (r_b2 c1) (r_b2 c2) (r_b2 d1) (r_b2 d2) /\
         r_mu d1 = r_mu c1 /\ r_mu d2 = r_mu c2
  else rect_crossover K P c1 c2 g = Ok ((c1, c2, false), skip 1 g).
Proof.
  intros n u v Hn L1 L2 L3 L4. unfold rect_crossover. destruct (flt (u01 (word g 0)) (ea_p_crossover P)) eqn:C; unfold bind at 1; rewrite draw01_eq, C; [|reflexivity].
  destruct (arrays_draws K _ _ _ _ (skip 1 g) Hn L1 L2 L3 L4) as (x1 & x2 & y1 & y2 & E & U & V).
  unfold bind. rewrite E. rewrite skip_skip by (unfold n in Hn; lia). exists (mkRect x1 x2 (r_mu c1)), (mkRect y1 y2 (r_mu c2)). cbn [r_b1 r_b2 r_mu].
  split; [|split; [|split; [|split; reflexivity]]].
  - unfold ret. rewrite (somewhere_ext _ (fun k => u k || v k)) by (intros k Hk; destruct (word_1 g k Hk) as (-> & ->); reflexivity). reflexivity.
  - eapply swapped_ext; [|exact U]. intros k Hk. cbv beta. destruct (word_1 g k Hk) as (-> & _). reflexivity.
  - eapply swapped_ext; [|exact V]. intros k Hk. cbv beta. destruct (word_1 g k Hk) as (_ & ->). reflexivity.
Qed.
Lemma ellip_draws K P c1 c2 g : let n := x_dim K in let u := fun k => low (word g (1 + 2 * k)) in let v := fun k => low (word g (2 + 2 * k)) in
  0 <= n -> len (e_center c1) = n -> len (e_spread c1) = n -> len (e_center c2) = n -> len (e_spread c2) = n ->
  if flt (u01 (word g 0)) (ea_p_crossover P)
  then exists d1 d2, ellip_crossover K P c1 c2 g = Ok ((d1, d2, somewhere (fun k => u k || v k) n), skip (1 + 2 * n) g) /\
         swapped f0 n u (e_center c1) (e_center c2) (e_center d1) (e_center d2) /\ swapped f0 n v (e_spread c1) (e_spread c2) (e_spread d1) (e_spread d2) /\
         e_mu d1 = e_mu c1 /\ e_mu d2 = e_mu c2
  else ellip_crossover K P c1 c2 g = Ok ((c1, c2, false), skip 1 g).
Proof.
  intros n u v Hn L1 L2 L3 L4. unfold ellip_crossover. destruct (flt (u01 (word g 0)) (ea_p_crossover P)) eqn:C; unfold bind at 1; rewrite draw01_eq, C; [|reflexivity].
  destruct (arrays_draws K _ _ _ _ (skip 1 g) Hn L1 L2 L3 L4) as (x1 & x2 & y1 & y2 & E & U & V).
  unfold bind. rewrite E. rewrite skip_skip by (unfold n in Hn; lia). exists (mkEllip x1 x2 (e_mu c1)), (mkEllip y1 y2 (e_mu c2)). cbn [e_center e_spread e_mu].
  split; [|split; [|split; [|split; reflexivity]]].
  - unfold ret. rewrite (somewhere_ext _ (fun k => u k || v k)) by (intros k Hk; destruct (word_1 g k Hk) as (-> & ->); reflexivity). reflexivity.
  - eapply swapped_ext; [|exact U]. intros k Hk. cbv beta. destruct (word_1 g k Hk) as (-> & _). reflexivity.
  - eapply swapped_ext; [|exact V]. intros k Hk. cbv beta. destruct (word_1 g k Hk) as (_ & ->). reflexivity.
Qed.
