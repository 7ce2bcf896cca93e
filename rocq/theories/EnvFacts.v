(** * The multiplexer and the mazes: lemmas. *)
From Coq Require Import ZArith Bool List Reals Lia Lra.
From Flocq Require Import Core BinarySingleNaN.
From Verif Require Import Outcome F64 F64Facts F64Bounds Rng RngFacts RandInt Pop PopSpec PopInv PopSel Arr ArrFacts CompFacts PopRL Env.
Import ListNotations.
Open Scope Z_scope.

(** pow(2, k) is exact for the exponents used. *)
Definition pow2_exact (lm : libm) : Prop := forall k, 0 <= k <= 31 -> m_pow lm f2 (of_Z k) = of_Z (2 ^ k).

(** The number written in binary by [l], most significant bit first. *)
Definition address (l : list bool) : Z := fold_left (fun a (b : bool) => 2 * a + (if b then 1 else 0)) l 0.
Definition high (v : f64) : bool := flt fhalf v.
(** The bit addressed by the first [p] entries of [x] among the rest. *)
Definition mux_answer (p : Z) (x : list f64) : Z :=
  if high (at_ f0 x (p + address (map high (firstn (Z.to_nat p) x)))) then 1 else 0.

Lemma address_app l b : address (l ++ [b]) = 2 * address l + (if b then 1 else 0).
Proof. unfold address. rewrite fold_left_app. reflexivity. Qed.
Lemma address_bound l : 0 <= address l < 2 ^ len l.
Proof.
  induction l as [|b l IH] using rev_ind; [unfold address, len; cbn; lia|].
  rewrite address_app. unfold len in *. rewrite app_length. cbn [length]. replace (Z.of_nat (length l + 1)) with (Z.of_nat (length l) + 1) by lia.
  rewrite Z.pow_add_r by lia. change (2 ^ 1) with 2. destruct b; lia.
Qed.

Lemma of_Z_fle a b : Z.abs a <= 2 ^ 53 -> Z.abs b <= 2 ^ 53 -> fle (of_Z a) (of_Z b) = (a <=? b).
Proof.
  intros Ha Hb. destruct (Z.leb_spec a b) as [H|H].
  - apply (fle_X _ _ (nn_of_Z a) (nn_of_Z b)). rewrite !X_of_Z by assumption. apply IZR_le, H.
  - apply (fle_X_false _ _ (nn_of_Z a) (nn_of_Z b)). rewrite !X_of_Z by assumption. apply IZR_lt, H.
Qed.
Lemma of_Z_fadd_le a b c : 0 <= a <= 2 ^ 40 -> 0 <= b <= 2 ^ 40 -> Z.abs c <= 2 ^ 53 -> fle (fadd (of_Z a) (of_Z b)) (of_Z c) = (a + b <=? c).
Proof.
  intros Ha Hb Hc. destruct (of_Z_fin a) as (Fa & Ra); [lia|]. destruct (of_Z_fin b) as (Fb & Rb); [lia|].
  destruct (fadd_fin (of_Z a) (of_Z b) Fa Fb) as (N & X'). rewrite Ra, Rb, <- plus_IZR, rnd_IZR in X' by lia.
  rewrite sat_id in X'.
  2:{ assert (IZR (a + b) <= bpow radix2 53)%R by (rewrite <- IZR_Zpower by lia; apply IZR_le; change (radix2 ^ 53) with (2 ^ 53); lia).
      assert (bpow radix2 53 <= bpow radix2 1024)%R by (apply bpow_le; lia). assert (0 <= IZR (a + b))%R by (apply IZR_le; lia). pose proof bnd_pos. lra. }
  destruct (Z.leb_spec (a + b) c) as [H|H].
  - apply (fle_X _ _ N (nn_of_Z c)). rewrite X', X_of_Z by assumption. apply IZR_le, H.
  - apply (fle_X_false _ _ N (nn_of_Z c)). rewrite X', X_of_Z by assumption. apply IZR_lt, H.
Qed.
Lemma to_int_of_Z z : in_int z = true -> to_int (of_Z z) = Some z.
Proof.
  intros H. assert (Hz := H). unfold in_int, int_min, int_max in H. apply andb_prop in H. destruct H as (H1 & H2). apply Z.leb_le in H1, H2.
  destruct (of_Z_fin z) as (F & R); [lia|]. rewrite (to_int_R _ z F R), Hz. reflexivity.
Qed.
Lemma in_int_iff z : in_int z = true <-> - 2 ^ 31 <= z <= 2 ^ 31 - 1.
Proof. unfold in_int, int_min, int_max. rewrite andb_true_iff, !Z.leb_le. reflexivity. Qed.
Lemma pow2_in k : 0 <= k <= 30 -> 0 < 2 ^ k <= 2 ^ 30.
Proof. intros H. split; [apply Z.pow_pos_nonneg; lia|apply Z.pow_le_mono_r; lia]. Qed.

Section Mux.
Context (lm : libm).
Hypothesis HP : pow2_exact lm.

Lemma mux_grow_spec fuel : forall bits p, in_int bits = true -> 1 <= p <= 31 -> 32 - p <= Z.of_nat fuel ->
  (p = 1 \/ p - 1 + 2 ^ (p - 1) <= bits) ->
  exists q, mux_grow lm fuel bits p = Ok q /\ p <= q <= 31 /\ (q = 1 \/ q - 1 + 2 ^ (q - 1) <= bits) /\ bits < q + 2 ^ q.
Proof.
  induction fuel as [|fuel IH]; intros bits p Hb Hp Hf Hq; [lia|].
  cbn [mux_grow]. rewrite (HP p) by lia. apply in_int_iff in Hb.
  assert (P1 : 0 < 2 ^ p <= 2 ^ 31) by (split; [apply Z.pow_pos_nonneg; lia|apply Z.pow_le_mono_r; lia]).
  rewrite of_Z_fadd_le by lia. destruct (Z.leb_spec (p + 2 ^ p) bits) as [H|H].
  - assert (p < 31) by (destruct (Z.eq_dec p 31) as [-> |]; [change (2 ^ 31) with 2147483648 in *; lia|lia]).
    destruct (IH bits (p + 1)) as (q & E & Q1 & Q2 & Q3); [apply in_int_iff; lia|lia|lia|right; replace (p + 1 - 1) with p by lia; exact H|].
    exists q. split; [exact E|]. split; [lia|]. auto.
  - exists p. split; [reflexivity|]. split; [lia|]. auto.
Qed.

Lemma mux_init_spec fuel bits : in_int bits = true -> 31 <= Z.of_nat fuel ->
  exists p, 0 <= p <= 30 /\ mux_init lm fuel bits = Ok (mkMux (repeat None (Z.to_nat (p + 2 ^ p))) p, p + 2 ^ p) /\
    (3 <= bits -> p + 2 ^ p <= bits < (p + 1) + 2 ^ (p + 1)) /\ (bits < 3 -> p = 0).
Proof.
  intros Hb Hf. destruct (mux_grow_spec fuel bits 1 Hb) as (q & E & Q1 & Q2 & Q3); [lia|lia|auto|].
  exists (q - 1). split; [lia|]. unfold mux_init. rewrite E. cbn [obind]. rewrite (HP (q - 1)) by lia.
  pose proof (pow2_in (q - 1) ltac:(lia)) as P1. rewrite to_int_of_Z by (apply in_int_iff; lia).
  rewrite (proj2 (in_int_iff _)) by lia. split; [reflexivity|]. replace (q - 1 + 1) with q by lia. split.
  - intros H3. split; [|exact Q3]. destruct Q2 as [-> |Q2]; [cbn; lia|exact Q2].
  - intros H3. destruct Q2 as [-> |Q2]; [reflexivity|]. assert (q < 2 \/ 2 <= q) as [?|?] by lia; [lia|].
    assert (2 ^ 1 <= 2 ^ (q - 1)) by (apply Z.pow_le_mono_r; lia). change (2 ^ 1) with 2 in *. lia.
Qed.

Lemma rt_01 : rt (fun _ => True) (rand_uniform f0 f1) (fun v => is_finite v = true /\ (0 < B2R v < 1)%R).
Proof. intros g _. pose proof (rand_01 g) as H. destruct (rand_uniform f0 f1 g) as [[v g']| | |]; try contradiction. exists v, g'. cbn in H. destruct H as (H1 & H2 & _). auto. Qed.

Lemma mux_state_spec n e : 0 <= n -> len (mx_state e) = n ->
  rt (fun _ => True) (mux_get_state n e) (fun r => exists x, r = (mkMux (map Some x) (mx_pos e), x) /\ len x = n /\
     Forall (fun v => is_finite v = true /\ (0 < B2R v < 1)%R) x).
Proof.
  intros Hn L. unfold mux_get_state. eapply rt_bind.
  - apply rt_for with (I := fun i (st : list (option f64)) => @len (option f64) st = n /\ forall j, 0 <= j < i -> exists u, @at_ (option f64) None st j = Some u /\ is_finite u = true /\ (0 < B2R u < 1)%R).
    + exact Hn.
    + split; [exact L|]. intros; lia.
    + intros i st Hi (L1 & H1). eapply rt_bind; [apply rt_01|]. intros u Hu. destruct (wr_ok st i (Some u)) as (st' & E & W1 & W2 & W3 & _); [lia|].
      eapply rt_lift; [exact E|]. split; [lia|]. intros j Hj. destruct (Z.eq_dec j i) as [-> |D].
      * exists u. split; [apply W2|exact Hu].
      * destruct (H1 j ltac:(lia)) as (w & Ew & Hw). exists w. split; [rewrite W3 by lia; exact Ew|exact Hw].
  - intros st (L1 & H1). cbv beta in *.
    assert (EX : exists x, ofor n (fun i x => (v <- rdi st i ;; Ok (x ++ [v]))%out) [] = Ok x /\ len x = n /\
       Forall (fun v => is_finite v = true /\ (0 < B2R v < 1)%R) x /\ forall j, 0 <= j < n -> @at_ (option f64) None st j = Some (at_ f0 x j)).
    { destruct (ofor_ind (fun i x => len x = i /\ Forall (fun v => is_finite v = true /\ (0 < B2R v < 1)%R) x /\ forall j, 0 <= j < i -> @at_ (option f64) None st j = Some (at_ f0 x j))
        (fun i x => (v <- rdi st i ;; Ok (x ++ [v]))%out) n []) as (x & E & X1 & X2 & X3).
      - exact Hn.
      - split; [reflexivity|]. split; [constructor|intros; lia].
      - intros i x Hi (X1 & X2 & X3). destruct (H1 i Hi) as (u & Eu & Hu). exists (x ++ [u]). unfold rdi.
        rewrite (@rd_ok (option f64) None st i) by (rewrite L1; exact Hi). cbn [obind]. rewrite Eu. split; [reflexivity|]. unfold len in *. rewrite app_length. cbn [length].
        split; [lia|]. split; [apply Forall_app; auto|]. intros j Hj. destruct (Z.eq_dec j i) as [-> |D].
        + rewrite Eu. unfold at_. rewrite app_nth2 by lia. replace (Z.to_nat i - length x)%nat with O by lia. reflexivity.
        + rewrite X3 by lia. unfold at_. rewrite app_nth1 by lia. reflexivity.
      - exists x. auto. }
    destruct EX as (x & E & X1 & X2 & X3). eapply rt_bind_lift; [exact E|]. apply rt_ret. exists x.
    split; [|auto]. f_equal. f_equal. apply (list_ext None).
    + unfold len in *. rewrite map_length. lia.
    + intros i Hi. rewrite X3 by lia. unfold at_. unfold len in *.
      rewrite nth_indep with (d' := Some f0) by (rewrite map_length; lia). rewrite map_nth. reflexivity.
Qed.

Lemma firstn_S_at {A} (d : A) l i : 0 <= i < len l -> firstn (Z.to_nat (i + 1)) l = firstn (Z.to_nat i) l ++ [at_ d l i].
Proof.
  intros H. unfold len, at_ in *. replace (Z.to_nat (i + 1)) with (S (Z.to_nat i)) by lia.
  assert (Hn : (Z.to_nat i < length l)%nat) by lia. clear H. generalize dependent (Z.to_nat i). clear i. intros n. revert l.
  induction n as [|n IH]; intros [|a l] H; cbn in H |- *; try lia; [reflexivity|]. rewrite <- IH by lia. reflexivity.
Qed.

Lemma mux_execute_spec p x a : 0 <= p <= 30 -> len x = p + 2 ^ p ->
  0 <= address (map high (firstn (Z.to_nat p) x)) < 2 ^ p /\
  mux_execute lm (mkMux (map Some x) p) a = Ok (if a =? mux_answer p x then f1 else f0).
Proof.
  intros Hp L. pose proof (pow2_in p Hp) as P2.
  assert (AB : forall i, 0 <= i <= p -> 0 <= address (map high (firstn (Z.to_nat i) x)) < 2 ^ i).
  { intros i Hi. pose proof (address_bound (map high (firstn (Z.to_nat i) x))) as H. unfold len in *. rewrite map_length, firstn_length_le in H by lia.
    rewrite Z2Nat.id in H by lia. exact H. }
  split; [apply AB; lia|]. unfold mux_execute. cbn [mx_pos mx_state].
  assert (RD : forall i, 0 <= i < len x -> rdi (map Some x) i = Ok (at_ f0 x i)).
  { intros i Hi. unfold rdi. rewrite (rd_ok None) by (unfold len in *; rewrite map_length; lia). cbn [obind].
    unfold at_, len in *. rewrite nth_indep with (d' := Some f0) by (rewrite map_length; lia). rewrite map_nth. reflexivity. }
  match goal with |- obind (ofor p ?F p) _ = _ => destruct (ofor_ind (fun i pos => pos = p + address (map high (firstn (Z.to_nat i) x)) * 2 ^ (p - i)) F p p) as (q & E & Q) end.
  - lia.
  - cbn. lia.
  - intros i pos Hi ->. rewrite RD by lia. cbn [obind].
    rewrite (firstn_S_at f0) by lia. rewrite map_app. cbn [map]. rewrite address_app.
    change (fgt (at_ f0 x i) fhalf) with (high (at_ f0 x i)).
    specialize (AB i ltac:(lia)). set (A := address (map high (firstn (Z.to_nat i) x))) in *.
    assert (E2 : 2 ^ (p - i) = 2 * 2 ^ (p - (i + 1))) by (rewrite <- Z.pow_succ_r by lia; f_equal; lia).
    assert (E3 : 2 ^ p = 2 ^ i * 2 ^ (p - i)) by (rewrite <- Z.pow_add_r by lia; f_equal; lia).
    assert (P3 : 0 < 2 ^ (p - (i + 1))) by (apply Z.pow_pos_nonneg; lia).
    destruct (high (at_ f0 x i)).
    + rewrite (HP (p - 1 - i)) by lia. replace (p - 1 - i) with (p - (i + 1)) by lia.
      pose proof (pow2_in (p - (i + 1)) ltac:(lia)). rewrite to_int_of_Z by (apply in_int_iff; lia).
      assert (0 <= A * 2 ^ (p - i) /\ A * 2 ^ (p - i) + 2 ^ (p - (i + 1)) < 2 ^ p) by nia.
      rewrite (proj2 (in_int_iff (p + A * 2 ^ (p - i) + 2 ^ (p - (i + 1))))) by (change (2 ^ 30) with 1073741824 in *; change (2 ^ 31) with 2147483648; lia). eexists. split; [reflexivity|]. rewrite E2. ring.
    + eexists. split; [reflexivity|]. rewrite E2. ring.
  - rewrite E. cbn [obind]. replace (p - p) with 0 in Q by lia. rewrite Z.mul_1_r in Q. specialize (AB p ltac:(lia)).
    rewrite RD by lia. cbn [obind]. unfold mux_answer, high at 1. rewrite Q. reflexivity.
Qed.

(** The multiplexer as an environment. *)
Definition mux_idle (p : Z) (e : mux) : Prop := mx_pos e = p /\ len (mx_state e) = p + 2 ^ p.
Lemma mux_env_ok FO K (dom : list f64 -> Prop) p : 0 <= p <= 30 -> x_dim K = p + 2 ^ p ->
  (forall x, len x = x_dim K -> Forall (fin_in 0 1) x -> dom x) ->
  env_ok (dom := dom) FO K (mux_env lm (x_dim K)) (mux_idle p).
Proof.
  intros Hp HX HD. pose proof (pow2_in p Hp) as P2. exists (mux_idle p). split; [|split; [auto|]].
  - intros e (E1 & E2). cbn [env_get_state mux_env].
    apply rt_rpost. eapply rt_mono; [apply (mux_state_spec (x_dim K) e); [lia|congruence]|].
    intros r (x & -> & L & F). cbn [fst snd]. split.
    + split; [exact L|]. apply HD; [exact L|]. eapply Forall_impl; [|exact F]. intros v (Fv & Rv). split; [exact Fv|lra].
    + intros a Ha. cbn [env_execute mux_env]. rewrite E1. destruct (mux_execute_spec p x a Hp ltac:(lia)) as (_ & EX). intros g.
      unfold bind, lift. rewrite EX. cbn. split; [reflexivity|]. cbn. unfold len in *. rewrite map_length. lia.
  - intros e He g. exact He.
Qed.
End Mux.

(** ** Mazes. *)
Definition alphabet : list Z := [ch_star; ch_O; ch_G; ch_F; ch_Q].
(** Every cell of the maze is known and has a legal character. *)
Record wf_maze (e : maze) : Prop := {
  wm_w : 1 <= mz_w e <= 50;
  wm_h : 1 <= mz_h e <= 50;
  wm_cell : forall x y, 0 <= x < mz_w e -> 0 <= y < mz_h e -> exists c, cell (mz_grid e) x y = Ok c /\ In c alphabet
}.
Definition in_maze (e : maze) : Prop := wf_maze e /\ 0 <= mz_x e < mz_w e /\ 0 <= mz_y e < mz_h e.

Lemma wrap_mod v n : 0 < n -> wrap v n = Ok (v mod n).
Proof.
  intros H. unfold wrap. destruct (Z.eqb_spec n 0); [lia|]. f_equal.
  pose proof (Z.quot_rem' v n) as Q. assert (B : - n < Z.rem v n < n) by (pose proof (Z.rem_bound_abs v n ltac:(lia)); lia).
  rewrite Z.rem_mod_nonneg by lia. replace (Z.rem v n + n) with (v + (1 - Z.quot v n) * n) by lia. apply Z_mod_plus_full.
Qed.

Lemma rp_lift_ok {A} FO (o : outcome A) (Q : A -> Prop) a : o = Ok a -> Q a -> rpost FO (lift o) Q.
Proof. intros -> H g. exact H. Qed.

Lemma maze_place_spec (FO : Prop) fuel : forall e, FO -> wf_maze e -> rpost FO (maze_place fuel e) (fun e' =>
  in_maze e' /\ cell (mz_grid e) (mz_x e') (mz_y e') = Ok ch_star /\ mz_done e' = false /\
  mz_grid e' = mz_grid e /\ mz_w e' = mz_w e /\ mz_h e' = mz_h e).
Proof.
  induction fuel as [|fuel IH]; intros e HF W; [intros g; exact HF|]. cbn [maze_place].
  eapply rp_bind; [apply rp_uniform_int; pose proof (wm_w _ W); unfold int_max; lia|intros x Hx].
  eapply rp_bind; [apply rp_uniform_int; pose proof (wm_h _ W); unfold int_max; lia|intros y Hy].
  destruct (wm_cell _ W x y Hx Hy) as (c & Ec & _).
  eapply rp_bind; [apply (rp_lift_ok FO _ (fun c' => c' = c) c Ec eq_refl)|intros c' ->].
  destruct (Z.eqb_spec c ch_star) as [-> |D]; [|apply (IH e HF W)].
  apply rp_ret. cbn. split; [|auto 10]. split; [|cbn; auto]. constructor; cbn; [apply W|apply W|apply (wm_cell _ W)].
Qed.
Lemma maze_stuck fuel : forall e g, wf_maze e ->
  (forall x y, 0 <= x < mz_w e -> 0 <= y < mz_h e -> cell (mz_grid e) x y <> Ok ch_star) -> maze_place fuel e g = OutOfFuel.
Proof.
  induction fuel as [|fuel IH]; intros e g W N; [reflexivity|]. cbn [maze_place]. unfold bind at 1.
  pose proof (rand_uniform_int_0 (mz_w e) g ltac:(pose proof (wm_w _ W); unfold int_max; lia)) as HX.
  destruct (rand_uniform_int 0 (mz_w e) g) as [[x g1]| | |]; try contradiction. destruct HX as (HX & _). unfold bind at 1.
  pose proof (rand_uniform_int_0 (mz_h e) g1 ltac:(pose proof (wm_h _ W); unfold int_max; lia)) as HY.
  destruct (rand_uniform_int 0 (mz_h e) g1) as [[y g2]| | |]; try contradiction. destruct HY as (HY & _). unfold bind, lift.
  destruct (wm_cell _ W x y HX HY) as (c & Ec & _). rewrite Ec. destruct (Z.eqb_spec c ch_star) as [-> |D].
  - exfalso. apply (N x y HX HY Ec).
  - apply IH; assumption.
Qed.
Lemma maze_placed e x y : wf_maze e -> 0 <= x < mz_w e -> 0 <= y < mz_h e -> cell (mz_grid e) x y = Ok ch_star ->
  exists g g', maze_place 1 e g = Ok (mkMaze (mz_grid e) x y (mz_w e) (mz_h e) false, g').
Proof.
  intros W Hx Hy Ec.
  destruct (rand_uniform_int_all (mz_w e) x ltac:(pose proof (wm_w _ W); unfold int_max; lia) Hx) as (m1 & H1).
  destruct (rand_uniform_int_all (mz_h e) y ltac:(pose proof (wm_h _ W); unfold int_max; lia) Hy) as (m2 & H2).
  exists (mkRng (fun n => match n with O => m1 | _ => m2 end) 0 false f0). eexists. cbn [maze_place]. unfold bind at 1.
  rewrite H1 by reflexivity. unfold bind at 1. rewrite H2 by reflexivity. unfold bind, lift. rewrite Ec. reflexivity.
Qed.

(** The code of a perceived character. *)
Definition percept (c : Z) : f64 :=
  if c =? ch_star then lit 1 10 else if c =? ch_O then lit 3 10 else if c =? ch_G then lit 5 10
  else if c =? ch_F then lit 7 10 else lit 9 10.
(** The neighbours in reading order. *)
Definition around : list (Z * Z) := [(-1, -1); (0, -1); (1, -1); (-1, 0); (1, 0); (-1, 1); (0, 1); (1, 1)].
(** The eight compass directions clockwise from north. *)
Definition compass : list (Z * Z) := [(0, -1); (1, -1); (1, 0); (1, 1); (0, 1); (-1, 1); (-1, 0); (-1, -1)].
(** The character at an offset from the agent, on the torus. *)
Definition seen (e : maze) (d : Z * Z) : Z :=
  match cell (mz_grid e) ((mz_x e + fst d) mod mz_w e) ((mz_y e + snd d) mod mz_h e) with Ok c => c | _ => 0 end.

Lemma seen_ok e d : in_maze e -> cell (mz_grid e) ((mz_x e + fst d) mod mz_w e) ((mz_y e + snd d) mod mz_h e) = Ok (seen e d) /\ In (seen e d) alphabet.
Proof.
  intros (W & _). unfold seen.
  destruct (wm_cell _ W ((mz_x e + fst d) mod mz_w e) ((mz_y e + snd d) mod mz_h e)) as (c & Ec & Hc).
  - apply Z.mod_pos_bound. pose proof (wm_w _ W). lia.
  - apply Z.mod_pos_bound. pose proof (wm_h _ W). lia.
  - rewrite Ec. auto.
Qed.
Lemma sensor_ok c : In c alphabet -> maze_sensor c = Ok (percept c).
Proof. intros [<-|[<-|[<-|[<-|[<-|[]]]]]]; reflexivity. Qed.

Lemma maze_state_spec e : in_maze e -> maze_get_state e = Ok (map (fun d => percept (seen e d)) around).
Proof.
  intros I. assert (W := proj1 I). pose proof (wm_w _ W) as Hw. pose proof (wm_h _ W) as Hh.
  assert (S1 : forall dx dy, (xs <- wrap (mz_x e + dx) (mz_w e) ;; ys <- wrap (mz_y e + dy) (mz_h e) ;; c <- cell (mz_grid e) xs ys ;; maze_sensor c)%out = Ok (percept (seen e (dx, dy)))).
  { intros dx dy. rewrite !wrap_mod by lia. cbn [obind]. destruct (seen_ok e (dx, dy) I) as (E & H). cbn [fst snd] in E. rewrite E. cbn [obind]. apply sensor_ok, H. }
  assert (S2 : forall dx dy st, (xs <- wrap (mz_x e + dx) (mz_w e) ;; ys <- wrap (mz_y e + dy) (mz_h e) ;; c <- cell (mz_grid e) xs ys ;; v <- maze_sensor c ;; Ok (st ++ [v]))%out
     = Ok (st ++ [percept (seen e (dx, dy))])).
  { intros dx dy st. specialize (S1 dx dy). destruct (wrap (mz_x e + dx) (mz_w e)); try discriminate. cbn [obind] in *.
    destruct (wrap (mz_y e + dy) (mz_h e)); try discriminate. cbn [obind] in *. destruct (cell (mz_grid e) a a0); try discriminate. cbn [obind] in *. rewrite S1. reflexivity. }
  unfold maze_get_state, ofor. change (Z.to_nat 3) with 3%nat. cbn [oloop]. 
  change (0 - 1) with (-1). change (0 + 1) with 1. change (1 + 1) with 2. change (1 - 1) with 0. change (2 - 1) with 1.
  cbn [Z.eqb andb]. rewrite !S2. cbn [obind]. rewrite !S2. cbn [obind]. rewrite !S2. cbn [obind]. rewrite !S2. cbn [obind]. rewrite !S2. cbn [obind].
  rewrite !S2. cbn [obind]. rewrite !S2. cbn [obind]. rewrite !S2. cbn [obind]. reflexivity.
Qed.

(** The agent at another place. *)
Definition moved (e : maze) (x y : Z) (done : bool) : maze := mkMaze (mz_grid e) x y (mz_w e) (mz_h e) done.
Lemma maze_execute_spec e a d : in_maze e -> 0 <= a -> nth_error compass (Z.to_nat a) = Some d ->
  let x := (mz_x e + fst d) mod mz_w e in let y := (mz_y e + snd d) mod mz_h e in
  0 <= x < mz_w e /\ 0 <= y < mz_h e /\
  exists c, cell (mz_grid e) x y = Ok c /\ In c alphabet /\
    (c = ch_O \/ c = ch_Q -> maze_execute e a = Ok (e, f0)) /\
    (c = ch_star -> maze_execute e a = Ok (moved e x y (mz_done e), f0)) /\
    (c = ch_F \/ c = ch_G -> maze_execute e a = Ok (moved e x y true, f1)).
Proof.
  intros I A0 Hd x y. assert (W := proj1 I). pose proof (wm_w _ W) as Hw. pose proof (wm_h _ W) as Hh.
  split; [apply Z.mod_pos_bound; lia|]. split; [apply Z.mod_pos_bound; lia|].
  exists (seen e d). destruct (seen_ok e d I) as (Ec & Hc). fold x y in Ec. split; [exact Ec|]. split; [exact Hc|].
  assert (A7 : a <= 7). { assert (H := nth_error_Some compass (Z.to_nat a)). rewrite Hd in H. assert (Z.to_nat a < length compass)%nat by (apply H; discriminate). cbn in *. lia. }
  assert (M : rd x_moves a = Ok (fst d) /\ rd y_moves a = Ok (snd d)).
  { assert (a = 0 \/ a = 1 \/ a = 2 \/ a = 3 \/ a = 4 \/ a = 5 \/ a = 6 \/ a = 7) as C by lia.
    repeat destruct C as [-> |C]; try (subst a); cbn in Hd; injection Hd as <-; split; reflexivity. }
  destruct M as (M1 & M2).
  assert (EX : maze_execute e a = if (seen e d =? ch_O) || (seen e d =? ch_Q) then Ok (e, f0)
     else if seen e d =? ch_star then Ok (moved e x y (mz_done e), f0)
     else if (seen e d =? ch_F) || (seen e d =? ch_G) then Ok (moved e x y true, f1) else Exit).
  { unfold maze_execute. destruct (Z.ltb_spec a 0); [lia|]. rewrite (Z.gtb_ltb a 7). destruct (Z.ltb_spec 7 a); [lia|]. cbn [orb].
    rewrite M1, M2. cbn [obind]. rewrite !wrap_mod by lia. cbn [obind]. fold x y. rewrite Ec. reflexivity. }
  rewrite EX. split; [|split].
  - intros [-> | ->]; reflexivity.
  - intros ->; reflexivity.
  - intros [-> | ->]; reflexivity.
Qed.
Lemma moved_in e x y b : wf_maze e -> 0 <= x < mz_w e -> 0 <= y < mz_h e -> in_maze (moved e x y b).
Proof. intros W Hx Hy. split; [|cbn; auto]. constructor; cbn; [apply W|apply W|apply (wm_cell _ W)]. Qed.
Lemma maze_execute_in e a : in_maze e -> 0 <= a < 8 -> exists e' r, maze_execute e a = Ok (e', r) /\ in_maze e' /\
  mz_grid e' = mz_grid e /\ mz_w e' = mz_w e /\ mz_h e' = mz_h e /\
  (r = f0 /\ mz_done e' = mz_done e \/ r = f1 /\ mz_done e' = true).
Proof.
  intros I A. assert (ND : nth_error compass (Z.to_nat a) <> None) by (apply nth_error_Some; cbn; lia).
  destruct (nth_error compass (Z.to_nat a)) as [d|] eqn:Hd; [|congruence].
  destruct (maze_execute_spec e a d I ltac:(lia) Hd) as (Hx & Hy & c & Ec & Hc & H1 & H2 & H3).
  destruct Hc as [<-|[<-|[<-|[<-|[<-|[]]]]]].
  - rewrite H2 by reflexivity. eexists _, _. split; [reflexivity|]. split; [apply moved_in; [apply I|assumption|assumption]|]. cbn. auto 10.
  - rewrite H1 by auto. eexists _, _. split; [reflexivity|]. split; [exact I|]. auto 10.
  - rewrite H3 by auto. eexists _, _. split; [reflexivity|]. split; [apply moved_in; [apply I|assumption|assumption]|]. cbn. auto 10.
  - rewrite H3 by auto. eexists _, _. split; [reflexivity|]. split; [apply moved_in; [apply I|assumption|assumption]|]. cbn. auto 10.
  - rewrite H1 by auto. eexists _, _. split; [reflexivity|]. split; [exact I|]. auto 10.
Qed.

(** A maze as an environment (resetting may fail to end). *)
Lemma maze_env_ok (FO : Prop) K (dom : list f64 -> Prop) fuel : FO -> x_dim K = 8 -> n_actions K = 8 ->
  (forall x, len x = 8 -> Forall (fin_in 0 1) x -> dom x) ->
  env_ok (dom := dom) FO K (maze_env fuel) wf_maze.
Proof.
  intros HF HX HN HD. exists in_maze. split; [|split].
  - intros e I g. cbn [env_get_state maze_env]. unfold bind, lift. rewrite (maze_state_spec e I). cbn [ret fst snd].
    split.
    + split; [rewrite HX; reflexivity|]. apply HD; [reflexivity|]. apply Forall_map, Forall_forall. intros d _. 
      assert (P : forall p q, 0 < p <= 10 -> q = 10 -> fin_in 0 1 (lit p q)).
      { intros p q Hp ->. apply fle_01_in; [|]; assert (C : p = 1 \/ p = 2 \/ p = 3 \/ p = 4 \/ p = 5 \/ p = 6 \/ p = 7 \/ p = 8 \/ p = 9 \/ p = 10) by lia;
          repeat destruct C as [-> |C]; try (subst p); vm_compute; reflexivity. }
      unfold percept. repeat destruct (_ =? _); apply P; lia.
    + intros a Ha g'. cbn [env_execute maze_env]. destruct (maze_execute_in e a I ltac:(lia)) as (e' & r & E & I' & _).
      unfold lift. rewrite E. exact I'.
  - intros e I. apply I.
  - intros e W. eapply rp_mono; [apply (maze_place_spec FO fuel e HF W)|]. intros e' (I & _). exact I.
Qed.
