(** * GP trees (C39). *)
From Coq Require Import ZArith Bool List Lia Reals Lra.
From Flocq Require Import Core BinarySingleNaN.
From Verif Require Import Outcome F64 F64Facts F64Bounds Rng RngFacts RandInt Pop PopSpec PopInv Arr ArrFacts Sam SamFacts Cond Comp TernFacts CompFacts Gp GpRand GpFacts GpOps.
Import ListNotations.
Open Scope Z_scope.

Section C39.
Context (a : targs) (TA : targs_ok a) (DP : 1 <= ta_depth a) (ML : 0 <= ta_max_len a <= int_max) (lm : libm).
Notation any := (fun _ : rng => True).
Notation sany := (src_any lm).

(** Trees made by any sequence of operations, with any random draws. *)
Inductive made_gp : gptree -> Prop :=
| mg_rand fuel g c g' : tree_rand a fuel g = Ok (c, g') -> made_gp c
| mg_copy c d : made_gp c -> tree_copy c = Ok d -> made_gp d
| mg_cross1 c1 c2 g d1 d2 g' : made_gp c1 -> made_gp c2 -> tree_crossover c1 c2 g = Ok ((d1, d2), g') -> made_gp d1
| mg_cross2 c1 c2 g d1 d2 g' : made_gp c1 -> made_gp c2 -> tree_crossover c1 c2 g = Ok ((d1, d2), g') -> made_gp d2
| mg_mutate c g d ch g' : made_gp c -> tree_mutate a lm c g = Ok ((d, ch), g') -> made_gp d
| mg_match c x d b : made_gp c -> ta_inputs a <= len x -> gp_match a c x = Ok (d, b) -> made_gp d
| mg_cover f1 f2 x g c g' : ta_inputs a <= len x -> gp_cover a f1 f2 x g = Ok (c, g') -> made_gp c.

Lemma adapt_len mu : length mu = 1%nat -> rt any (sam_adapt lm gp_mu_type mu) (fun mu' => length mu' = 1%nat /\ True).
Proof.
  intros L. eapply rt_mono; [apply (sam_adapt_len any lm _ sany gp_mu_type mu); [repeat constructor; right; left; reflexivity|exact L]|]. auto.
Qed.
(** *** Each operation *)
Lemma C39_rand_lemma fuel g : match tree_rand a fuel g with
  | Ok (c, _) => exists e, gp_tree c = flat e /\ gp_len c = len (flat e) /\ ranged a e /\
      (1 <= height e <= Z.to_nat (ta_depth a))%nat /\ len (flat e) <= ta_max_len a /\ length (gp_mu c) = 1%nat
  | OutOfFuel => fuel = O \/ ta_max_len a < 2 ^ (ta_depth a + 1) - 1
  | _ => False
  end.
Proof.
  pose proof (rand_ok any lm _ sany a TA DP ML (fuel = O \/ ta_max_len a < 2 ^ (ta_depth a + 1) - 1) fuel (fun H => H) g I) as H.
  destruct (tree_rand a fuel g) as [[c g']| | |]; try exact H. destruct H as (_ & (_ & _ & W) & (e & (E1 & E2 & E3) & HH & M) & _).
  exists e. rewrite E2 in M. auto 10.
Qed.
Lemma C39_stuck_lemma fuel g : ta_max_len a < 3 -> tree_rand a fuel g = OutOfFuel.
Proof. intros H. apply (rand_stuck any lm _ sany a TA DP ML); auto. Qed.
Lemma C39_copy_lemma c e : holds a c e -> tree_copy c = Ok c.
Proof.
  intros (E1 & E2 & _). unfold tree_copy. rewrite E1, E2. unfold len. destruct (_ <? _) eqn:E; [lia|].
  rewrite Nat2Z.id, firstn_all. destruct c as [t l p m]; cbn [gp_tree gp_len gp_pos gp_mu] in *. subst. reflexivity.
Qed.
Lemma C39_crossover_lemma p1 p2 e1 e2 g : holds a p1 e1 -> holds a p2 e2 -> gp_len p1 <= int_max -> gp_len p2 <= int_max ->
  match tree_crossover p1 p2 g with
  | Ok (r, _) => swapped a p1 p2 e1 e2 r
  | OutOfFuel => int_max < gp_len p1 + gp_len p2
  | _ => False
  end.
Proof.
  intros H1 H2 L1 L2. pose proof (crossover_ok any lm _ sany a (int_max < gp_len p1 + gp_len p2) p1 p2 e1 e2 H1 H2 L1 L2 (fun H => H) g I) as H.
  destruct (tree_crossover p1 p2 g) as [[r g']| | |]; try exact H. destruct H as (_ & H). exact H.
Qed.
Lemma C39_mutate_lemma c e g : holds a c e -> length (gp_mu c) = 1%nat ->
  exists d ch g', tree_mutate a lm c g = Ok ((d, ch), g') /\ mutated a c e (d, ch) /\ length (gp_mu d) = 1%nat.
Proof.
  intros H L. destruct (mutate_ok any lm _ sany a TA c e (fun _ => True) H (adapt_len _ L) g I) as ([d ch] & g' & E & _ & M & L' & _).
  exists d, ch, g'. auto.
Qed.
Lemma C39_match_lemma c e x : holds a c e -> ta_inputs a <= len x ->
  gp_match a c x = Ok (mkGp (gp_tree c) (gp_len c) (Some (gp_len c)) (gp_mu c), fgt (value a x e) fhalf).
Proof. exact (match_ok a TA c e x). Qed.

Lemma wf_match c x : wf_gp a c -> ta_inputs a <= len x -> exists d b, gp_match a c x = Ok (d, b) /\ wf_gp a d /\
  exists e, holds a c e /\ holds a d e /\ b = fgt (value a x e) fhalf.
Proof.
  intros ((e & H) & L & M) HX. eexists _, _. split; [apply C39_match_lemma; eassumption|].
  assert (H' : holds a (mkGp (gp_tree c) (gp_len c) (Some (gp_len c)) (gp_mu c)) e) by exact H.
  split; [split; [exists e; exact H'|split; assumption]|]. exists e. auto.
Qed.
Lemma C39_cover_lemma f1 f2 x g : ta_inputs a <= len x -> match gp_cover a f1 f2 x g with
  | Ok (c, _) => wf_gp a c /\ exists e, holds a c e /\ (1 <= height e <= Z.to_nat (ta_depth a))%nat /\ gp_len c <= ta_max_len a /\
      fgt (value a x e) fhalf = true
  | OutOfFuel => True
  | _ => False
  end.
Proof.
  intros HX. revert g. induction f1 as [|f1 IH]; intros g; [exact I|]. cbn [gp_cover]. unfold bind at 1.
  pose proof (rand_ok any lm _ sany a TA DP ML True f2 (fun _ => I) g I) as H.
  destruct (tree_rand a f2 g) as [[c g']| | |]; try exact H. destruct H as (_ & W & (e & HO & HH & M) & _).
  unfold bind, lift. rewrite (C39_match_lemma c e x HO HX). cbn [fst snd].
  destruct (fgt (value a x e) fhalf) eqn:E; [|apply IH]. cbn [ret].
  assert (HO' : holds a (mkGp (gp_tree c) (gp_len c) (Some (gp_len c)) (gp_mu c)) e) by exact HO.
  destruct W as (_ & W2 & W3). split; [split; [exists e; exact HO'|split; assumption]|]. exists e. auto.
Qed.
(** *** Any sequence *)
Lemma made_wf c : made_gp c -> wf_gp a c.
Proof.
  induction 1 as [fuel g c g' E|c d _ IH E|c1 c2 g d1 d2 g' _ IH1 _ IH2 E|c1 c2 g d1 d2 g' _ IH1 _ IH2 E|c g d ch g' _ IH E|c x d b _ IH HX E|f1 f2 x g c g' HX E].
  - pose proof (C39_rand_lemma fuel g) as H. rewrite E in H. destruct H as (e & E1 & E2 & E3 & _ & M & L).
    split; [exists e; repeat split; assumption|]. split; [rewrite E2; lia|exact L].
  - destruct IH as ((e & H) & W). rewrite (C39_copy_lemma c e H) in E. injection E as <-. split; [exists e; exact H|exact W].
  - destruct IH1 as ((e1 & H1) & L1 & M1), IH2 as ((e2 & H2) & L2 & M2). pose proof (C39_crossover_lemma c1 c2 e1 e2 g H1 H2 L1 L2) as H.
    rewrite E in H. destruct H as (k1 & k2 & _ & _ & H3 & H4 & H5 & H6 & _ & _ & H7 & _). cbn [fst snd] in *.
    split; [eexists; exact H3|]. split; [exact H5|congruence].
  - destruct IH1 as ((e1 & H1) & L1 & M1), IH2 as ((e2 & H2) & L2 & M2). pose proof (C39_crossover_lemma c1 c2 e1 e2 g H1 H2 L1 L2) as H.
    rewrite E in H. destruct H as (k1 & k2 & _ & _ & H3 & H4 & H5 & H6 & _ & _ & _ & _ & H7). cbn [fst snd] in *.
    split; [eexists; exact H4|]. split; [exact H6|congruence].
  - destruct IH as ((e & H) & L & M). destruct (C39_mutate_lemma c e g H M) as (d' & ch' & g1 & E' & (e' & H1 & _ & H2 & _) & L').
    rewrite E in E'. injection E' as <- <- <-. cbn [fst] in *. split; [exists e'; exact H1|]. split; [lia|exact L'].
  - destruct (wf_match c x IH HX) as (d' & b' & E' & W & _). rewrite E in E'. injection E' as <- <-. exact W.
  - pose proof (C39_cover_lemma f1 f2 x g HX) as H. rewrite E in H. apply H.
Qed.
Lemma C39_lemma c : made_gp c ->
  (exists e, gp_tree c = flat e /\ gp_len c = len (flat e) /\ ranged a e) /\
  forall x, ta_inputs a <= len x -> exists d b, gp_match a c x = Ok (d, b).
Proof.
  intros H. apply made_wf in H. split; [exact (proj1 H)|]. intros x HX. destruct (wf_match c x H HX) as (d & b & E & _). eauto.
Qed.
End C39.

(** ** Values are numbers. *)
Lemma lim_fin z : -1000 <= z <= 1000 -> is_finite (of_Z z) = true /\ B2R (of_Z z) = IZR z.
Proof. intros H. apply of_Z_fin. change (2 ^ 53) with 9007199254740992. lia. Qed.
Lemma clamp_fin v : nn v -> is_finite (clamp v (of_Z (-1000)) (of_Z 1000)) = true /\
  (-1000 <= B2R (clamp v (of_Z (-1000)) (of_Z 1000)) <= 1000)%R.
Proof.
  intros N. destruct (lim_fin (-1000) ltac:(lia)) as (F1 & R1). destruct (lim_fin 1000 ltac:(lia)) as (F2 & R2).
  unfold clamp. destruct (flt v (of_Z (-1000))) eqn:E1; [rewrite R1; split; [exact F1|lra]|].
  destruct (fgt v (of_Z 1000)) eqn:E2; [rewrite R2; split; [exact F2|lra]|].
  assert (B : (-1000 <= X v <= 1000)%R).
  { change (flt (of_Z 1000) v = false) in E2. apply (flt_X_false v (of_Z (-1000)) N (nn_of_Z _)) in E1. apply (flt_X_false (of_Z 1000) v (nn_of_Z _) N) in E2.
    rewrite (X_finite _ F1), R1 in E1. rewrite (X_finite _ F2), R2 in E2. auto. }
  assert (BN : (1000 < bnd)%R) by (apply (lt_bnd 1000); lia).
  assert (F : is_finite v = true) by (apply nn_X_finite; [exact N|lra]). rewrite <- (X_finite v F). auto.
Qed.
Lemma value_nn a x e : len (ta_const a) = ta_nconst a -> ta_inputs a <= len x -> Forall nn (ta_const a) -> Forall nn x -> ranged a e -> nn (value a x e).
Proof.
  intros LC LX NC NX. induction e as [n|op l IHl r IHr]; intros R; cbn [value].
  - change (4 <= n < 4 + ta_nconst a + ta_inputs a) in R. rewrite (Forall_at _ f0) in NC. rewrite (Forall_at _ f0) in NX.
    destruct (n <? 4 + ta_nconst a) eqn:E; [apply NC; lia|apply NX; lia].
  - destruct R as (_ & Rl & Rr). destruct (clamp_fin _ (IHl Rl)) as (F1 & B1). destruct (clamp_fin _ (IHr Rr)) as (F2 & B2).
    set (u := clamp (value a x l) _ _) in *. set (v := clamp (value a x r) _ _) in *.
    destruct (op =? 0); [apply (fadd_fin u v F1 F2)|]. destruct (op =? 1); [apply (fsub_fin u v F1 F2)|]. destruct (op =? 2); [apply (fmul_fin u v F1 F2)|].
    destruct (feq v f0) eqn:E; [apply fin_nn, F1|]. apply (fdiv_fin u v F1 F2). intros C.
    assert (feq v f0 = true); [|congruence]. apply feq_X; [apply fin_nn, F2|exact nn_f0|]. rewrite (X_finite v F2), (X_finite f0 f0_fin), f0_R. exact C.
Qed.

(** ** The expression of a tree is unique. *)
Lemma flat_prefix a e : ranged a e -> forall e' s s', ranged a e' -> flat e ++ s = flat e' ++ s' -> e = e' /\ s = s'.
Proof.
  induction e as [n|op l IHl r IHr]; intros R [n'|op' l' r'] s s' R' E; cbn [flat app] in E; injection E as E0 E.
  - subst. auto.
  - subst n. exfalso. destruct R' as (R' & _). change (4 <= op' < 4 + ta_nconst a + ta_inputs a) in R. lia.
  - subst op. exfalso. destruct R as (R & _). change (4 <= n' < 4 + ta_nconst a + ta_inputs a) in R'. lia.
  - destruct R as (_ & Rl & Rr), R' as (_ & Rl' & Rr'). rewrite <- !app_assoc in E. destruct (IHl Rl _ _ _ Rl' E) as (-> & E1).
    destruct (IHr Rr _ _ _ Rr' E1) as (-> & ->). subst. auto.
Qed.
Lemma holds_unique a c e e' : holds a c e -> holds a c e' -> e = e'.
Proof.
  intros (E & _ & R) (E' & _ & R'). rewrite E in E'. apply (f_equal (fun l => l ++ [])) in E'. apply (flat_prefix a e R e' [] [] R' E').
Qed.

(** ** Rules with GP conditions meet the contract of the population code. *)
Definition gp_matches (a : targs) (c : gptree) (x : list f64) : Prop := exists e, holds a c e /\ fgt (value a x e) fhalf = true.
Lemma gp_ok dom (FO : Prop) (K : cfg) (P : cpar) a : FO -> targs_ok a -> 1 <= ta_depth a -> 0 <= ta_max_len a <= int_max -> ta_inputs a <= x_dim K ->
  cond_ok dom FO K (gp_cond a K P) (wf_gp a) (gp_matches a).
Proof.
  intros F TA DP ML HX. split; cbn [gp_cond k_init k_copy k_cover k_match k_update k_general k_crossover k_mutate].
  - intros g. pose proof (rand_ok _ (lm K) _ (src_any (lm K)) a TA DP ML FO (loop_fuel K) (fun _ => F) g I) as H.
    destruct (tree_rand a (loop_fuel K) g) as [[c g']| | |]; try contradiction; [apply H|exact F].
  - intros c W. destruct W as ((e & H) & W). eapply rp_lift; [eapply C39_copy_lemma; exact H|]. split; [exists e; exact H|exact W].
  - intros c0 x W (LX & _) g. pose proof (C39_cover_lemma a TA DP ML (lm K) (loop_fuel K) (loop_fuel K) x g) as H.
    specialize (H ltac:(unfold len; lia)). destruct (gp_cover a (loop_fuel K) (loop_fuel K) x g) as [[c g']| | |]; try contradiction; [|exact F].
    destruct H as (W' & e & HO & _ & _ & V). split; [exact W'|exists e; auto].
  - intros c x W (LX & _). destruct (wf_match a TA c x W ltac:(unfold len; lia)) as (d & b & E & W' & e & _ & HO & ->).
    eapply rp_lift; [exact E|]. cbn [fst snd]. split; [exact W'|]. split; [intros V; exists e; auto|].
    intros (e' & HO' & V). rewrite (holds_unique a d e e' HO HO'). exact V.
  - intros c x y W _ _. apply rp_ret, W.
  - intros c1 c2 _ _. exists false. reflexivity.
  - intros c1 c2 W1 W2. unfold gp_crossover. eapply rp_bind; [apply rt_rpost, (rt_uniform _ (lm K) _ (src_any (lm K)))|]. intros u _.
    destruct (flt u (ea_p_crossover P)); [|apply rp_ret; cbn [fst snd]; auto].
    destruct W1 as ((e1 & H1) & L1 & M1), W2 as ((e2 & H2) & L2 & M2).
    eapply rp_bind with (P1 := fun r => wf_gp a (fst r) /\ wf_gp a (snd r)); [|intros r W; apply rp_ret; exact W].
    intros g. pose proof (C39_crossover_lemma a (lm K) c1 c2 e1 e2 g H1 H2 L1 L2) as H.
    destruct (tree_crossover c1 c2 g) as [[r g']| | |]; try contradiction; [|exact F].
    destruct H as (k1 & k2 & _ & _ & H3 & H4 & H5 & H6 & _ & _ & H7 & _ & H8).
    split; (split; [eexists; eassumption|split; [assumption|congruence]]).
  - intros c ((e & H) & L & M) g. destruct (C39_mutate_lemma a TA (lm K) c e g H M) as (d & ch & g' & E & (e' & H1 & _ & H2 & _) & L').
    rewrite E. cbn [fst] in *. split; [exists e'; exact H1|]. split; [lia|exact L'].
Qed.
Lemma C39_system_lemma dom (FO : Prop) (K : cfg) (P : cpar) a {A Q} (VA : actT A) (VP : predT Q) wa wp :
  FO -> targs_ok a -> 1 <= ta_depth a -> 0 <= ta_max_len a <= int_max -> ta_inputs a <= x_dim K ->
  CompFacts.act_ok dom FO K VA wa -> pred_ok dom FO K VP wp ->
  vt_ok (dom := dom) FO (join (gp_cond a K P) VA VP) K (wf_pay (wf_gp a) wa wp) (mt_pay (gp_matches a)).
Proof. intros F TA DP ML HX HA HP. apply join_ok; [apply gp_ok; assumption|exact HA|exact HP]. Qed.

(** ** Two or five terminals. *)
Definition mkT (nc ni : Z) : targs := mkTargs f1 f0 ni nc 1 10000 (repeat f1 (Z.to_nat nc)).
Lemma C39_refuted_lemma : forall nc ni, 1 <= nc -> 1 <= ni -> nc + ni = 2 \/ nc + ni = 5 ->
  exists g c g', tree_rand (mkT nc ni) 1 g = Ok (c, g') /\ gp_tree c = [3; 4 + nc + ni; 4 + nc + ni] /\
    forall x, len x = ni -> gp_match (mkT nc ni) c x = UB OutOfBounds.
Proof.
  intros nc ni H1 H2 H.
  assert (C : nc = 1 /\ ni = 1 \/ nc = 1 /\ ni = 4 \/ nc = 2 /\ ni = 3 \/ nc = 3 /\ ni = 2 \/ nc = 4 /\ ni = 1) by lia.
  assert (TR : match tree_rand (mkT nc ni) 1 top_gen with Ok (c, _) => gp_tree c = [3; 4 + nc + ni; 4 + nc + ni] | _ => False end).
  { destruct C as [(-> & ->)|[(-> & ->)|[(-> & ->)|[(-> & ->)|(-> & ->)]]]]; vm_compute; reflexivity. }
  destruct (tree_rand (mkT nc ni) 1 top_gen) as [[c g']| | |] eqn:E; try contradiction. exists top_gen, c, g'. split; [exact E|]. split; [exact TR|].
  intros x L. unfold gp_match. rewrite TR. cbn [length tree_eval]. unfold GP_NUM_FUNC. cbn [ta_nconst ta_const mkT].
  rewrite (rd_ok 0) by (change (len [3; 4 + nc + ni; 4 + nc + ni]) with 3; lia). change (at_ 0 [3; 4 + nc + ni; 4 + nc + ni] 0) with 3. cbn [obind].
  destruct (4 + nc <=? 3) eqn:E1; [lia|]. change (4 <=? 3) with false. cbv iota.
  rewrite (rd_ok 0) by (change (len [3; 4 + nc + ni; 4 + nc + ni]) with 3; lia). change (at_ 0 [3; 4 + nc + ni; 4 + nc + ni] (0 + 1)) with (4 + nc + ni). cbn [obind].
  destruct (4 + nc <=? 4 + nc + ni) eqn:E2; [|lia]. rewrite rd_out by (rewrite L; lia). reflexivity.
Qed.
