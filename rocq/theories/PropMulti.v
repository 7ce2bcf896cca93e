(** * Batch training and multi-step trials: rows visited, steps taken, a stale update. *)
From Coq Require Import ZArith Bool List Reals Lia Lra.
From Flocq Require Import Core BinarySingleNaN.
From Verif Require Import Outcome F64 F64Facts F64Bounds Rng RngFacts Pop PopSpec PopInv PopTrial PopFit PopRL PopOps PopSeq
  Arr Cond Blas Pred Loss Comp ArrFacts SamFacts TernFacts RectFacts EllipFacts PredFacts CompFacts Demo DemoEx PropStore.
Import ListNotations.
Open Scope Z_scope.

Section Rows.
Context (FO : Prop) {B : Type} (V : vtab B) (K : cfg) (kf : Z) (wf : B -> Prop) (mt : B -> list f64 -> Prop) {dom : list f64 -> Prop}.
Hypothesis CO : cfg_ok K kf.
Hypothesis VO : vt_ok (dom := dom) FO V K wf mt.
Hypothesis HT : ea_tournament K = true -> FO.

(** The k-th training trial runs on row [rows_k] of the data, has loss [es_k], and moves the system
    error towards it; with a test set, a trial on a row of it follows (row [cnt] modulo its size unless
    shuffling, where [cnt] is the number of the trial). *)
Fixpoint trained (d : input) (test : option input) (shuffle : bool) (cnt : Z) (rows : list Z) (es : list f64) (s s' : st B) : Prop :=
  match rows, es with
  | [], [] => s' = s
  | r :: rows', e :: es' => exists x y g s1 s2,
      nth_error (in_x d) (Z.to_nat r) = Some x /\ nth_error (in_y d) (Z.to_nat r) = Some y /\
      trial_rel V K wf mt x y None (with_explore true (with_rng g s)) s1 /\ e = loss_ptr K (s_pa s1) y /\
      match test with
      | None => s2 = record_error K e s1
      | Some t => exists i x' y' g', 0 <= i < n_samples t /\ (shuffle = false -> i = cnt mod n_samples t) /\
          nth_error (in_x t) (Z.to_nat i) = Some x' /\ nth_error (in_y t) (Z.to_nat i) = Some y' /\
          trial_rel V K wf mt x' y' None (with_explore false (with_rng g' (record_error K e s1))) s2
      end /\ trained d test shuffle (cnt + 1) rows' es' s2 s'
  | _, _ => False
  end.

Lemma trained_of d test shuffle es : forall cnt s s', fit_many V K wf mt d test shuffle cnt es s s' ->
  exists rows, length rows = length es /\ Forall (fun r => 0 <= r < n_samples d) rows /\
    (shuffle = false -> rows = map (fun k => (cnt + Z.of_nat k) mod n_samples d) (seq 0 (length es))) /\
    trained d test shuffle cnt rows es s s'.
Proof.
  induction es as [|e es IH]; intros cnt s s' F.
  - exists []. cbn. repeat split; auto.
  - cbn [fit_many] in F. destruct F as (s1 & s2 & (x & y & sa & sb & (i & g & Hi & HS & Ex & Ey & ->) & T & Ee & ->) & HTt & R).
    destruct (IH (cnt + 1) s2 s' R) as (rows & L & RR & RS & TT). exists (i :: rows). cbn [length]. split; [congruence|]. split; [constructor; assumption|].
    split.
    + intros Es. destruct (HS Es) as (-> & _). cbn [seq map]. f_equal; [f_equal; lia|]. rewrite (RS Es).
      rewrite <- seq_shift, map_map. apply map_ext. intros k. f_equal. lia.
    + cbn [trained]. exists x, y, g, sb, s2. split; [exact Ex|]. split; [exact Ey|]. split; [exact T|]. split; [exact Ee|]. split; [|exact TT].
      destruct test as [t|].
      * destruct HTt as (x' & y' & sc & (i' & g' & Hi' & HS' & Ex' & Ey' & ->) & T'). exists i', x', y', g'. split; [exact Hi'|]. split; [intros Es; apply (HS' Es)|]. auto.
      * exact HTt.
Qed.

Lemma C54_fit_lemma N d test shuffle start trials s : 0 <= N -> 0 <= trials -> N + trials <= 2 ^ 53 -> Good K kf N wf s -> data_ok (dom := dom) K d ->
  (forall t, test = Some t -> data_ok (dom := dom) K t) -> 0 <= start ->
  hpost FO (supervised_fit V K d test shuffle start trials s) (fun e s' => exists rows es,
    Z.of_nat (length es) = trials /\ length rows = length es /\ Forall (fun r => 0 <= r < n_samples d) rows /\
    (shuffle = false -> rows = map (fun k => (start + Z.of_nat k) mod n_samples d) (seq 0 (length es))) /\
    trained d test shuffle start rows es s s' /\ e = fdiv (fold_left fadd es f0) (of_Z trials) /\ Good K kf (N + trials) wf s').
Proof.
  intros N0 T0 N1 G D DT C0. eapply hp_mono; [apply (fit_spec FO V K kf wf mt CO VO HT N d test shuffle start trials s); assumption|].
  intros e s' (es & L & F & Ee & G'). destruct (trained_of _ _ _ _ _ _ _ F) as (rows & R1 & R2 & R3 & R4). exists rows, es. auto 10.
Qed.

(** [k] rows scored, with losses [es]. *)
Fixpoint visited (d : input) (cover : option (list f64)) (rows : list Z) (es : list f64) (s s' : st B) : Prop :=
  match rows, es with
  | [], [] => s' = s
  | r :: rows', e :: es' => exists x y g s1,
      nth_error (in_x d) (Z.to_nat r) = Some x /\ nth_error (in_y d) (Z.to_nat r) = Some y /\
      trial_rel V K wf mt x y cover (with_rng g s) s1 /\ e = loss_ptr K (s_pa s1) y /\ visited d cover rows' es' s1 s'
  | _, _ => False
  end.

Lemma with_same_rng (s : st B) : with_rng (s_rng s) s = s.
Proof. destruct s; reflexivity. Qed.
Lemma visited_all d cover : forall xs ys es k s s', (forall i, nth_error xs i = nth_error (in_x d) (k + i)) -> (forall i, nth_error ys i = nth_error (in_y d) (k + i)) ->
  length ys = length xs -> scoring V K wf mt (combine xs ys) cover es s s' ->
  length es = length xs /\ visited d cover (map Z.of_nat (seq k (length xs))) es s s'.
Proof.
  induction xs as [|x xs IH]; intros [|y ys] [|e es] k s s' Hx Hy L H; cbn [combine scoring length] in *; try contradiction; try discriminate.
  - split; [reflexivity|exact H].
  - destruct H as (s1 & T & -> & H).
    destruct (IH ys es (S k) s1 s') as (L' & W).
    + intros i. replace (S k + i)%nat with (k + S i)%nat by lia. exact (Hx (S i)).
    + intros i. replace (S k + i)%nat with (k + S i)%nat by lia. exact (Hy (S i)).
    + congruence.
    + exact H.
    + split; [congruence|]. cbn [seq map visited]. exists x, y, (s_rng s), s1. rewrite Nat2Z.id, with_same_rng.
      split; [rewrite <- (Nat.add_0_r k); symmetry; apply (Hx 0%nat)|]. split; [rewrite <- (Nat.add_0_r k); symmetry; apply (Hy 0%nat)|]. auto.
Qed.
Lemma visited_n d cover es : forall s s', scoring_n V K wf mt d cover es s s' -> exists rows, length rows = length es /\
  Forall (fun r => 0 <= r < n_samples d) rows /\ visited d cover rows es s s'.
Proof.
  induction es as [|e es IH]; intros s s' H.
  - exists []. cbn. auto.
  - destruct H as (x & y & s1 & s2 & (i & g & Hi & _ & Ex & Ey & ->) & T & -> & H). destruct (IH s2 s' H) as (rows & L & RR & W).
    exists (i :: rows). cbn [length]. split; [congruence|]. split; [constructor; assumption|]. cbn [visited]. exists x, y, g, s2. auto.
Qed.
Lemma C54_score_lemma N d n cover s : 0 <= N -> 0 <= n -> Good K kf N wf s -> data_ok (dom := dom) K d -> cover_ok K cover ->
  hpost FO (supervised_score_n V K d n cover s) (fun e s' => exists rows es,
    length rows = length es /\ Z.of_nat (length es) = Z.min n (n_samples d) /\
    Forall (fun r => 0 <= r < n_samples d) rows /\ (n_samples d < n -> rows = map Z.of_nat (seq 0 (length es))) /\
    visited d cover rows es (with_explore false s) s' /\
    e = fdiv (fold_left fadd es f0) (of_Z (Z.min n (n_samples d))) /\ Good K kf N wf s').
Proof.
  intros N0 n0 G D HC. eapply hp_mono; [apply (score_n_spec FO V K kf wf mt CO VO HT N d n cover s); assumption|].
  intros e s' ((es & L & Ee & H1 & H2) & G'). destruct (Z.lt_ge_cases (n_samples d) n) as [C|C].
  - destruct D as (D1 & D2 & _). destruct (visited_all d cover (in_x d) (in_y d) es 0 (with_explore false s) s') as (L' & W); try reflexivity; [congruence|apply H1, C|].
    exists (map Z.of_nat (seq 0 (length (in_x d)))), es. rewrite map_length, seq_length, <- L'. split; [reflexivity|]. split; [exact L|].
    split; [|split; [reflexivity|split; [rewrite L'; exact W|split; [exact Ee|exact G']]]].
    apply Forall_forall. intros r Hr. apply in_map_iff in Hr. destruct Hr as (j & <- & Hj). apply in_seq in Hj. rewrite Z.min_r in L by lia. lia.
  - destruct (visited_n _ _ _ _ _ (H2 C)) as (rows & R1 & R2 & R3). exists rows, es. split; [exact R1|]. split; [exact L|]. split; [exact R2|].
    split; [lia|]. split; [exact R3|]. split; [exact Ee|exact G'].
Qed.
Lemma C54_score_all_lemma N d cover s : 0 <= N -> Good K kf N wf s -> data_ok (dom := dom) K d -> cover_ok K cover ->
  hpost FO (supervised_score V K d cover s) (fun e s' => exists es, Z.of_nat (length es) = n_samples d /\
    visited d cover (map Z.of_nat (seq 0 (length es))) es (with_explore false s) s' /\
    e = fdiv (fold_left fadd es f0) (of_Z (n_samples d)) /\ Good K kf N wf s').
Proof.
  intros N0 G D HC. eapply hp_mono; [apply (score_spec FO V K kf wf mt CO VO HT N d cover s); assumption|].
  intros e s' (es & L & H & Ee & G'). destruct D as (D1 & D2 & _).
  destruct (visited_all d cover (in_x d) (in_y d) es 0 (with_explore false s) s') as (L' & W); try reflexivity; [congruence|exact H|].
  exists es. rewrite L' in *. auto.
Qed.

(** ** Steps of a trial. *)
Section Steps.
Context {E : Type} (VE : env E).
(** The steps of a run, as a list of (environment after, reward, done, error). *)
Fixpoint steps_rel (e : E) (s : st B) (l : list (E * f64 * bool * f64)) (s' : st B) : Prop :=
  match l with
  | [] => s' = s
  | (e1, r, done, err) :: l' => exists s1, step_rel V K wf mt VE e s e1 r done err s1 /\ steps_rel e1 s1 l' s'
  end.
Lemma run_steps n e s r errs e' s' r' : run_rel V K wf mt VE n e s r errs e' s' r' ->
  exists l, map snd l = errs /\ steps_rel e s l s' /\ (length l <= n)%nat /\
    Forall (fun q => snd (fst q) = false) (removelast l) /\
    e' = last (map (fun q => fst (fst (fst q))) l) e /\ r' = last (map (fun q => snd (fst (fst q))) l) r /\
    (last (map (fun q => snd (fst q)) l) false = true \/ length l = n).
Proof.
  induction 1 as [e s r|n e s r e' r' err s' ST|n e s r e' r' err s' errs e'' s'' r'' ST R IH].
  - exists []. cbn. repeat split; auto.
  - exists [(e', r', true, err)]. cbn. repeat split; auto; [exists s'; auto|lia].
  - destruct IH as (l & L1 & L2 & L3 & L4 & L5 & L6 & L7). exists ((e', r', false, err) :: l). split; [cbn; congruence|].
    split; [cbn [steps_rel]; exists s'; auto|]. split; [cbn [length]; lia|].
    assert (LA : forall (A : Type) (d x : A) m, last (x :: m) d = last m x).
    { intros A d x m. revert d x. induction m as [|y m IHm]; intros d x; [reflexivity|]. change (last (x :: y :: m) d) with (last (y :: m) d). rewrite !IHm. reflexivity. }
    cbn [map fst snd]. rewrite !LA. split; [|split; [exact L5|split; [exact L6|destruct L7 as [H|H]; [left; exact H|right; cbn [length]; lia]]]].
    destruct l as [|q l]; [constructor|]. change (removelast ((e', r', false, err) :: q :: l)) with ((e', r', false, err) :: removelast (q :: l)). constructor; [reflexivity|exact L4].
Qed.

Hypothesis Y1 : y_dim K = 1.
Hypothesis VL : vla0_is_ub K = false.
Context (einv : E -> Prop).
Hypothesis EO : env_ok (dom := dom) FO K VE einv.
Lemma C53_trial_lemma N e explore s : FO -> einv e -> 0 <= N -> 0 <= TELETRANSPORTATION K -> N + 2 * TELETRANSPORTATION K <= 2 ^ 53 -> Good K kf N wf s ->
  hpost FO (rl_trial V K VE e explore s) (fun q s' => let '(e', perf, err) := q in
    exists e0 g l s2, rout (env_reset VE e) e0 /\
      steps_rel e0 (begun K (with_explore explore (with_rng g s))) l s2 /\
      Z.of_nat (length l) <= TELETRANSPORTATION K /\
      Forall (fun q => snd (fst q) = false) (removelast l) /\
      (last (map (fun q => snd (fst q)) l) false = true \/ Z.of_nat (length l) = TELETRANSPORTATION K) /\
      ended s2 s' /\ e' = last (map (fun q => fst (fst (fst q))) l) e0 /\
      err = fdiv (fold_left fadd (map snd l) f0) (of_Z (Z.of_nat (length l))) /\
      perf = (if env_multistep VE then of_Z (Z.of_nat (length l))
              else if fgt (last (map (fun q => snd (fst (fst q))) l) f0) f0 then f1 else f0) /\
      Good K kf (N + 2 * TELETRANSPORTATION K) wf s').
Proof.
  intros HF He N0 T0 N1 G.
  eapply hp_mono; [apply (rl_trial_spec FO V K kf wf mt CO VO HT Y1 VL VE einv EO N e explore s); assumption|].
  intros ((e', perf), err) s' ((e1 & g & s2 & r & errs & R0 & RU & ED & EE & EP) & _ & G').
  destruct (run_steps _ _ _ _ _ _ _ _ RU) as (l & L1 & L2 & L3 & L4 & L5 & L6 & L7). subst errs. rewrite map_length in *. subst r.
  exists e1, g, l, s2. split; [exact R0|]. split; [exact L2|]. split; [lia|]. split; [exact L4|].
  split; [destruct L7 as [H|H]; [left; exact H|right; lia]|]. auto.
Qed.
(** Trials [l], alternately exploring (first) and exploiting: environment, performance, error and state after each. *)
Fixpoint trials_rel (e : E) (explore : bool) (s : st B) (l : list (E * f64 * f64 * st B)) : Prop :=
  match l with
  | [] => True
  | (e', perf, err, s') :: l' => rl_trial_rel V K wf mt VE e explore s e' perf err s' /\ trials_rel e' (negb explore) s' l'
  end.
Lemma exp_trials n : forall e tp s e' tp' s', exp_rel V K wf mt VE n e tp s e' tp' s' ->
  exists l, trials_rel e true s l /\ length l = (2 * n)%nat /\ s' = last (map snd l) s /\ e' = last (map (fun q => fst (fst (fst q))) l) e /\
    tp' = fold_left fadd (map (fun i => nth (2 * i + 1) (map (fun q => snd (fst (fst q))) l) f0) (seq 0 n)) tp.
Proof.
  assert (LA : forall (A : Type) (d x : A) m, last (x :: m) d = last m x).
  { intros A d x m. revert d x. induction m as [|y m IHm]; intros d x; [reflexivity|]. change (last (x :: y :: m) d) with (last (y :: m) d). rewrite !IHm. reflexivity. }
  induction n as [|n IH]; intros e tp s e' tp' s' X.
  - destruct X as (-> & -> & ->). exists []. cbn. auto.
  - destruct X as (e1 & p1 & r1 & s1 & e2 & p2 & r2 & s2 & T1 & T2 & X). destruct (IH _ _ _ _ _ _ X) as (l & L1 & L2 & L3 & L4 & L5).
    exists ((e1, p1, r1, s1) :: (e2, p2, r2, s2) :: l). split; [cbn [trials_rel negb]; auto|]. split; [cbn [length]; lia|].
    cbn [map fst snd]. rewrite !LA. split; [exact L3|]. split; [exact L4|].
    rewrite L5. rewrite <- cons_seq, <- seq_shift. cbn [map fold_left]. rewrite map_map. change (nth (2 * 0 + 1) _ f0) with p2. f_equal.
    apply map_ext. intros i. replace (2 * S i + 1)%nat with (S (S (2 * i + 1))) by lia. reflexivity.
Qed.
Lemma C53_experiment_lemma N e n s : FO -> einv e -> 0 <= N -> 0 <= n -> 0 <= TELETRANSPORTATION K -> N + 4 * TELETRANSPORTATION K * n <= 2 ^ 53 -> Good K kf N wf s ->
  hpost FO (rl_exp V K VE e n s) (fun q s' => exists l,
    trials_rel e true s l /\ Z.of_nat (length l) = 2 * n /\ s' = last (map snd l) s /\ fst q = last (map (fun q => fst (fst (fst q))) l) e /\
    snd q = fdiv (fold_left fadd (map (fun i => nth (2 * i + 1) (map (fun q => snd (fst (fst q))) l) f0) (seq 0 (Z.to_nat n))) f0) (of_Z n) /\
    Good K kf (N + 4 * TELETRANSPORTATION K * n) wf s').
Proof.
  intros HF He N0 NN T0 N1 G. unfold rl_exp. eapply hp_bind; [apply (rl_exp_loop_spec FO V K kf wf mt CO VO HT Y1 VL VE einv EO (Z.to_nat n) N e f0 s); try assumption; rewrite Z2Nat.id by lia; exact N1|].
  intros (e', tp) s' (X & _ & G'). apply hp_ret. destruct (exp_trials _ _ _ _ _ _ _ X) as (l & L1 & L2 & L3 & L4 & L5). cbn [fst snd] in *.
  exists l. split; [exact L1|]. split; [lia|]. split; [exact L3|]. split; [exact L4|]. split; [rewrite L5; reflexivity|]. rewrite Z2Nat.id in G' by lia. exact G'.
Qed.
End Steps.
End Rows.

(** ** A stale update: a rule that already predicts both targets of a two-step trial exactly is
    changed by the trial. *)
Definition chain_x (e : nat) : list f64 := match e with 2%nat => [f0; f0] | _ => [f1; f0] end.
Definition chain : env nat := mkEnv nat (fun _ => ret 2%nat) (fun e => ret (e, chain_x e))
  (fun e _ => ret (Nat.pred e, match e with 2%nat => f1 | _ => f0 end)) (fun e => match e with O => true | _ => false end) (fun _ => f1) true.
Lemma chain_ok FO n y pop tour subs reset vla : env_ok (dom := any_x) FO (demo_cfg n y pop tour subs reset vla) chain (fun _ => True).
Proof.
  exists (fun _ => True). split; [|split; [auto|intros e _ g; exact I]].
  intros e _ g. split; [split; [cbn; destruct e as [|[|[|e]]]; reflexivity|exact I]|]. intros a _ g'. exact I.
Qed.
Definition Kone : cfg := demo_cfg 1 1 8 false true false false.
(** A rule for all inputs predicting 1 - x0. *)
Definition whole : cl body := hr 0 1 5 fhalf f0 [f0; f0] [of_Z 2; of_Z 2] [f1; of_Z (-1); f0] 10 5.
(** What the rules of the population predict for [x] (in tenths of thousandths, truncated). *)
Definition tells (x : list f64) (s : st body) : list (option Z) :=
  map (fun o => match o with
                | Some c => match v_pred_compute (rect_tab Kone) (c_body c) (c_prediction c) x (demo_rng 1) with
                            | Ok ((_, p), _) => match p with v :: _ => to_int (fmul v (of_Z 10000)) | [] => None end | _ => None end
                | None => None end) (rules_of (s_pset s) s).
Lemma C53_refuted_lemma :
  exists (s s' : st body) (steps err : f64), Good Kone 0 5 (rect_wf Kone) s /\
    rl_trial (rect_tab Kone) Kone chain 2%nat false s = Ok ((O, steps, err), s') /\ to_int steps = Some 2 /\ feq err f0 = true /\
    tells (chain_x 2%nat) s = [Some 10000] /\ tells (chain_x 1%nat) s = [Some 0] /\
    tells (chain_x 2%nat) s' = [Some 9500] /\ tells (chain_x 1%nat) s' = [Some (-500)].
Proof.
  assert (H : hpost False ((xcsf_init (rect_tab Kone) Kone ;;; run_ops (rect_tab Kone) Kone chain [OInsert whole])%m (blank_state 1)) (fun _ s => Good Kone 0 5 (rect_wf Kone) s)).
  { apply (life_spec False (rect_tab Kone) Kone 0 (rect_wf Kone) (rect_mt Kone)
      ltac:(apply demo_cfg_ok; unfold int_max; lia) ltac:(apply rect_tab_ok; cbn; unfold int_max; lia) ltac:(discriminate) chain (fun _ => True) (chain_ok False 1 1 8 false true false false) [OInsert whole]).
    - intros l. reflexivity.
    - apply Forall_cons; [|apply Forall_nil]. cbn [op_ok]. split; [|cbn; lia]. constructor; cbn; try lia; try reflexivity.
      + destruct (fle_01_in fhalf eq_refl eq_refl) as (F & X). split; [exact F|split; [reflexivity|apply X]].
      + split; [reflexivity|]. rewrite f1_R. cbn. lra.
      + unfold rect_wf, wf_pay. cbn. split; [|split].
        * eexists. split; [reflexivity|]. unfold wf_rect, len. cbn. auto.
        * eexists. split; [reflexivity|]. unfold act_wf. cbn. lia.
        * eexists. split; [reflexivity|]. unfold wf_nlms, len. cbn. auto.
    - vm_compute. discriminate. }
  assert (X : match (xcsf_init (rect_tab Kone) Kone ;;; run_ops (rect_tab Kone) Kone chain [OInsert whole])%m (blank_state 1) with
              | Ok (_, s) => match rl_trial (rect_tab Kone) Kone chain 2%nat false s with
                 | Ok ((e, p, r), s') => Some (e, to_int p, feq r f0, tells (chain_x 2%nat) s, tells (chain_x 1%nat) s,
                     tells (chain_x 2%nat) s', tells (chain_x 1%nat) s')
                 | _ => None end
              | _ => None end = Some (O, Some 2, true, [Some 10000], [Some 0], [Some 9500], [Some (-500)])) by (vm_compute; reflexivity).
  destruct ((xcsf_init (rect_tab Kone) Kone ;;; run_ops (rect_tab Kone) Kone chain [OInsert whole])%m (blank_state 1)) as [[[] s]| | |]; try discriminate X.
  cbn [hpost] in H. destruct (rl_trial (rect_tab Kone) Kone chain 2%nat false s) as [[[[e p] r] s']| | |] eqn:Y; try discriminate X.
  exists s, s', p, r. injection X as -> X5 X6 X1 X2 X3 X4. auto 10.
Qed.
