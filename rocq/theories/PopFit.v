(** * Batch operations: supervised fit, predict, score. *)
From Coq Require Import ZArith Bool List Lia Permutation.
From Flocq Require Import Core BinarySingleNaN.
From Verif Require Import Outcome F64 F64Facts F64Bounds Rng RngFacts Pop PopSpec PopInv PopSel PopDel
  PopCover PopMatch PopMset PopUpdate PopEA PopPA PopTrial.
Import ListNotations.
Open Scope Z_scope.

Section Fit.
Context {B : Type} (FO : Prop) (V : vtab B) (K : cfg) (kf : Z) (wf : B -> Prop) (mt : B -> list f64 -> Prop).
Hypothesis CO : cfg_ok K kf.
Context {dom : list f64 -> Prop}.
Hypothesis VO : vt_ok (dom := dom) FO V K wf mt.
Hypothesis HT : ea_tournament K = true -> FO.
Notation Good N := (Good K kf N wf).
Notation trial_rel := (trial_rel V K wf mt).

(** A data set with at least one row and rows of the configured widths. *)
Definition data_ok (d : input) : Prop :=
  1 <= n_samples d <= int_max /\ length (in_y d) = length (in_x d) /\
  Forall (fun x => xok K dom x) (in_x d) /\
  Forall (fun y => Z.of_nat (length y) = y_dim K) (in_y d).

(** The row of a data set used by an iteration: any row when shuffling (the generator
    having moved), row cnt mod n otherwise. *)
Definition sampled (d : input) (cnt : Z) (shuffle : bool) (x y : list f64) (s s' : st B) : Prop :=
  exists i g, 0 <= i < n_samples d /\ (shuffle = false -> i = cnt mod n_samples d /\ g = s_rng s) /\
    nth_error (in_x d) (Z.to_nat i) = Some x /\ nth_error (in_y d) (Z.to_nat i) = Some y /\ s' = with_rng g s.

Definition record_error (e : f64) (s : st B) : st B :=
  with_stats (fadd (s_error s) (fmul (fsub e (s_error s)) (BETA K))) (s_mset_size s) (s_aset_size s) (s_mfrac s) s.

(** One training iteration with loss [e]. *)
Definition fit_one (d : input) (shuffle : bool) (cnt : Z) (e : f64) (s s' : st B) : Prop := exists x y s1 s2,
  sampled d cnt shuffle x y s s1 /\ trial_rel x y None (with_explore true s1) s2 /\
  e = loss_ptr K (s_pa s2) y /\ s' = record_error e s2.
Definition test_one (d : input) (shuffle : bool) (cnt : Z) (s s' : st B) : Prop := exists x y s1,
  sampled d cnt shuffle x y s s1 /\ trial_rel x y None (with_explore false s1) s'.
(** [length es] iterations starting with number [cnt]. *)
Fixpoint fit_many (d : input) (test : option input) (shuffle : bool) (cnt : Z) (es : list f64) (s s' : st B) : Prop :=
  match es with
  | [] => s' = s
  | e :: r => exists s1 s2, fit_one d shuffle cnt e s s1 /\
      match test with Some t => test_one t shuffle cnt s1 s2 | None => s2 = s1 end /\
      fit_many d test shuffle (cnt + 1) r s2 s'
  end.

Lemma Good_ext N s s' : Good N s -> s_heap s' = s_heap s -> s_next s' = s_next s -> s_pset s' = s_pset s ->
  s_prev_pset s' = s_prev_pset s -> Good N s'.
Proof. intros [A1 A2 A3] E1 E2 E3 E4. constructor; rewrite ?E1, ?E2, ?E3, ?E4; assumption. Qed.

Lemma Good_mono N N' s : N <= N' -> Good N s -> Good N' s.
Proof. intros L [A1 A2 A3]. constructor; try assumption. eapply inv_ext; [exact A1|reflexivity|reflexivity|].
  intros l c E. eapply rule_ok_mono; [exact L|apply (i_ok A1 _ _ E)].
Qed.

Lemma sample_spec d cnt shuffle (s : st B) : data_ok d -> 0 <= cnt ->
  hpost FO (mrand (supervised_sample (n_samples d) cnt shuffle) s) (fun i s' =>
    0 <= i < n_samples d /\ (shuffle = false -> i = cnt mod n_samples d) /\ exists g, s' = with_rng g s /\ (shuffle = false -> g = s_rng s)).
Proof.
  intros (D1 & _) C. unfold supervised_sample. destruct shuffle.
  - eapply hp_rand; [apply rp_uniform_int; lia|]. intros i g Hi. cbv beta in Hi. spl; try lia; try discriminate.
    exists g. split; [reflexivity|discriminate].
  - destruct (Z.eqb_spec (n_samples d) 0) as [E|E]; [lia|].
    unfold mrand, ret, hpost. rewrite Z.rem_mod_nonneg by lia. pose proof (Z.mod_pos_bound cnt (n_samples d) ltac:(lia)).
    spl; try lia. exists (s_rng s). split; [destruct s; reflexivity|reflexivity].
Qed.

Lemma row_spec {T} (l : list T) i : 0 <= i < Z.of_nat (length l) -> exists v, nth_error l (Z.to_nat i) = Some v /\ row l i = Ok v.
Proof.
  intros H. unfold row. destruct (Z.ltb_spec i 0); [lia|].
  destruct (nth_error l (Z.to_nat i)) as [v|] eqn:E; [exists v; auto|]. apply nth_error_None in E. lia.
Qed.

Lemma sampled_spec {C} d cnt shuffle s (k : list f64 -> list f64 -> M B C) (Q : C -> st B -> Prop) :
  data_ok d -> 0 <= cnt ->
  (forall x y s1, sampled d cnt shuffle x y s s1 -> xok K dom x -> Z.of_nat (length y) = y_dim K ->
     s_heap s1 = s_heap s -> s_next s1 = s_next s -> s_pset s1 = s_pset s -> s_prev_pset s1 = s_prev_pset s ->
     s_explore s1 = s_explore s -> hpost FO (k x y s1) Q) ->
  hpost FO (mbind (mrand (supervised_sample (n_samples d) cnt shuffle)) (fun i =>
     mbind (mlift (row (in_x d) i)) (fun x => mbind (mlift (row (in_y d) i)) (fun y => k x y))) s) Q.
Proof.
  intros D C0 H. pose proof D as (D1 & D2 & D3 & D4). eapply hp_bind; [apply sample_spec; assumption|].
  intros i s' (Hi & Hc & g & -> & Hg).
  destruct (row_spec (in_x d) i) as (x & Ex & Rx); [exact Hi|].
  destruct (row_spec (in_y d) i) as (y & Ey & Ry); [rewrite D2; exact Hi|].
  unfold mbind, mlift. rewrite Rx, Ry. apply H; try reflexivity.
  - exists i, g. spl; try assumption; try reflexivity; try lia; auto.
  - rewrite Forall_forall in D3. apply D3. eapply nth_error_In; eassumption.
  - rewrite Forall_forall in D4. apply D4. eapply nth_error_In; eassumption.
Qed.

Lemma trial_Good N x y s : 0 <= N -> Good N s -> xok K dom x ->
  (s_explore s = true -> Z.of_nat (length y) = y_dim K /\ N + 1 <= 2 ^ 53) ->
  hpost FO (supervised_trial V K x y None s) (fun _ s' =>
    trial_rel x y None s s' /\ Good (if s_explore s then N + 1 else N) s').
Proof.
  intros N0 G Lx HE. apply (supervised_trial_spec FO V K kf wf mt CO VO HT); try assumption.
  - intros E. split; [reflexivity|auto].
  - discriminate.
Qed.

Lemma fit_step_spec N d shuffle cnt s : 0 <= N -> N + 1 <= 2 ^ 53 -> Good N s -> data_ok d -> 0 <= cnt ->
  hpost FO (supervised_fit_step V K d shuffle cnt s) (fun e s' => fit_one d shuffle cnt e s s' /\ Good (N + 1) s').
Proof.
  intros N0 N1 G D C0. unfold supervised_fit_step. apply sampled_spec; [exact D|exact C0|].
  intros x y s1 SA Lx Ly E1 E2 E3 E4 _. apply hp_bind_mod.
  eapply hp_bind; [apply (trial_Good N); try assumption|].
  - apply (Good_ext N s); assumption.
  - intros _. split; [exact Ly|exact N1].
  - intros [] s2 (TR & G2). apply hp_bind_get. apply hp_bind_mod. apply hp_ret. split.
    + exists x, y, s1, s2. auto.
    + eapply Good_ext; [exact G2| | | |]; reflexivity.
Qed.

Lemma test_step_spec N d shuffle cnt s : 0 <= N -> Good N s -> data_ok d -> 0 <= cnt ->
  hpost FO (supervised_test_step V K d shuffle cnt s) (fun _ s' => test_one d shuffle cnt s s' /\ Good N s').
Proof.
  intros N0 G D C0. unfold supervised_test_step. apply sampled_spec; [exact D|exact C0|].
  intros x y s1 SA Lx Ly E1 E2 E3 E4 _. apply hp_bind_mod.
  eapply hp_mono; [apply (trial_Good N); try assumption|].
  - apply (Good_ext N s); assumption.
  - discriminate.
  - intros [] s2 (TR & G2). split; [|exact G2]. exists x, y, s1. auto.
Qed.

Lemma fit_loop_spec n : forall N d test shuffle cnt err s, 0 <= N -> N + Z.of_nat n <= 2 ^ 53 -> Good N s -> data_ok d ->
  (forall t, test = Some t -> data_ok t) -> 0 <= cnt ->
  hpost FO (supervised_fit_loop V K n d test shuffle cnt err s) (fun e s' => exists es, length es = n /\
    fit_many d test shuffle cnt es s s' /\ e = fold_left fadd es err /\ Good (N + Z.of_nat n) s').
Proof.
  induction n as [|n IH]; intros N d test shuffle cnt err s N0 N1 G D DT C0.
  - apply hp_ret. exists []. spl; try reflexivity. eapply Good_mono; [|exact G]. lia.
  - cbn [supervised_fit_loop]. eapply hp_bind; [apply (fit_step_spec N); try assumption; lia|].
    intros e s1 (F1 & G1). eapply hp_bind with (P := fun _ s2 =>
      match test with Some t => test_one t shuffle cnt s1 s2 | None => s2 = s1 end /\ Good (N + 1) s2).
    { destruct test as [t|]; [|apply hp_ret; auto]. apply test_step_spec; try assumption; [lia|auto]. }
    intros [] s2 (F2 & G2). eapply hp_mono; [apply (IH (N + 1)); try assumption; lia|].
    intros e' s' (es & L & F3 & E & G3). exists (e :: es). spl.
    + cbn [length]. lia.
    + exists s1, s2. auto.
    + exact E.
    + replace (N + Z.of_nat (S n)) with (N + 1 + Z.of_nat n) by lia. exact G3.
Qed.

Lemma fit_spec N d test shuffle start trials s : 0 <= N -> 0 <= trials -> N + trials <= 2 ^ 53 -> Good N s -> data_ok d ->
  (forall t, test = Some t -> data_ok t) -> 0 <= start ->
  hpost FO (supervised_fit V K d test shuffle start trials s) (fun e s' => exists es, Z.of_nat (length es) = trials /\
    fit_many d test shuffle start es s s' /\ e = fdiv (fold_left fadd es f0) (of_Z trials) /\ Good (N + trials) s').
Proof.
  intros N0 T0 N1 G D DT C0. unfold supervised_fit.
  eapply hp_bind; [apply (fit_loop_spec (Z.to_nat trials) N); try assumption; lia|].
  intros e s' (es & L & F & -> & G'). apply hp_ret. rewrite Z2Nat.id in G' by assumption. exists es. spl; try assumption; try reflexivity. lia.
Qed.

(** ** Predicting and scoring. *)
Definition cover_ok (cover : option (list f64)) : Prop :=
  forall cv, cover = Some cv -> n_actions K * y_dim K <= Z.of_nat (length cv).
Fixpoint predicting (xs : list (list f64)) (cover : option (list f64)) (ps : list (list f64)) (s s' : st B) : Prop :=
  match xs, ps with
  | [], [] => s' = s
  | x :: xr, p :: pr => exists s1, trial_rel x [] cover s s1 /\ p = s_pa s1 /\ predicting xr cover pr s1 s'
  | _, _ => False
  end.
Fixpoint scoring (rows : list (list f64 * list f64)) (cover : option (list f64)) (es : list f64) (s s' : st B) : Prop :=
  match rows, es with
  | [], [] => s' = s
  | (x, y) :: xr, e :: er => exists s1, trial_rel x y cover s s1 /\ e = loss_ptr K (s_pa s1) y /\ scoring xr cover er s1 s'
  | _, _ => False
  end.
Fixpoint scoring_n (d : input) (cover : option (list f64)) (es : list f64) (s s' : st B) : Prop :=
  match es with
  | [] => s' = s
  | e :: er => exists x y s1 s2, sampled d 0 true x y s s1 /\ trial_rel x y cover s1 s2 /\
      e = loss_ptr K (s_pa s2) y /\ scoring_n d cover er s2 s'
  end.

Lemma exploit_Good N x y cover s : 0 <= N -> Good N s -> s_explore s = false -> xok K dom x -> cover_ok cover ->
  hpost FO (supervised_trial V K x y cover s) (fun _ s' => trial_rel x y cover s s' /\ Good N s').
Proof.
  intros N0 G E Lx HC. pose proof (supervised_trial_spec FO V K kf wf mt CO VO HT N x y cover s N0 G Lx) as H.
  rewrite E in H. apply H; [discriminate|exact HC].
Qed.
Lemma trial_explore x y cover s s' : trial_rel x y cover s s' -> s_explore s' = s_explore s.
Proof.
  intros (s1 & s2 & s3 & MA & AN & LE & h' & _ & ->). sst.
  destruct (matching_frame _ _ _ _ _ _ _ _ MA) as (G1 & z & cs & M1). destruct (answer_frame _ _ _ _ _ _ _ AN) as (X2 & G2 & M2).
  unfold misc, match_stats, start in M1, M2. sst.
  assert (E : s_explore s2 = s_explore s) by congruence.
  destruct (s_explore s) eqn:EE; [|subst; exact E].
  destruct (learning_frame _ _ _ MSET _ _ _ _ _ ltac:(discriminate) LE) as (M3 & _). unfold misc, tick in M3. sst. congruence.
Qed.

Lemma predict_rows_spec N xs cover : forall s, 0 <= N -> Good N s -> s_explore s = false ->
  Forall (fun x => xok K dom x) xs -> cover_ok cover ->
  hpost FO (predict_rows V K xs cover s) (fun ps s' => predicting xs cover ps s s' /\ Good N s').
Proof.
  induction xs as [|x xs IH]; intros s N0 G E F HC.
  - apply hp_ret. split; [reflexivity|exact G].
  - cbn [predict_rows]. inversion F as [|? ? F1 F2]; subst.
    eapply hp_bind; [apply (exploit_Good N); assumption|]. intros [] s1 (TR & G1). apply hp_bind_get.
    eapply hp_bind; [apply IH; try assumption; rewrite (trial_explore _ _ _ _ _ TR); exact E|].
    intros ps s' (P & G'). apply hp_ret. split; [|exact G']. exists s1. auto.
Qed.
Lemma predict_call_spec N xs cover s : 0 <= N -> Good N s ->
  Forall (fun x => xok K dom x) xs -> cover_ok cover ->
  hpost FO (supervised_predict V K xs cover s) (fun ps s' => predicting xs cover ps (with_explore false s) s' /\ Good N s').
Proof.
  intros N0 G F HC. unfold supervised_predict. apply hp_bind_mod. apply predict_rows_spec; try assumption; [|reflexivity].
  eapply Good_ext; [exact G| | | |]; reflexivity.
Qed.

Lemma score_rows_spec N rows cover : forall err s, 0 <= N -> Good N s -> s_explore s = false ->
  Forall (fun r => xok K dom (fst r)) rows -> cover_ok cover ->
  hpost FO (score_rows V K rows cover err s) (fun e s' => exists es, scoring rows cover es s s' /\ e = fold_left fadd es err /\ Good N s').
Proof.
  induction rows as [|(x, y) xs IH]; intros err s N0 G E F HC.
  - apply hp_ret. exists []. spl; try reflexivity. exact G.
  - cbn [score_rows]. inversion F as [|? ? F1 F2]; subst.
    eapply hp_bind; [apply (exploit_Good N); assumption|]. intros [] s1 (TR & G1). apply hp_bind_get.
    eapply hp_mono; [apply IH; try assumption; rewrite (trial_explore _ _ _ _ _ TR); exact E|].
    intros e s' (es & P & -> & G'). exists (loss_ptr K (s_pa s1) y :: es). spl; [|reflexivity|exact G']. exists s1. auto.
Qed.
Lemma score_spec N d cover s : 0 <= N -> Good N s -> data_ok d -> cover_ok cover ->
  hpost FO (supervised_score V K d cover s) (fun e s' => exists es, Z.of_nat (length es) = n_samples d /\
    scoring (combine (in_x d) (in_y d)) cover es (with_explore false s) s' /\
    e = fdiv (fold_left fadd es f0) (of_Z (n_samples d)) /\ Good N s').
Proof.
  intros N0 G (D1 & D2 & D3 & D4) HC. unfold supervised_score. apply hp_bind_mod.
  eapply hp_bind; [apply (score_rows_spec N); try assumption; try reflexivity|].
  - eapply Good_ext; [exact G| | | |]; reflexivity.
  - apply Forall_forall. intros (x, y) Hr. apply in_combine_l in Hr. rewrite Forall_forall in D3. apply D3, Hr.
  - intros e s' (es & P & -> & G'). apply hp_ret. exists es. spl; try assumption; try reflexivity.
    assert (L : forall rows es' a b, scoring rows cover es' a b -> length es' = length rows).
    { clear. induction rows as [|(x, y) r IH]; intros [|e es] a b H; try contradiction; [reflexivity|].
      destruct H as (s1 & _ & _ & H). cbn [length]. f_equal. eapply IH, H. }
    rewrite (L _ _ _ _ P), combine_length, D2, Nat.min_id. reflexivity.
Qed.
Lemma score_n_loop_spec n : forall N d cover err s, 0 <= N -> Good N s -> s_explore s = false -> data_ok d -> cover_ok cover ->
  hpost FO (score_n_loop V K n d cover err s) (fun e s' => exists es, length es = n /\ scoring_n d cover es s s' /\
    e = fold_left fadd es err /\ Good N s').
Proof.
  induction n as [|n IH]; intros N d cover err s N0 G E D HC.
  - apply hp_ret. exists []. spl; try reflexivity. exact G.
  - cbn [score_n_loop]. apply sampled_spec; [exact D|lia|]. intros x y s1 SA Lx Ly E1 E2 E3 E4 E5.
    eapply hp_bind; [apply (exploit_Good N); try assumption; [eapply Good_ext; eassumption|congruence]|].
    intros [] s2 (TR & G2). apply hp_bind_get.
    eapply hp_mono; [apply (IH N); try assumption; rewrite (trial_explore _ _ _ _ _ TR); congruence|].
    intros e s' (es & L & P & -> & G'). exists (loss_ptr K (s_pa s2) y :: es). spl; try reflexivity; try assumption.
    + cbn [length]. lia.
    + exists x, y, s1, s2. auto.
Qed.
(** N is the requested number of rows; all rows are used when the data has fewer. *)
Definition scored (d : input) (n : Z) (cover : option (list f64)) (e : f64) (s s' : st B) : Prop :=
  exists es, Z.of_nat (length es) = Z.min n (n_samples d) /\
   e = fdiv (fold_left fadd es f0) (of_Z (Z.min n (n_samples d))) /\
   (n_samples d < n -> scoring (combine (in_x d) (in_y d)) cover es (with_explore false s) s') /\
   (n <= n_samples d -> scoring_n d cover es (with_explore false s) s').
Lemma score_n_spec N d n cover s : 0 <= N -> 0 <= n -> Good N s -> data_ok d -> cover_ok cover ->
  hpost FO (supervised_score_n V K d n cover s) (fun e s' => scored d n cover e s s' /\ Good N s').
Proof.
  intros N0 n0 G D HC. unfold supervised_score_n, scored. destruct (Z.ltb_spec (n_samples d) n) as [L|L].
  - eapply hp_mono; [apply (score_spec N); assumption|]. intros e s' (es & L' & P & E & G').
    split; [|exact G']. exists es. rewrite Z.min_r by lia. spl; try assumption; try lia; auto.
  - apply hp_bind_mod. eapply hp_bind; [apply (score_n_loop_spec (Z.to_nat n) N); try assumption; try reflexivity|].
    + eapply Good_ext; [exact G| | | |]; reflexivity.
    + intros e s' (es & L' & P & -> & G'). apply hp_ret. split; [|exact G']. exists es. rewrite Z.min_l by lia.
      spl; try assumption; try lia; auto.
Qed.
End Fit.
