(** * Roulette wheels, tournaments and the never-matching scan. *)
From Coq Require Import ZArith Bool List Reals Lia Lra.
From Flocq Require Import Core BinarySingleNaN.
From Verif Require Import Outcome F64 F64Facts F64Bounds Rng RngFacts Pop PopSpec PopInv.
Import ListNotations.
Open Scope Z_scope.

Lemma total_rpost {A} FO (m : RM A) (P : A -> Prop) :
  (forall g, total (m g) (fun r => P (fst r))) -> rpost FO m P.
Proof. intros H g. specialize (H g). destruct (m g) as [[a g']| |w|]; try contradiction. exact H. Qed.
Lemma rp_uniform_0 FO t : fpos t ->
  rpost FO (rand_uniform f0 t) (fun v => fpos v /\ fle v t = true).
Proof.
  intros H g. pose proof (rand_uniform_0_le t g H) as R.
  destruct (rand_uniform f0 t g) as [[a g']| |w|]; try contradiction. destruct R as (R1 & R2 & _). auto.
Qed.
Lemma rp_uniform_int FO n : 0 < n <= int_max ->
  rpost FO (rand_uniform_int 0 n) (fun z => 0 <= z < n).
Proof.
  intros H g. pose proof (rand_uniform_int_0 n g H) as R.
  destruct (rand_uniform_int 0 n g) as [[a g']| |w|]; try contradiction. destruct R as (R1 & _). exact R1.
Qed.

(** ** The running-sum walk. *)

(** The [j]-th running sum, computed in the order and precision of the code. *)
Definition run_sum (sum : f64) (rest : list f64) (j : nat) : f64 :=
  fold_left fadd (firstn j rest) sum.

Lemma spin_iff p sum rest i0 i :
  spin p sum rest i0 = Ok i <->
  exists k, i = (i0 + k)%nat /\ (k <= length rest)%nat /\ fgt p (run_sum sum rest k) = false /\
            (forall j, (j < k)%nat -> fgt p (run_sum sum rest j) = true).
Proof.
  revert sum i0. induction rest as [|v r IH]; intros sum i0; cbn [spin].
  - destruct (fgt p sum) eqn:E.
    + split; [discriminate|]. intros (k & -> & L & H1 & _). destruct k; [|simpl in L; lia].
      unfold run_sum in H1. simpl in H1. congruence.
    + split.
      * intros H. injection H as <-. exists 0%nat. repeat split; [lia|simpl; lia|exact E|lia].
      * intros (k & -> & L & _). simpl in L. f_equal. lia.
  - destruct (fgt p sum) eqn:E.
    + rewrite IH. split.
      * intros (k & -> & L & H1 & H2). exists (S k). repeat split; [lia|simpl; lia|exact H1|].
        intros [|j] Hj; [exact E|]. apply H2. lia.
      * intros (k & -> & L & H1 & H2). destruct k as [|k].
        { unfold run_sum in H1; simpl in H1; congruence. }
        exists k. repeat split; [lia|simpl in L; lia|exact H1|]. intros j Hj. apply (H2 (S j)). lia.
    + split.
      * intros H. injection H as <-. exists 0%nat. repeat split; [lia|simpl; lia|exact E|lia].
      * intros (k & -> & L & H1 & H2). destruct k as [|k]; [f_equal; lia|].
        specialize (H2 0%nat (Nat.lt_0_succ k)). unfold run_sum in H2; simpl in H2. congruence.
Qed.

(** [i] wins the spin [p] over the votes [vs]: it is the first position at which the running
    sum (starting from the first vote) reaches [p]. *)
Definition cum (vs : list f64) (j : nat) : f64 :=
  match vs with [] => f0 | v :: r => fold_left fadd (firstn j r) v end.
Definition wins (p : f64) (vs : list f64) (i : nat) : Prop :=
  (i < length vs)%nat /\ fgt p (cum vs i) = false /\ (forall j, (j < i)%nat -> fgt p (cum vs j) = true).
Lemma spin_list_iff p vs i : spin_list p vs = Ok i <-> wins p vs i.
Proof.
  unfold spin_list, wins. destruct vs as [|v r]; [split; [discriminate|intros (L & _); cbn in L; lia]|].
  rewrite spin_iff. cbn [cum length]. split.
  - intros (k & -> & L & H1 & H2). cbn [Nat.add]. split; [lia|]. split; assumption.
  - intros (L & H1 & H2). exists i. split; [reflexivity|]. split; [lia|]. split; assumption.
Qed.

Lemma spin_total p sum rest i0 : fle p (fold_left fadd rest sum) = true ->
  exists k, spin p sum rest i0 = Ok (i0 + k)%nat /\ (k <= length rest)%nat.
Proof.
  revert sum i0. induction rest as [|v r IH]; intros sum i0 H; cbn [spin]; simpl in H.
  - destruct (fgt p sum) eqn:E.
    + exfalso. unfold fgt in E. change (Bltb sum p) with (flt sum p) in E.
      pose proof (fle_flt_trans _ _ _ H E) as F. rewrite flt_irrefl in F. discriminate.
    + exists 0%nat. split; [f_equal; lia|simpl; lia].
  - destruct (fgt p sum) eqn:E.
    + destruct (IH (fadd sum v) (S i0) H) as (k & E1 & L). exists (S k). rewrite E1.
      split; [f_equal; lia|simpl; lia].
    + exists 0%nat. split; [f_equal; lia|simpl; lia].
Qed.

Lemma sum_list_fold v r : fpos v -> Forall fpos r ->
  fle (sum_list (v :: r)) (fold_left fadd r v) = true.
Proof.
  intros Hv Hr. unfold sum_list. simpl. apply fold_mono; try assumption.
  - apply fpos_add; [reflexivity|exact Hv].
  - apply fle_X; [apply fpos_nn, fpos_add; [reflexivity|exact Hv]|apply fpos_nn, Hv|].
    rewrite fadd_0_l by exact Hv. lra.
Qed.

(** A spin over non-negative votes always selects somebody. *)
Lemma spin_list_total p vs : vs <> [] -> Forall fpos vs -> fle p (sum_list vs) = true ->
  exists k, spin_list p vs = Ok k /\ (k < length vs)%nat.
Proof.
  destruct vs as [|v r]; [congruence|]. intros _ F H. inversion F; subst.
  destruct (spin_total p v r 0) as (k & E & L).
  - eapply fle_trans; [exact H|]. apply sum_list_fold; assumption.
  - exists k. split; [exact E|simpl; lia].
Qed.

Lemma sum_list_fpos vs : Forall fpos vs -> fpos (sum_list vs).
Proof. intros H. apply fold_fpos; [reflexivity|exact H]. Qed.

Section Sel.
Context {B : Type} (V : vtab B) (K : cfg) (kf Nx : Z) (wf : B -> Prop) (CO : cfg_ok K kf).
Notation rule_ok := (rule_ok K kf Nx wf).

Lemma del_vote_fpos (c : cl B) avg : rule_ok c -> 1 <= c_num c -> fpos (cl_del_vote K c avg).
Proof.
  intros [Hf Hs _ _ _ _] Hn. unfold cl_del_vote.
  pose proof (vote_pos (c_size c) (c_num c) (c_fit c) (DELTA K) avg _ _ Hn Hs Hf (ok_delta _ _ CO)) as VP.
  destruct (THETA_DEL K <? c_exp c); simpl; [exact VP|].
  destruct (of_Z_ge1 _ Hn) as (N & G). destruct Hs as (F & L & U).
  destruct (fmul_ge1 (c_size c) (of_Z (c_num c))) as (N2 & G2); try assumption.
  - apply fin_nn, F.
  - rewrite X_finite by exact F. exact L.
  - apply fpos_of_X; [exact N2|lra].
Qed.

Lemma total_fit_map (cs : list (cl B)) : total_fit cs = sum_list (map c_fit cs).
Proof.
  unfold total_fit, sum_list. generalize f0. induction cs as [|c cs IH]; intros a; simpl; [reflexivity|apply IH].
Qed.

Lemma spin_rpost FO {A} (vs : list f64) (k : f64 -> nat -> RM A) (Q : A -> Prop) : vs <> [] -> Forall fpos vs ->
  (forall p i, rout (rand_uniform f0 (sum_list vs)) p -> wins p vs i -> rpost FO (k p i) Q) ->
  rpost FO (p <- rand_uniform f0 (sum_list vs) ;; i <- lift (spin_list p vs) ;; k p i)%rng Q.
Proof.
  intros NE F H. eapply rp_bind; [apply rp_rout, rp_uniform_0, sum_list_fpos, F|].
  intros p ((_ & Hp) & R). destruct (spin_list_total p vs NE F Hp) as (i & E & Li).
  eapply rp_bind with (P := fun j => j = i).
  { intros g. unfold lift. rewrite E. reflexivity. }
  intros j ->. apply H; [exact R|]. apply spin_list_iff, E.
Qed.

(** The vote against a rule; the rule a roulette wheel selects for deletion: the winner of a
    spin over the votes or, when compacting an accurate system, the larger winner of two. *)
Definition vote_of (c : cl B) (avg : f64) : f64 :=
  if (THETA_DEL K <? c_exp c) && flt (c_fit c) (fmul (fmul (DELTA K) avg) (of_Z (c_num c)))
  then fdiv (fmul (fmul (c_size c) (of_Z (c_num c))) avg) (fdiv (c_fit c) (of_Z (c_num c)))
  else fmul (c_size c) (of_Z (c_num c)).
Definition bulk (c : cl B) : f64 := fadd (v_cond_size V (c_body c)) (v_pred_size V (c_body c)).
Definition wheel_choice (err : f64) (pnum : Z) (cs : list (cl B)) (i : nat) : Prop :=
  let votes := map (fun c => vote_of c (fdiv (fold_left fadd (map c_fit cs) f0) (of_Z pnum))) cs in
  exists p1 i1 c1, rout (rand_uniform f0 (fold_left fadd votes f0)) p1 /\ wins p1 votes i1 /\ nth_error cs i1 = Some c1 /\
  if COMPACTION K && flt err (E0 K)
  then exists p2 i2 c2, rout (rand_uniform f0 (fold_left fadd votes f0)) p2 /\ wins p2 votes i2 /\ nth_error cs i2 = Some c2 /\
         i = (if fgt (bulk c2) (bulk c1) then i2 else i1)
  else i = i1.
Lemma wheel_choice_lt err pnum cs i : wheel_choice err pnum cs i -> (i < length cs)%nat.
Proof.
  intros (p1 & i1 & c1 & _ & _ & N1 & H). assert (L1 : (i1 < length cs)%nat) by (apply nth_error_Some; congruence).
  destruct (_ && _); [|subst; exact L1]. destruct H as (p2 & i2 & c2 & _ & _ & N2 & ->).
  destruct (fgt _ _); [apply nth_error_Some; congruence|exact L1].
Qed.
Lemma pset_roulette_rpost FO err pnum (cs : list (cl B)) :
  cs <> [] -> Forall rule_ok cs -> Forall (fun c => 1 <= c_num c) cs ->
  rpost FO (pset_roulette V K err pnum cs) (fun r => exists i, r = Some i /\ wheel_choice err pnum cs i).
Proof.
  intros NE R N. unfold pset_roulette, wheel_choice. cbv zeta. rewrite total_fit_map.
  change (sum_list (map c_fit cs)) with (fold_left fadd (map c_fit cs) f0).
  change (fun c => cl_del_vote K c ?a) with (fun c => vote_of c a).
  set (votes := map _ cs). change (fold_left fadd votes f0) with (sum_list votes).
  assert (F : Forall fpos votes).
  { apply Forall_forall. intros v Hv. apply in_map_iff in Hv. destruct Hv as (c & <- & I).
    rewrite Forall_forall in R, N. apply del_vote_fpos; auto. }
  assert (NV : votes <> []) by (unfold votes; destruct cs; [congruence|discriminate]).
  assert (LV : length votes = length cs) by apply map_length.
  assert (W : forall p i, wins p votes i -> exists c, nth_error cs i = Some c).
  { intros p i (L & _). destruct (nth_error cs i) as [c|] eqn:Ec; [eauto|]. apply nth_error_None in Ec. lia. }
  destruct (COMPACTION K && flt err (E0 K)); cbn [roulette_spins].
  - apply spin_rpost; [exact NV|exact F|]. intros p1 i1 R1 W1. destruct (W _ _ W1) as (c1 & E1). rewrite E1.
    apply spin_rpost; [exact NV|exact F|]. intros p2 i2 R2 W2. destruct (W _ _ W2) as (c2 & E2). rewrite E2.
    fold (cl_cond_size V) (cl_pred_size V). change (fadd (cl_cond_size V c1) (cl_pred_size V c1)) with (bulk c1).
    change (fadd (cl_cond_size V c2) (cl_pred_size V c2)) with (bulk c2).
    destruct (fgt (bulk c2) (bulk c1)) eqn:G; apply rp_ret; eexists; (split; [reflexivity|]);
      exists p1, i1, c1; (split; [exact R1|split; [exact W1|split; [exact E1|]]]); exists p2, i2, c2; rewrite G; auto.
  - apply spin_rpost; [exact NV|exact F|]. intros p1 i1 R1 W1. destruct (W _ _ W1) as (c1 & E1). rewrite E1.
    apply rp_ret. exists i1. split; [reflexivity|]. exists p1, i1, c1. auto.
Qed.

(** The scan for a rule that never matched. *)
Definition unmatched (c : cl B) : bool := (c_mtotal c =? 0) && (M_PROBATION K <? c_age c).
Lemma never_match_some (cs : list (cl B)) i0 i : never_match K cs i0 = Some i <->
  exists k c, i = (i0 + k)%nat /\ nth_error cs k = Some c /\ unmatched c = true /\
    (forall j c', (j < k)%nat -> nth_error cs j = Some c' -> unmatched c' = false).
Proof.
  revert i0. induction cs as [|c cs IH]; intros i0; cbn [never_match].
  - split; [discriminate|]. intros (k & c & _ & H & _). destruct k; discriminate.
  - fold (unmatched c). destruct (unmatched c) eqn:U.
    + split.
      * intros H. injection H as <-. exists 0%nat, c. repeat split; [lia|exact U|lia].
      * intros (k & c' & -> & H1 & H2 & H3). destruct k as [|k]; [f_equal; lia|].
        rewrite (H3 0%nat c) in U; [discriminate|lia|reflexivity].
    + rewrite IH. split.
      * intros (k & c' & -> & H1 & H2 & H3). exists (S k), c'. repeat split; [lia|exact H1|exact H2|].
        intros [|j] c'' Hj E; [simpl in E; congruence|]. apply (H3 j); [lia|exact E].
      * intros (k & c' & -> & H1 & H2 & H3). destruct k as [|k]; [simpl in H1; congruence|].
        exists k, c'. repeat split; [lia|exact H1|exact H2|]. intros j c'' Hj E. apply (H3 (S j)); [lia|exact E].
Qed.
Lemma never_match_lt (cs : list (cl B)) i : never_match K cs 0 = Some i -> (i < length cs)%nat.
Proof.
  intros H. apply never_match_some in H. destruct H as (k & c & -> & H & _).
  simpl. apply nth_error_Some. congruence.
Qed.
Lemma never_match_none (cs : list (cl B)) i0 : never_match K cs i0 = None <-> Forall (fun c => unmatched c = false) cs.
Proof.
  revert i0. induction cs as [|c cs IH]; intros i0; cbn [never_match]; [split; auto|].
  fold (unmatched c). destruct (unmatched c) eqn:U.
  - split; [discriminate|]. intros H. inversion H; congruence.
  - rewrite IH. split; [intros; constructor; assumption|intros H; inversion H; assumption].
Qed.

(** ** Parent selection. *)

(** The parent picked by a spin over the fitnesses. *)
Definition wheel_parent (ls : list loc) (cs : list (cl B)) (l : loc) : Prop :=
  exists p i, rout (rand_uniform f0 (fold_left fadd (map c_fit cs) f0)) p /\ wins p (map c_fit cs) i /\ nth_error ls i = Some l.
Lemma select_rw_rpost FO ls (cs : list (cl B)) : ls <> [] -> length ls = length cs -> Forall (fun c => fpos (c_fit c)) cs ->
  rpost FO (ea_select_rw ls cs (total_fit cs)) (wheel_parent ls cs).
Proof.
  intros NE L R. unfold ea_select_rw. rewrite total_fit_map.
  assert (F : Forall fpos (map c_fit cs)) by (apply Forall_map; exact R).
  apply spin_rpost; [destruct cs; [destruct ls; [congruence|discriminate]|discriminate]|exact F|].
  intros p i Rp W. pose proof W as (Lk & _). rewrite map_length in Lk.
  destruct (nth_error ls i) as [l|] eqn:N; [|apply nth_error_None in N; lia].
  apply rp_ret. exists p, i. auto.
Qed.

(** The winner of a tournament pass: [us] are the random numbers drawn for the rules in turn;
    those below the tournament size take part; the winner is the first of the fittest. *)
Definition entered (us : list f64) (j : nat) : Prop := exists u, nth_error us j = Some u /\ flt u (ea_select_size K) = true.
Definition tournament_won (lcs : list (loc * cl B)) (us : list f64) (k : nat) : Prop :=
  entered us k /\ exists l c, nth_error lcs k = Some (l, c) /\
  forall j l' c', nth_error lcs j = Some (l', c') -> entered us j ->
    ((j < k)%nat -> flt (c_fit c') (c_fit c) = true) /\ fle (c_fit c') (c_fit c) = true.
Definition pass_result (lcs : list (loc * cl B)) (r : option (loc * cl B)) : Prop :=
  exists us, length us = length lcs /\ Forall (rout (rand_uniform f0 f1)) us /\
  match r with
  | None => forall j, ~ entered us j
  | Some x => exists k, tournament_won lcs us k /\ nth_error lcs k = Some x
  end.
Lemma pass_gen FO (lcs done : list (loc * cl B)) us0 (w : option (loc * cl B)) :
  Forall (fun x => fpos (c_fit (snd x))) (done ++ lcs) ->
  length us0 = length done -> Forall (rout (rand_uniform f0 f1)) us0 ->
  match w with
  | None => forall j, ~ entered us0 j
  | Some x => exists k, tournament_won done us0 k /\ nth_error done k = Some x
  end ->
  rpost FO (tournament_pass K lcs w) (pass_result (done ++ lcs)).
Proof.
  revert done us0 w. induction lcs as [|[l c] r IH]; intros done us0 w F L U H; cbn [tournament_pass].
  - apply rp_ret. rewrite app_nil_r in *. exists us0. auto.
  - eapply rp_bind with (P := rout (rand_uniform f0 f1)).
    { intros g. destruct (rand_uniform f0 f1 g) as [[u g']| |z|] eqn:E; [exists g, g'; exact E|exact I| |];
        rewrite rand_uniform_eq in E; discriminate. }
    intros u Ru. change (done ++ (l, c) :: r) with (done ++ [(l, c)] ++ r). rewrite app_assoc.
    assert (LA : length (us0 ++ [u]) = length (done ++ [(l, c)])) by (rewrite !app_length; cbn; lia).
    assert (UA : Forall (rout (rand_uniform f0 f1)) (us0 ++ [u])) by (apply Forall_app; auto).
    assert (FA : Forall (fun x => fpos (c_fit (snd x))) ((done ++ [(l, c)]) ++ r)) by (rewrite <- app_assoc; exact F).
    assert (EN : forall j, entered (us0 ++ [u]) j <-> entered us0 j \/ (j = length done /\ flt u (ea_select_size K) = true)).
    { intros j. unfold entered. split.
      - intros (v & Hv & Lv). destruct (Nat.lt_ge_cases j (length us0)) as [C|C].
        + rewrite nth_error_app1 in Hv by exact C. left. eauto.
        + rewrite nth_error_app2 in Hv by exact C. right.
          destruct (j - length us0)%nat as [|d] eqn:D; [injection Hv as <-; split; [lia|exact Lv]|destruct d; discriminate].
      - intros [(v & Hv & Lv)|(-> & Lv)].
        + exists v. rewrite nth_error_app1; [auto|]. apply nth_error_Some. congruence.
        + exists u. rewrite nth_error_app2, L, Nat.sub_diag by lia. auto. }
    assert (ND : forall j x, nth_error (done ++ [(l, c)]) j = Some x -> nth_error done j = Some x \/ (j = length done /\ x = (l, c))).
    { intros j x Hj. destruct (Nat.lt_ge_cases j (length done)) as [C|C].
      - rewrite nth_error_app1 in Hj by exact C. auto.
      - rewrite nth_error_app2 in Hj by exact C. destruct (j - length done)%nat as [|d] eqn:D; [injection Hj as <-; right; split; [lia|reflexivity]|destruct d; discriminate]. }
    assert (NL : nth_error (done ++ [(l, c)]) (length done) = Some (l, c)) by (rewrite nth_error_app2, Nat.sub_diag by lia; reflexivity).
    assert (PD : forall j x, nth_error done j = Some x -> fpos (c_fit (snd x))).
    { intros j x Hj. rewrite Forall_forall in F. apply F, in_or_app. left. eapply nth_error_In, Hj. }
    assert (Pc : fpos (c_fit c)).
    { rewrite Forall_forall in F. apply (F (l, c)), in_or_app. right. left. reflexivity. }
    apply IH with (us0 := us0 ++ [u]); [exact FA|exact LA|exact UA|].
    destruct (flt u (ea_select_size K)) eqn:Eu; cbn [andb].
    + destruct w as [[lw cw]|].
      * destruct H as (k & (Ek & l0 & c0 & Nk & Mk) & Nk'). rewrite Nk in Nk'. injection Nk' as -> ->.
        destruct (fgt (c_fit c) (c_fit cw)) eqn:G.
        -- exists (length done). split; [|exact NL]. split; [apply EN; auto|]. exists l, c. split; [exact NL|].
           intros j l' c' Hj Ej. destruct (ND _ _ Hj) as [Hd|(-> & X)].
           ++ apply EN in Ej. destruct Ej as [Ej|(-> & _)].
              ** destruct (Mk _ _ _ Hd Ej) as (_ & M2). assert (LT : flt (c_fit c') (c_fit c) = true) by (eapply fle_flt_trans; [exact M2|exact G]).
                 split; [auto|apply flt_fle, LT].
              ** assert (length done < length done)%nat by (apply nth_error_Some; congruence). lia.
           ++ injection X as <- <-. split; [lia|]. apply fle_refl, fpos_nn, Pc.
        -- assert (LC : fle (c_fit c) (c_fit cw) = true) by (apply flt_false_fle; [apply fpos_nn, (PD _ _ Nk)|apply fpos_nn, Pc|exact G]).
           assert (Lk : (k < length done)%nat) by (apply nth_error_Some; congruence).
           exists k. split; [|rewrite nth_error_app1 by exact Lk; exact Nk]. split; [apply EN; auto|].
           exists lw, cw. split; [rewrite nth_error_app1 by exact Lk; exact Nk|].
           intros j l' c' Hj Ej. destruct (ND _ _ Hj) as [Hd|(-> & X)].
           ++ apply EN in Ej. destruct Ej as [Ej|(-> & _)]; [exact (Mk _ _ _ Hd Ej)|].
              assert (length done < length done)%nat by (apply nth_error_Some; congruence). lia.
           ++ injection X as <- <-. split; [lia|exact LC].
      * exists (length done). split; [|exact NL]. split; [apply EN; auto|]. exists l, c. split; [exact NL|].
        intros j l' c' Hj Ej. destruct (ND _ _ Hj) as [Hd|(-> & X)].
        -- apply EN in Ej. destruct Ej as [Ej|(-> & _)]; [exfalso; apply (H j), Ej|].
           assert (length done < length done)%nat by (apply nth_error_Some; congruence). lia.
        -- injection X as <- <-. split; [lia|]. apply fle_refl, fpos_nn, Pc.
    + destruct w as [[lw cw]|].
      * destruct H as (k & (Ek & l0 & c0 & Nk & Mk) & Nk'). rewrite Nk in Nk'. injection Nk' as -> ->.
        assert (Lk : (k < length done)%nat) by (apply nth_error_Some; congruence).
        exists k. split; [|rewrite nth_error_app1 by exact Lk; exact Nk]. split; [apply EN; auto|].
        exists lw, cw. split; [rewrite nth_error_app1 by exact Lk; exact Nk|].
        intros j l' c' Hj Ej. apply EN in Ej. destruct Ej as [Ej|(_ & Ej)]; [|discriminate].
        destruct (ND _ _ Hj) as [Hd|(-> & X)]; [exact (Mk _ _ _ Hd Ej)|].
        destruct Ej as (v & Hv & _). assert (length done < length us0)%nat by (apply nth_error_Some; congruence). lia.
      * intros j Ej. apply EN in Ej. destruct Ej as [Ej|(_ & Ej)]; [exact (H j Ej)|discriminate].
Qed.
Lemma tournament_pass_rpost FO (lcs : list (loc * cl B)) : Forall (fun x => fpos (c_fit (snd x))) lcs ->
  rpost FO (tournament_pass K lcs None) (pass_result lcs).
Proof.
  intros F. apply (pass_gen FO lcs [] [] None); [exact F|reflexivity|constructor|].
  intros j (u & Hu & _). destruct j; discriminate.
Qed.
(** The parent picked by a tournament: the winner of a pass somebody entered. *)
Definition tournament_parent (lcs : list (loc * cl B)) (l : loc) : Prop :=
  exists c, pass_result lcs (Some (l, c)).
Lemma select_tournament_rpost (FO : Prop) fuel (lcs : list (loc * cl B)) : FO -> Forall (fun x => fpos (c_fit (snd x))) lcs ->
  rpost FO (ea_select_tournament K fuel lcs) (tournament_parent lcs).
Proof.
  intros HF F. induction fuel as [|f IH]; cbn [ea_select_tournament].
  - intros g. exact HF.
  - eapply rp_bind; [apply (tournament_pass_rpost FO lcs F)|].
    intros [[l c]|] H; [|exact IH]. apply rp_ret. exists c. exact H.
Qed.

Lemma combine_fst {A C} (l1 : list A) (l2 : list C) x : In x (map fst (combine l1 l2)) -> In x l1.
Proof. intros H. apply in_map_iff in H. destruct H as ([a b] & <- & I). eapply in_combine_l, I. Qed.

(** A parent is selected. *)
Definition parent (ls : list loc) (cs : list (cl B)) (l : loc) : Prop :=
  if ea_tournament K then tournament_parent (combine ls cs) l else wheel_parent ls cs l.
Lemma parent_in ls cs l : parent ls cs l -> In l ls.
Proof.
  unfold parent. destruct (ea_tournament K).
  - intros (c & us & _ & _ & k & _ & N). apply (combine_fst ls cs). apply (in_map fst _ (l, c)). eapply nth_error_In, N.
  - intros (p & i & _ & _ & N). eapply nth_error_In, N.
Qed.
Lemma ea_select_rpost (FO : Prop) ls (cs : list (cl B)) : (ea_tournament K = true -> FO) ->
  ls <> [] -> length ls = length cs -> Forall rule_ok cs ->
  rpost FO (ea_select K ls cs) (fun r => parent ls cs (fst r) /\ parent ls cs (snd r)).
Proof.
  intros HF NE L R. unfold ea_select, parent.
  assert (F : Forall (fun c => fpos (c_fit c)) cs) by (eapply Forall_impl; [|exact R]; intros c H; eapply fin_p_fpos, (ro_fit H)).
  destruct (ea_tournament K).
  - assert (FC : Forall (fun x : loc * cl B => fpos (c_fit (snd x))) (combine ls cs)).
    { apply Forall_forall. intros [l c] Hc. rewrite Forall_forall in F. apply (F c). eapply in_combine_r, Hc. }
    eapply rp_bind; [apply (select_tournament_rpost FO _ _ (HF eq_refl) FC)|]. intros a Ha.
    eapply rp_bind; [apply (select_tournament_rpost FO _ _ (HF eq_refl) FC)|]. intros b Hb.
    apply rp_ret. split; assumption.
  - eapply rp_bind; [apply (select_rw_rpost FO ls cs NE L F)|]. intros a Ha.
    eapply rp_bind; [apply (select_rw_rpost FO ls cs NE L F)|]. intros b Hb.
    apply rp_ret. split; assumption.
Qed.
End Sel.
