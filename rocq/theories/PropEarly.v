(** * Early stopping. *)
From Coq Require Import ZArith Bool List Reals Lia Lra.
From Flocq Require Import Core BinarySingleNaN.
From Verif Require Import Outcome F64 F64Facts F64Bounds Rng RngFacts Pop PopSpec PopInv PopSel PopTrial PopFit PopRL PopOps PopSeq PopKeep PropMulti PropStore Clock Py PopTick PropPy.
Import ListNotations.
Open Scope Z_scope.

(** ** Subtraction of a margin. *)
Lemma below_cases (b : f64) : nn b -> (X b < bpow radix2 1024)%R -> is_finite b = true \/ b = B754_infinity true.
Proof.
  intros N L. destruct b as [s|[]| |s m e h]; try (left; reflexivity); try (right; reflexivity); [|discriminate N].
  cbn in L. lra.
Qed.
Lemma margin (b d : f64) : nn b -> (X b < bpow radix2 1024)%R -> fpos d -> nn (fsub b d) /\ (X (fsub b d) <= X b)%R.
Proof.
  intros N L P. destruct (below_cases b N L) as [F| ->].
  - destruct (fpos_cases d P) as [(Fd & Hd)| ->].
    + destruct (fsub_fin b d F Fd) as (N1 & E1). split; [exact N1|]. rewrite E1, (X_finite b F). replace (B2R b) with (sat (B2R b)) at 2 by apply sat_B2R. apply sat_le. apply rnd_le_B2R. lra.
    + assert (E : fsub b finf = B754_infinity true) by (destruct b; try discriminate F; reflexivity). rewrite E. split; [reflexivity|]. apply X_bnd.
  - destruct (fpos_cases d P) as [(Fd & _)| ->]; [|split; [reflexivity|apply Rle_refl]]. destruct d as [s|s| |s m e h]; try discriminate Fd; (split; [reflexivity|apply Rle_refl]).
Qed.
Lemma dbl_max_X : nn dbl_max /\ (X dbl_max < bpow radix2 1024)%R.
Proof. assert (F : is_finite dbl_max = true) by reflexivity. split; [apply fin_nn, F|]. rewrite (X_finite _ F). apply B2R_bnd. Qed.

Section Watch.
Context {B : Type} (V : vtab B) (K : cfg).

(** ** Observations: number of trials so far, error, and the system at that moment. *)
Definition obs : Type := (Z * f64 * st B).
Definition o_trial (o : obs) : Z := fst (fst o).
Definition o_error (o : obs) : f64 := snd (fst o).
Definition o_sys (o : obs) : st B := snd o.

(** An observation is an improvement on the best so far (if any). *)
Definition improves (start : Z) (delta : f64) (b : option obs) (o : obs) : bool :=
  (start <=? o_trial o) && flt (o_error o) (fsub (match b with Some w => o_error w | None => dbl_max end) delta).
Definition better (start : Z) (delta : f64) (b : option obs) (o : obs) : option obs :=
  if improves start delta b o then Some o else b.
Definition best (start : Z) (delta : f64) (h : list obs) : option obs := fold_left (better start delta) h None.
Definition best_trial (b : option obs) : Z := match b with Some w => o_trial w | None => 0 end.
Definition best_error (b : option obs) : f64 := match b with Some w => o_error w | None => dbl_max end.
(** The last observation is monitored and more than [patience] trials after the best one. *)
Definition gives_up (start patience : Z) (delta : f64) (h : list obs) : Prop :=
  exists h0 o, h = h0 ++ [o] /\ start <= o_trial o /\ best_trial (best start delta h) < o_trial o - patience.

Lemma best_snoc start delta h o : best start delta (h ++ [o]) = better start delta (best start delta h) o.
Proof. unfold best. rewrite fold_left_app. reflexivity. Qed.

(** What [best] finds. *)
Lemma best_facts start delta h : fpos delta -> match best start delta h with
  | None => forall o, In o h -> start <= o_trial o -> flt (o_error o) (fsub dbl_max delta) = false
  | Some w => exists h1 h2, h = h1 ++ w :: h2 /\ start <= o_trial w /\ nn (o_error w) /\ (X (o_error w) < bpow radix2 1024)%R /\
      (forall o, In o h -> start <= o_trial o -> flt (o_error o) (fsub (o_error w) delta) = false) /\
      (forall o, In o h1 -> start <= o_trial o -> fle (o_error o) (o_error w) = false)
  end.
Proof.
  intros P. induction h as [|o h IH] using rev_ind; [intros o []|]. rewrite best_snoc. unfold better, improves.
  destruct dbl_max_X as (ND & LD).
  assert (LOW : forall (e b : f64), nn b -> (X b < bpow radix2 1024)%R -> flt e (fsub b delta) = true -> nn e /\ (X e < X (fsub b delta))%R /\ (X (fsub b delta) <= X b)%R).
  { intros e b Nb Lb E. destruct (margin b delta Nb Lb P) as (Ns & Ls). pose proof (flt_nn _ _ E) as (Ne & _). split; [exact Ne|]. split; [apply flt_X; auto|exact Ls]. }
  destruct (best start delta h) as [w|] eqn:EB.
  - destruct IH as (h1 & h2 & E & S & Nw & Lw & A & F).
    destruct ((start <=? o_trial o) && flt (o_error o) (fsub (o_error w) delta)) eqn:C.
    + apply andb_prop in C. destruct C as (C1 & C2). apply Z.leb_le in C1. destruct (LOW _ _ Nw Lw C2) as (No & L1 & L2).
      exists h, []. split; [reflexivity|]. split; [exact C1|]. split; [exact No|]. split; [lra|].
      assert (OLD : forall q, In q h -> start <= o_trial q -> fle (o_error q) (o_error o) = false).
      { intros q Hq Sq. specialize (A q Hq Sq). destruct (fle (o_error q) (o_error o)) eqn:Q; [|reflexivity].
        rewrite <- A. symmetry. eapply fle_flt_trans; eassumption. }
      split; [|exact OLD]. intros q Hq Sq. apply in_app_or in Hq. destruct (margin _ _ No ltac:(lra) P) as (Ns & Ls). destruct Hq as [Hq|[<-|[]]].
      * specialize (OLD q Hq Sq). destruct (flt (o_error q) (fsub (o_error o) delta)) eqn:Q; [|reflexivity]. rewrite <- OLD. symmetry.
        eapply fle_trans; [apply flt_fle, Q|]. apply fle_X; auto.
      * apply flt_X_false; auto.
    + exists h1, (h2 ++ [o]). split; [rewrite E, <- app_assoc; reflexivity|]. split; [exact S|]. split; [exact Nw|]. split; [exact Lw|]. split; [|exact F].
      intros q Hq Sq. apply in_app_or in Hq. destruct Hq as [Hq|[<-|[]]]; [apply A; auto|].
      apply Z.leb_le in Sq. rewrite Sq in C. exact C.
  - destruct ((start <=? o_trial o) && flt (o_error o) (fsub dbl_max delta)) eqn:C.
    + apply andb_prop in C. destruct C as (C1 & C2). apply Z.leb_le in C1. destruct (LOW _ _ ND LD C2) as (No & L1 & L2).
      exists h, []. split; [reflexivity|]. split; [exact C1|]. split; [exact No|]. split; [lra|].
      assert (OLD : forall q, In q h -> start <= o_trial q -> fle (o_error q) (o_error o) = false).
      { intros q Hq Sq. specialize (IH q Hq Sq). destruct (fle (o_error q) (o_error o)) eqn:Q; [|reflexivity].
        rewrite <- IH. symmetry. eapply fle_flt_trans; eassumption. }
      split; [|exact OLD]. intros q Hq Sq. apply in_app_or in Hq. destruct (margin _ _ No ltac:(lra) P) as (Ns & Ls). destruct Hq as [Hq|[<-|[]]].
      * specialize (OLD q Hq Sq). destruct (flt (o_error q) (fsub (o_error o) delta)) eqn:Q; [|reflexivity]. rewrite <- OLD. symmetry.
        eapply fle_trans; [apply flt_fle, Q|]. apply fle_X; auto.
      * apply flt_X_false; auto.
    + intros q Hq Sq. apply in_app_or in Hq. destruct Hq as [Hq|[<-|[]]]; [apply IH; auto|]. apply Z.leb_le in Sq. rewrite Sq in C. exact C.
Qed.

(** ** The run: epochs from [i] on, the callback storing the population at each improvement. *)
Fixpoint watched (start : Z) (delta : f64) (val restore : bool) (d : input) (v : option input) (shuffle : bool) (nt i cnt : Z)
  (past h : list obs) (s s' : st B) : Prop :=
  match h with
  | [] => s' = s
  | o :: r => exists ev s1, epoch V K d v shuffle nt i s = Ok (ev, o_sys o) /\ o_trial o = (cnt + 1) * nt /\
      o_error o = (if val then snd ev else fst ev) /\
      (if restore && improves start delta (best start delta past) o then store_pset V K (o_sys o) = Ok (tt, s1) else s1 = o_sys o) /\
      watched start delta val restore d v shuffle nt (i + 1) (cnt + 1) (past ++ [o]) r s1 s'
  end.
(** The population is a copy (in reverse order) of that of the system [u]. *)
Definition copy_of (u s : st B) : Prop := exists cs ds,
  rules_of (s_pset u) u = map Some cs /\ rules_of (s_pset s) s = map Some (rev ds) /\ Forall2 (stored V K) cs ds.
Definition held (u s : st B) : Prop := exists cs ds,
  rules_of (s_pset u) u = map Some cs /\ rules_of (s_prev_pset s) s = map Some (rev ds) /\ Forall2 (stored V K) cs ds.
Lemma held_guards u s s' : guards s s' -> held u s -> held u s'.
Proof.
  intros (G1 & G2) (cs & ds & A & C & D). exists cs, ds. split; [exact A|]. split; [|exact D]. rewrite <- C. unfold rules_of. rewrite G1.
  apply map_ext_in. exact G2.
Qed.

Context (FO : Prop) (kf : Z) (wf : B -> Prop) (mt : B -> list f64 -> Prop) {dom : list f64 -> Prop}.
Hypothesis CO : cfg_ok K kf.
Hypothesis VO : vt_ok (dom := dom) FO V K wf mt.
Hypothesis HT : ea_tournament K = true -> FO.
Notation Good N := (Good K kf N wf).

Lemma hp_with {A} (o : outcome (A * st B)) Q : hpost FO o Q -> hpost FO o (fun a s' => o = Ok (a, s') /\ Q a s').
Proof. unfold hpost. destruct o as [[a s']| | |]; auto. Qed.

(** Retrieving what is held. *)
Lemma retrieve_held N u s : Good N s -> held u s -> set_list (s_pset u) <> [] ->
  exists s', retrieve_pset s = Ok (tt, s') /\ Good N s' /\ copy_of u s'.
Proof.
  intros G (cs & ds & A & C & D) NE. destruct (retrieve_spec K kf wf CO N s G) as (s' & E' & (_ & RR) & G'). exists s'. split; [exact E'|]. split; [exact G'|].
  assert (NQ : set_list (s_prev_pset s) <> []).
  { intros Z0. unfold rules_of in *. rewrite Z0 in C. destruct ds as [|x ds]; [|cbn [map rev] in C; rewrite map_app in C; destruct (map Some (rev ds)); discriminate C].
    inversion D; subst. destruct (set_list (s_pset u)); [congruence|discriminate A]. }
  destruct (RR NQ) as (h' & FR & ->). exists cs, ds. split; [exact A|]. split; [|exact D]. rewrite <- C. unfold rules_of. cbn [s_heap with_set with_heap s_pset].
  apply map_ext_in. intros l Hl. rewrite FR. destruct (owned_disj _ _ _ _ (i_nodup (g_inv G))) as (_ & _ & _ & _ & D1 & _).
  destruct (existsb (Nat.eqb l) (set_list (s_pset s))) eqn:Xe; [|reflexivity].
  apply existsb_exists in Xe. destruct Xe as (l' & Hl' & Q). apply Nat.eqb_eq in Q. subst l'. destruct (D1 l Hl') as (_ & D' & _). tauto.
Qed.

Section Run.
Variables (val restore : bool) (patience start : Z) (delta : f64).
Hypothesis HP : 0 <= patience <= int_max.
Definition cur (past : list obs) (dr : bool) : early :=
  mkEarly val patience restore delta start (best_error (best start delta past)) (best_trial (best start delta past)) dr.
Definition some {T} (o : option T) : bool := match o with Some _ => true | None => false end.

(** One call of the callback. *)
Lemma early_run_spec N past o s : o_sys o = s -> Good N s -> 0 <= o_trial o <= int_max ->
  (restore = true -> forall w, best start delta past = Some w -> held (o_sys w) s) ->
  let b := best start delta (past ++ [o]) in
  hpost FO (early_run V K (cur past (restore && some (best start delta past))) (o_error o) (o_trial o) s) (fun r s2 => exists s1,
    (if restore && improves start delta (best start delta past) o then store_pset V K s = Ok (tt, s1) else s1 = s) /\ Good N s1 /\ Good N s2 /\
    (restore = true -> forall w, b = Some w -> held (o_sys w) s1) /\ (b = None -> s1 = s) /\
    (if (start <=? o_trial o) && (best_trial b <? o_trial o - patience)
     then r = (cur (past ++ [o]) (negb restore && (restore && some (best start delta past))), true) /\ (if restore then retrieve_pset s1 = Ok (tt, s2) else s2 = s1)
     else r = (cur (past ++ [o]) (restore && some b), false) /\ s2 = s1)).
Proof.
  intros OS G Ht HH b. assert (EB : b = better start delta (best start delta past) o) by apply best_snoc. unfold early_run, cur.
  cbn [es_start_from es_best_error es_min_delta es_restore es_val es_patience es_best_trial es_do_restore]. rewrite Z.ltb_antisym.
  unfold better, improves in *. fold (best_error (best start delta past)) in *.
  destruct (Z.leb_spec start (o_trial o)) as [ST|ST]; cbn [negb andb] in *.
  2: { apply hp_ret. exists s. rewrite andb_false_r. rewrite EB. split; [reflexivity|]. split; [exact G|]. split; [exact G|]. split; [exact HH|]. split; [auto|].
       fold b. rewrite EB. split; reflexivity. }
  assert (RET : forall N (s0 : st B), Good N s0 -> exists s2, retrieve_pset s0 = Ok (tt, s2) /\ Good N s2).
  { intros N1 s0 G0. destruct (retrieve_spec K kf wf CO N1 s0 G0) as (s2 & E2 & _ & G2). exists s2; auto. }
  set (lim := o_trial o - patience). assert (CL : cint lim = Ok lim).
  { unfold cint, lim, int_max in *. destruct (Z.leb_spec (- 2 ^ 31) (o_trial o - patience)); [|lia]. destruct (Z.ltb_spec (o_trial o - patience) (2 ^ 31)); [reflexivity|lia]. }
  destruct (flt (o_error o) (fsub (best_error (best start delta past)) delta)) eqn:IM; cbn [andb].
  - (* an improvement *)
    destruct restore eqn:RS; cbn [andb].
    + eapply hp_bind with (P := fun c1 s1 => c1 = mkEarly val patience true delta start (o_error o) (o_trial o) true /\ store_pset V K s = Ok (tt, s1) /\ Good N s1 /\ held (o_sys o) s1).
      { eapply hp_bind; [apply hp_with, (store_result FO V K kf wf mt CO VO N s G)|]. intros [] s1 (E1 & G1 & cs & ds & R1 & R2 & R3 & _).
        apply hp_ret. repeat (split; [first [reflexivity|assumption]|]). rewrite OS. exists cs, ds. auto. }
      intros c1 s1 (-> & E1 & G1 & H1). cbn [es_patience es_best_trial es_restore es_val es_min_delta es_start_from es_best_error]. fold lim. rewrite CL. apply hp_lift_ok.
      fold b. rewrite EB. cbn [best_trial best_error some]. destruct (Z.ltb_spec (o_trial o) lim) as [L|L]; [unfold lim in L; lia|]. apply hp_ret.
      exists s1. split; [exact E1|]. split; [exact G1|]. split; [exact G1|]. split; [intros _ w [= <-]; exact H1|]. split; [discriminate|]. auto.
    + unfold mbind at 1. unfold mret at 1. cbn beta iota. cbn [es_patience es_best_trial es_restore es_val es_min_delta es_start_from es_best_error]. fold lim. rewrite CL. apply hp_lift_ok.
      fold b. rewrite EB. cbn [best_trial best_error some]. destruct (Z.ltb_spec (o_trial o) lim) as [L|L]; [unfold lim in L; lia|]. apply hp_ret.
      exists s. split; [reflexivity|]. split; [exact G|]. split; [exact G|]. split; [discriminate|]. split; [reflexivity|]. auto.
  - unfold mbind at 1. unfold mret at 1. cbn beta iota. cbn [es_patience es_best_trial es_restore es_val es_min_delta es_start_from es_best_error]. fold lim. rewrite CL. apply hp_lift_ok.
    fold b. rewrite EB. destruct (Z.ltb_spec (best_trial (best start delta past)) lim) as [L|L].
    + destruct restore eqn:RS; cbn [andb negb].
      * destruct (RET N s G) as (s2 & E2 & G2). unfold mbind. rewrite E2. unfold mret. cbn [hpost]. exists s. repeat (split; [first [reflexivity|assumption|auto]|]). auto.
      * apply hp_ret. exists s. split; [reflexivity|]. split; [exact G|]. split; [exact G|]. split; [discriminate|]. auto.
    + apply hp_ret. exists s. rewrite andb_false_r. split; [reflexivity|]. split; [exact G|]. split; [exact G|]. split; [exact HH|]. split; auto.
Qed.

Section Loop.
Variables (d : input) (v : option input) (shuffle : bool) (nt : Z).
Hypothesis Hnt : 1 <= nt.
Hypothesis D : data_ok (dom := dom) K d.
Hypothesis DV : forall t, v = Some t -> data_ok (dom := dom) K t.
Notation gu := (gives_up start patience delta).
Lemma watch_loop n : forall N i p s past, 0 <= N -> N + Z.of_nat n * nt <= 2 ^ 53 -> Good N s -> 0 <= i -> 0 <= p_counter p ->
  (i + Z.of_nat n) * nt <= int_max -> (p_counter p + Z.of_nat n) * nt <= int_max -> p_counter p + Z.of_nat n <= int_max ->
  (restore = true -> forall w, best start delta past = Some w -> held (o_sys w) s) ->
  hpost FO (fit_loop V K n i nt d v shuffle [Early (cur past (restore && some (best start delta past)))] p s) (fun r s2 => exists h s1 N',
    (length h <= n)%nat /\ (n <> O -> h <> []) /\ Good N' s1 /\ Good N' s2 /\
    watched start delta val restore d v shuffle nt i (p_counter p) past h s s1 /\
    (forall h1 h2, h = h1 ++ h2 -> h1 <> [] -> h2 <> [] -> ~ gu (past ++ h1)) /\
    (restore = true -> forall w, best start delta (past ++ h) = Some w -> held (o_sys w) s1) /\
    (best start delta (past ++ h) = None -> guards s s1) /\
    ((h <> [] /\ gu (past ++ h) /\ fst r = [Early (cur (past ++ h) false)] /\ (if restore then retrieve_pset s1 = Ok (tt, s2) else s2 = s1)) \/
     ((h <> [] -> ~ gu (past ++ h)) /\ length h = n /\ fst r = [Early (cur (past ++ h) (restore && some (best start delta (past ++ h))))] /\ s2 = s1))).
Proof.
  assert (GU : forall past o, gu (past ++ [o]) <-> (start <=? o_trial o) && (best_trial (best start delta (past ++ [o])) <? o_trial o - patience) = true).
  { intros past o. split.
    - intros (h0 & o' & E & A & C). apply app_inj_tail in E. destruct E as (-> & <-). apply Z.leb_le in A. apply Z.ltb_lt in C. rewrite A, C. reflexivity.
    - intros E. apply andb_prop in E. destruct E as (A & C). exists past, o. split; [reflexivity|]. split; [apply Z.leb_le, A|apply Z.ltb_lt, C]. }
  induction n as [|n IH]; intros N i p s past N0 LE G Hi Hc O1 O2 O3 HH; cbn [fit_loop].
  - apply hp_ret. exists [], s, N. rewrite app_nil_r. split; [cbn; lia|]. split; [congruence|]. split; [exact G|]. split; [exact G|]. split; [reflexivity|].
    split; [intros h1 h2 E; symmetry in E; apply app_eq_nil in E; destruct E as (-> & _); congruence|]. split; [exact HH|]. split; [intros _; apply guards_refl|].
    right. split; [congruence|]. auto.
  - eapply hp_bind; [apply hp_with, (epoch_spec FO V K kf wf mt CO VO HT N d v shuffle nt i s); auto; nia|].
    intros ev u (EE & GD & Gu & _).
    unfold update_metrics. rewrite (cint_ok (1 + p_counter p)) by lia. cbn [obind]. rewrite (cint_ok ((1 + p_counter p) * nt)) by nia. cbn [obind].
    apply hp_lift_ok. set (o := ((1 + p_counter p) * nt, (if val then snd ev else fst ev), u) : obs).
    cbn [callbacks_run p_trials p_val p_train newest]. 
    assert (HH' : restore = true -> forall w, best start delta past = Some w -> held (o_sys w) u) by (intros R w Hw; eapply held_guards; [exact GD|auto]).
    pose proof (early_run_spec (N + nt) past o u eq_refl Gu ltac:(unfold o, o_trial; cbn [fst]; nia) HH') as ER. cbv zeta in ER.
    set (q := {| p_counter := 1 + p_counter p; p_train := _; p_val := _; p_trials := _; p_files := _ |}) in *.
    eapply hp_bind with (P := fun (x : list callback * py * bool) s2 => exists s1,
      (if restore && improves start delta (best start delta past) o then store_pset V K u = Ok (tt, s1) else s1 = u) /\ Good (N + nt) s1 /\ Good (N + nt) s2 /\
      (restore = true -> forall w, best start delta (past ++ [o]) = Some w -> held (o_sys w) s1) /\ (best start delta (past ++ [o]) = None -> s1 = u) /\
      (if (start <=? o_trial o) && (best_trial (best start delta (past ++ [o])) <? o_trial o - patience)
       then x = ([Early (cur (past ++ [o]) (negb restore && (restore && some (best start delta past))))], q, true) /\ (if restore then retrieve_pset s1 = Ok (tt, s2) else s2 = s1)
       else x = ([Early (cur (past ++ [o]) (restore && some (best start delta (past ++ [o]))))], q, false) /\ s2 = s1)).
    { unfold cur at 1. cbn [es_val]. apply hp_lift_ok.
      replace (newest (if val then snd ev :: p_val p else fst ev :: p_train p)) with (Ok (o_error o)) by (unfold o, o_error; cbn [fst snd]; destruct val; reflexivity).
      match type of ER with hpost _ _ ?Q => eapply hp_bind with (P := fun x s2 => exists c1 stop, x = (Early c1, q, stop) /\ Q (c1, stop) s2) end.
      - unfold mbind at 1. cbn [mlift]. eapply hp_bind; [exact ER|]. intros (c1, stop) s2 HQ. apply hp_ret.
        exists c1, stop. split; [reflexivity|exact HQ].
      - intros ((cb, p1), stop) s2 (c1 & st1 & [= -> -> ->] & s1 & A1 & A2 & A3 & A4 & A5 & A6). unfold mbind, mret. cbn [hpost]. rewrite orb_false_r.
        exists s1. repeat (split; [assumption|]). destruct ((start <=? o_trial o) && _); destruct A6 as ([= -> ->] & A6); auto. }
    intros ((c1, q1), stop) s2 (s1 & A1 & A2 & A3 & A4 & A5 & A6).
    assert (W1 : forall h s3, watched start delta val restore d v shuffle nt (i + 1) (p_counter p + 1) (past ++ [o]) h s1 s3 ->
      watched start delta val restore d v shuffle nt i (p_counter p) past (o :: h) s s3).
    { intros h s3 W. cbn [watched]. exists ev, s1. split; [exact EE|]. split; [unfold o, o_trial; cbn [fst]; lia|]. split; [reflexivity|]. split; [exact A1|exact W]. }
    assert (BN : forall h, best start delta ((past ++ [o]) ++ h) = None -> s1 = u).
    { intros h Hn. apply A5. destruct (best start delta (past ++ [o])) as [w|] eqn:Eb; [|reflexivity]. exfalso. revert Hn. unfold best in *. rewrite fold_left_app, Eb. clear.
      revert w. induction h as [|x h IH]; intros w; cbn [fold_left]; [discriminate|]. unfold better at 2. destruct (improves start delta (Some w) x); apply IH. }
    destruct ((start <=? o_trial o) && _) eqn:ST; destruct A6 as ([= -> -> ->] & A6).
    + apply hp_ret. exists [o], s1, (N + nt). split; [cbn; lia|]. split; [discriminate|]. split; [exact A2|]. split; [exact A3|]. split; [apply W1; reflexivity|].
      split; [|split; [exact A4|split; [intros Hn; rewrite (BN [] ltac:(rewrite app_nil_r; exact Hn)); exact GD|]]].
      * intros h1 h2 E NE1 NE2. destruct h1 as [|x [|y h1]]; [congruence| |discriminate E]. cbn in E. injection E as _ E. congruence.
      * left. split; [discriminate|]. split; [apply GU, ST|]. split; [|exact A6]. cbn [fst]. f_equal. f_equal. f_equal. destruct restore; reflexivity.
    + subst s2. assert (PC : p_counter q = 1 + p_counter p) by reflexivity.
      eapply hp_mono; [apply (IH (N + nt) (i + 1) q s1 (past ++ [o])); rewrite ?PC; auto; nia|].
      intros r s2 (h & s3 & N' & B1 & B2 & B3 & B4 & B5 & B6 & B7 & B8 & B9). rewrite PC in B5. replace (1 + p_counter p) with (p_counter p + 1) in B5 by lia.
      assert (EA : past ++ o :: h = (past ++ [o]) ++ h) by (rewrite <- app_assoc; reflexivity).
      exists (o :: h), s3, N'. rewrite EA. split; [cbn [length]; lia|]. split; [discriminate|]. split; [exact B3|]. split; [exact B4|]. split; [apply W1, B5|]. split; [|split; [exact B7|split]].
      * intros [|x h1] h2 E NE1 NE2; [congruence|]. cbn [app] in E. injection E as <- E. destruct h1 as [|y h1].
        { intros HG. apply GU in HG. congruence. }
        replace (past ++ o :: y :: h1) with ((past ++ [o]) ++ y :: h1) by (rewrite <- app_assoc; reflexivity). apply (B6 (y :: h1) h2); auto; discriminate.
      * intros Hn. rewrite <- (BN h Hn) in GD. eapply guards_trans; [exact GD|apply B8, Hn].
      * destruct B9 as [(C1 & C2 & C3 & C4)|(C1 & C2 & C3 & C4)]; [left|right].
        { split; [discriminate|]. auto. }
        { split; [|cbn [length]; auto]. intros _. destruct h as [|y h]; [rewrite app_nil_r; intros HG; apply GU in HG; congruence|]. apply C1. discriminate. }
Qed.
End Loop.
End Run.

(** ** The whole of fit with one fresh early-stopping callback. *)
Lemma C57_lemma N mx pf d v shuffle warm p s val restore patience start delta c : 
  early_new val patience restore delta start = Return c -> patience <= int_max ->
  1 <= mx <= int_max -> 1 <= pf <= int_max -> 0 <= N -> N + total_trials mx pf <= 2 ^ 53 -> Good N s ->
  data_ok (dom := dom) K d -> (forall t, v = Some t -> data_ok (dom := dom) K t) ->
  0 <= p_counter p -> (p_counter p + total_epochs mx pf) * Z.min mx pf <= int_max -> p_counter p + total_epochs mx pf <= int_max ->
  hpost FO (py_fit V K mx pf d v shuffle warm [Early c] p s) (fun _ s' => exists s0 h s1,
    (if warm then s0 = s else s_prev_pset s0 = empty_set /\ s_time s0 = 0) /\
    watched start delta val restore d v shuffle (Z.min mx pf) 0 (p_counter p) [] h s0 s1 /\
    (forall h1 h2, h = h1 ++ h2 -> h1 <> [] -> h2 <> [] -> ~ gives_up start patience delta h1) /\
    h <> [] /\ (gives_up start patience delta h \/ Z.of_nat (length h) = total_epochs mx pf) /\
    (restore = false -> s' = s1) /\
    (restore = true -> match best start delta h with
       | Some w => set_list (s_pset (o_sys w)) <> [] -> copy_of (o_sys w) s'
       | None => set_list (s_prev_pset s0) = [] -> s' = s1
       end)).
Proof.
  intros CN HPm H1 H2 N0 LE G DD DV C0 O2 O3. unfold early_new in CN. destruct (Z.ltb_spec patience 0) as [|P0]; [discriminate CN|]. destruct (flt delta f0); [discriminate CN|].
  injection CN as <-. pose proof (epochs_bounds mx pf ltac:(lia) ltac:(lia)) as EB. assert (E1 : 1 <= total_epochs mx pf) by nia. unfold total_trials in LE.
  unfold py_fit. eapply hp_bind with (P := fun _ s0 => (if warm then s0 = s else s_prev_pset s0 = empty_set /\ s_time s0 = 0) /\ Good N s0).
  { destruct warm; [apply hp_ret; auto|]. destruct (free_spec K kf wf N s G) as (sf & EF & HE & _). unfold mbind. rewrite EF.
    eapply hp_mono; [apply (init_spec FO V K kf wf mt CO VO sf HE)|]. intros [] s0 ((I1 & I2 & _) & G0). split; [auto|]. eapply Good_mono; [|exact G0]. lia. }
  intros [] s0 (S0 & G0). rewrite (n_epochs_eq mx pf H1 H2). apply hp_lift_ok.
  replace (mkEarly val patience restore delta start dbl_max 0 false) with (cur val restore patience start delta [] (restore && some (best start delta []))) by (unfold cur; cbn [best fold_left best_error best_trial some]; rewrite andb_false_r; reflexivity).
  eapply hp_bind; [apply (watch_loop val restore patience start delta ltac:(lia) d v shuffle (epoch_trials mx pf) ltac:(unfold epoch_trials; lia) DD DV (Z.to_nat (total_epochs mx pf)) N 0 p s0 []); unfold epoch_trials in *; rewrite ?Z2Nat.id by lia; auto; try nia|].
  { discriminate. }
  intros (cs & p') s2 (h & s1 & N' & A1 & A2 & A3 & A4 & A5 & A6 & A7 & A8 & A9). cbn [fst app] in *.
  assert (NH : h <> []) by (apply A2; lia).
  assert (CP : forall w, restore = true -> best start delta h = Some w -> set_list (s_pset (o_sys w)) <> [] -> exists s', retrieve_pset s1 = Ok (tt, s') /\ copy_of (o_sys w) s').
  { intros w R Ew Ne. destruct (retrieve_held N' (o_sys w) s1 A3 (A7 R w Ew) Ne) as (s' & E' & _ & Cp). exists s'. auto. }
  assert (NO : best start delta h = None -> set_list (s_prev_pset s0) = [] -> retrieve_pset s1 = Ok (tt, s1)).
  { intros En E0'. destruct (A8 En) as (Q & _). destruct (retrieve_spec K kf wf CO N' s1 A3) as (s' & E' & (RR & _) & _). rewrite Q in RR. rewrite (RR E0') in E'. exact E'. }
  destruct A9 as [(_ & U1 & -> & U2)|(U1 & U2 & -> & ->)]; cbn [callbacks_finish cur]; unfold early_finish, cur; cbn [es_restore es_do_restore].
  - rewrite andb_false_r. unfold mbind, mret. cbn [hpost]. exists s0, h, s1. split; [exact S0|]. split; [exact A5|]. split; [exact A6|]. split; [exact NH|]. split; [left; exact U1|].
    split; [intros ->; exact U2|]. intros ->. destruct (best start delta h) as [w|] eqn:Eb.
    + intros Ne. destruct (CP w eq_refl eq_refl Ne) as (s' & E' & Cp). rewrite E' in U2. injection U2 as <-. exact Cp.
    + intros E0'. rewrite (NO eq_refl E0') in U2. injection U2 as <-. reflexivity.
  - assert (TE : Z.of_nat (length h) = total_epochs mx pf) by lia.
    destruct restore; cbn [andb]; [|unfold mbind, mret; cbn [hpost]; exists s0, h, s1; repeat (split; [assumption|]); split; [right; exact TE|]; split; [reflexivity|discriminate]].
    destruct (best start delta h) as [w|] eqn:Eb; cbn [some].
    + destruct (retrieve_spec K kf wf CO N' s1 A3) as (s' & E' & _). unfold mbind, mret. rewrite E'. cbn [hpost]. exists s0, h, s1. repeat (split; [assumption|]). split; [right; exact TE|]. split; [discriminate|].
      intros _. rewrite Eb. intros Ne. destruct (CP w eq_refl eq_refl Ne) as (s3 & E3 & Cp). rewrite E' in E3. injection E3 as <-. exact Cp.
    + unfold mbind, mret. cbn [hpost]. exists s0, h, s1. repeat (split; [assumption|]). split; [right; exact TE|]. split; [discriminate|]. intros _. rewrite Eb. reflexivity.
Qed.
End Watch.
