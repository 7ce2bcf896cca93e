(** * The clock counts training trials exactly. *)
From Coq Require Import ZArith Bool List Lia.
From Verif Require Import Outcome F64 Rng Pop Clock Py.
Import ListNotations.
Open Scope Z_scope.

Section Tick.
Context {B : Type} (V : vtab B) (K : cfg).

(** Clock and explore flag stay as they are. *)
Definition quiet {A} (m : M B A) : Prop := forall s a s', m s = Ok (a, s') -> s_time s' = s_time s /\ s_explore s' = s_explore s.
Lemma q_bind {A C} (m : M B A) (k : A -> M B C) : quiet m -> (forall a, quiet (k a)) -> quiet (mbind m k).
Proof.
  intros H1 H2 s a s' E. unfold mbind in E. destruct (m s) as [[x s1]| | |] eqn:E1; try discriminate E.
  destruct (H1 _ _ _ E1). destruct (H2 _ _ _ _ E). split; congruence.
Qed.
Lemma q_ret {A} (a : A) : quiet (mret a).
Proof. intros s x s' E. injection E as <- <-. auto. Qed.
Lemma q_get {A} (f : st B -> A) : quiet (mget f).
Proof. intros s x s' E. injection E as <- <-. auto. Qed.
Lemma q_mod (f : st B -> st B) : (forall s, s_time (f s) = s_time s /\ s_explore (f s) = s_explore s) -> quiet (mmod f).
Proof. intros H s x s' E. injection E as <- <-. apply H. Qed.
Lemma q_rand {A} (r : RM A) : quiet (mrand r).
Proof. intros s x s' E. unfold mrand in E. destruct (r (s_rng s)) as [[a g]| | |]; try discriminate E. injection E as <- <-. auto. Qed.
Lemma q_lift {A} (o : outcome A) : quiet (mlift o).
Proof. intros s x s' E. unfold mlift in E. destruct o; try discriminate E. injection E as <- <-. auto. Qed.
Lemma q_exit {A} : quiet (mexit (A := A)).
Proof. intros s x s' E. discriminate E. Qed.
Lemma q_ub {A} k : quiet (mub (A := A) k).
Proof. intros s x s' E. discriminate E. Qed.
Lemma q_fuel {A} : quiet (mfuel (A := A)).
Proof. intros s x s' E. discriminate E. Qed.
Lemma q_iter {A} (f : A -> M B unit) l : (forall a, quiet (f a)) -> quiet (Pop.miter f l).
Proof. intros H. induction l as [|x l IH]; cbn [Pop.miter]; [apply q_ret|]. apply q_bind; [apply H|intros _; exact IH]. Qed.
Lemma q_heap l : quiet (get (B := B) l).
Proof. intros s x s' E. unfold get in E. destruct (s_heap s l); try discriminate E. injection E as <- <-. auto. Qed.
Lemma q_put l c : quiet (put (B := B) l c).
Proof. intros s x s' E. unfold put in E. destruct (s_heap s l); try discriminate E. injection E as <- <-. auto. Qed.
Lemma q_alloc c : quiet (alloc (B := B) c).
Proof. intros s x s' E. unfold alloc in E. injection E as <- <-. auto. Qed.
Lemma q_free l : quiet (cl_free (B := B) l).
Proof. intros s x s' E. unfold cl_free in E. destruct (s_heap s l); try discriminate E. injection E as <- <-. auto. Qed.
Lemma q_set w x : quiet (mmod (with_set (B := B) w x)).
Proof. apply q_mod. intros s. destruct w; auto. Qed.
Lemma q_modify l f : quiet (modify (B := B) l f).
Proof. apply q_bind; [apply q_heap|intros; apply q_put]. Qed.
Lemma q_modify_rand l f : quiet (modify_rand (B := B) l f).
Proof. unfold modify_rand. apply q_bind; [apply q_heap|intros]. apply q_bind; [apply q_rand|intros; apply q_put]. Qed.
Lemma q_get_all ls : quiet (get_all (B := B) ls).
Proof. induction ls as [|l ls IH]; cbn [get_all]; [apply q_ret|]. apply q_bind; [apply q_heap|intros]. apply q_bind; [exact IH|intros; apply q_ret]. Qed.

Ltac qt := repeat first
  [ assumption
  | match goal with
    | |- quiet (mret _) => apply q_ret
    | |- quiet (mget _) => apply q_get
    | |- quiet (mrand _) => apply q_rand
    | |- quiet (mlift _) => apply q_lift
    | |- quiet mexit => apply q_exit
    | |- quiet (mub _) => apply q_ub
    | |- quiet mfuel => apply q_fuel
    | |- quiet (get _) => apply q_heap
    | |- quiet (put _ _) => apply q_put
    | |- quiet (alloc _) => apply q_alloc
    | |- quiet (cl_free _) => apply q_free
    | |- quiet (mmod (with_set _ _)) => apply q_set
    | |- quiet (modify _ _) => apply q_modify
    | |- quiet (modify_rand _ _) => apply q_modify_rand
    | |- quiet (get_all _) => apply q_get_all
    | |- quiet (mbind _ _) => apply q_bind; [|intros ?]
    | |- quiet (Pop.miter _ _) => apply q_iter; intros ?
    | |- quiet (mmod _) => apply q_mod; intros; split; reflexivity
    | |- quiet (if ?b then _ else _) => destruct b
    | |- quiet (match ?x with _ => _ end) => destruct x
    | |- quiet (let '(_, _) := ?x in _) => destruct x
    end ].

Lemma q_add w l : quiet (clset_add (B := B) w l).
Proof. unfold clset_add. qt. Qed.
Lemma q_del : quiet (clset_pset_del V K).
Proof. unfold clset_pset_del. qt; try apply q_add. Qed.
Lemma q_enforce_loop fuel : quiet (enforce_loop V K fuel).
Proof. induction fuel as [|f IH]; cbn [enforce_loop]; qt; try apply q_del. Qed.
Lemma q_enforce : quiet (clset_pset_enforce_limit V K).
Proof. unfold clset_pset_enforce_limit. qt; try apply q_enforce_loop. Qed.
Lemma q_keep ls : quiet (keep_alive (B := B) ls).
Proof. induction ls as [|l ls IH]; cbn [keep_alive]; qt. Qed.
Lemma q_validate w : quiet (clset_validate (B := B) w).
Proof. unfold clset_validate. qt; try apply q_keep. Qed.
Lemma q_coverage : quiet (action_coverage (B := B) K).
Proof. unfold action_coverage. qt. Qed.
Lemma q_cover_actions x cov : forall i, quiet (cover_actions V K x cov i).
Proof. induction cov as [|b r IH]; intros i; cbn [cover_actions]; qt; try apply q_add. apply IH. Qed.
Lemma q_cover_loop x fuel : forall att cov covered, quiet (cover_loop V K fuel x att cov covered).
Proof.
  induction fuel as [|f IH]; intros att cov covered; cbn [cover_loop]; qt; try apply q_cover_actions; try apply q_enforce; try apply q_validate; try apply q_coverage; try apply IH.
Qed.
Lemma q_match x cover : quiet (clset_match V K x cover).
Proof. unfold clset_match, match_one, clset_cover. qt; try apply q_add; try apply q_coverage. apply q_cover_loop. Qed.
Lemma q_update_fits lcs sum : quiet (update_fits (B := B) K lcs sum).
Proof. induction lcs as [|[l c] r IH]; cbn [update_fits]; qt. Qed.
Lemma q_subsume_all l ls : quiet (subsume_all V l ls).
Proof. induction ls as [|a r IH]; cbn [subsume_all]; qt; try apply q_add. Qed.
Lemma q_update w x y cur : quiet (clset_update V K w x y cur).
Proof. unfold clset_update, clset_update_fit, clset_subsumption. qt; try apply q_update_fits; try apply q_subsume_all; try apply q_validate. Qed.
Lemma q_kill w : quiet (clset_kill (B := B) w).
Proof. unfold clset_kill. qt. Qed.
Lemma q_absorb p c : quiet (absorb (B := B) p c).
Proof. unfold absorb. qt. Qed.
Lemma q_ea_add w p1 p2 c b b' : quiet (ea_add V K w p1 p2 c b b').
Proof. unfold ea_add, ea_subsume. qt; try apply q_absorb; try apply q_add. Qed.
Lemma q_ea_loop n w p1 p2 : quiet (ea_loop V K n w p1 p2).
Proof. induction n as [|n IH]; cbn [ea_loop]; [apply q_ret|]. apply q_bind; [|intros; exact IH]. unfold ea_offspring. qt; try apply q_ea_add. Qed.
Lemma q_pa x : quiet (pa_build V K x).
Proof. unfold pa_build. qt. Qed.
Lemma q_store : quiet (store_pset V K).
Proof. unfold store_pset. qt; try apply q_kill. apply q_add. Qed.
Lemma q_retrieve : quiet (retrieve_pset (B := B)).
Proof. unfold retrieve_pset, clset_init. qt; try apply q_kill. Qed.

Lemma mbind_ok {A C} (m : M B A) (k : A -> M B C) s b s' : mbind m k s = Ok (b, s') -> exists a s1, m s = Ok (a, s1) /\ k a s1 = Ok (b, s').
Proof. unfold mbind. destruct (m s) as [[x s1]| | |]; try discriminate. eauto. Qed.
(** One run of the EA (whether it does anything or not) is one tick. *)
Lemma ea_tick w s a s' : ea V K w s = Ok (a, s') -> s_time s' = s_time s + 1 /\ s_explore s' = s_explore s.
Proof.
  intros E. unfold ea in E. apply mbind_ok in E. destruct E as ([] & s1 & E1 & E). injection E1 as <-.
  assert (Q : quiet (set <~ mget (get_set w);; t <~ mget s_time;; (if set_sz set =? 0 then mret tt else cs <~ get_all (set_list set);;
     (if flt (fsub (of_Z t) (mean_time cs (set_nm set))) (ea_theta K) then mret tt else clset_set_times w;;; cs' <~ get_all (set_list set);;
     ps <~ mrand (ea_select K (set_list set) cs');; (let '(c1p, c2p) := ps in ea_loop V K (ea_iterations K) w c1p c2p;;; clset_pset_enforce_limit V K))))%m).
  { unfold clset_set_times. qt; try apply q_ea_loop. apply q_enforce. }
  destruct (Q _ _ _ E) as (-> & ->). auto.
Qed.
(** A trial is one tick if it learns, none otherwise. *)
Definition ticks_of (b : bool) : Z := if b then 1 else 0.
Lemma trial_tick x y cover s a s' : supervised_trial V K x y cover s = Ok (a, s') -> s_time s' = s_time s + ticks_of (s_explore s) /\ s_explore s' = s_explore s.
Proof.
  intros E. unfold supervised_trial in E. apply mbind_ok in E. destruct E as ([] & s1 & E1 & E). apply mbind_ok in E. destruct E as ([] & s2 & E2 & E).
  apply mbind_ok in E. destruct E as ([] & s3 & E3 & E). apply mbind_ok in E. destruct E as (ex & s4 & E4 & E).
  apply mbind_ok in E. destruct E as ([] & s5 & E5 & E). injection E4 as <- <-.
  destruct (q_set MSET empty_set _ _ _ E1) as (T1 & X1). destruct (q_set KSET empty_set _ _ _ E2) as (T2 & X2).
  assert (Q3 : s_time s3 = s_time s2 /\ s_explore s3 = s_explore s2).
  { destruct cover as [cv|]; cbn beta iota in E3.
    - refine ((_ : quiet _) _ _ _ E3). qt; try apply q_match; try apply q_pa.
    - refine ((_ : quiet _) _ _ _ E3). qt; try apply q_match; try apply q_pa. }
  destruct Q3 as (T3 & X3).
  assert (Q6 : s_time s' = s_time s5 /\ s_explore s' = s_explore s5).
  { refine ((_ : quiet _) _ _ _ E). unfold clset_free. qt; try apply q_kill. }
  destruct Q6 as (T6 & X6).
  assert (XX : s_explore s3 = s_explore s) by congruence. rewrite XX in E5. destruct (s_explore s) eqn:EX; cbn [ticks_of].
  - apply mbind_ok in E5. destruct E5 as ([] & s6 & E5 & E7). destruct (q_update _ _ _ _ _ _ _ E5) as (T5 & X5). destruct (ea_tick _ _ _ _ E7) as (T7 & X7).
    split; [lia|congruence].
  - injection E5 as <-. split; [lia|congruence].
Qed.
Lemma error_tick e s a s' : update_error (B := B) K e s = Ok (a, s') -> s_time s' = s_time s /\ s_explore s' = s_explore s.
Proof. intros E. injection E as <- <-. auto. Qed.
Lemma fit_step_tick d sh cnt s e s' : supervised_fit_step V K d sh cnt s = Ok (e, s') -> s_time s' = s_time s + 1.
Proof.
  intros E. unfold supervised_fit_step in E. apply mbind_ok in E. destruct E as (i & s1 & E1 & E). apply mbind_ok in E. destruct E as (x & s2 & E2 & E).
  apply mbind_ok in E. destruct E as (y & s3 & E3 & E). apply mbind_ok in E. destruct E as ([] & s4 & E4 & E). apply mbind_ok in E. destruct E as ([] & s5 & E5 & E).
  destruct (q_rand _ _ _ _ E1). destruct (q_lift _ _ _ _ E2). destruct (q_lift _ _ _ _ E3). injection E4 as <-.
  destruct (trial_tick _ _ _ _ _ _ E5) as (T5 & _). cbn [s_explore with_explore s_time ticks_of] in T5.
  apply mbind_ok in E. destruct E as (pa & s6 & E6 & E). injection E6 as <- <-. apply mbind_ok in E. destruct E as ([] & s7 & E7 & E). injection E as _ <-.
  destruct (error_tick _ _ _ _ E7). lia.
Qed.
Lemma fit_loop_tick d sh n : forall cnt err s e s', supervised_fit_loop V K n d None sh cnt err s = Ok (e, s') -> s_time s' = s_time s + Z.of_nat n.
Proof.
  induction n as [|n IH]; intros cnt err s e s' E; cbn [supervised_fit_loop] in E.
  - injection E as _ <-. lia.
  - apply mbind_ok in E. destruct E as (e1 & s1 & E1 & E). apply fit_step_tick in E1. apply mbind_ok in E. destruct E as ([] & s2 & E2 & E).
    injection E2 as <-. apply IH in E. lia.
Qed.
(** Fitting is one tick per trial. *)
Lemma fit_tick d sh start n s e s' : 0 <= n -> supervised_fit V K d None sh start n s = Ok (e, s') -> s_time s' = s_time s + n.
Proof.
  intros Hn E. unfold supervised_fit in E. apply mbind_ok in E. destruct E as (err & s1 & E1 & E). injection E as _ <-. apply fit_loop_tick in E1. lia.
Qed.
Lemma score_rows_tick cover rows : forall err s e s', s_explore s = false -> score_rows V K rows cover err s = Ok (e, s') -> s_time s' = s_time s /\ s_explore s' = false.
Proof.
  induction rows as [|[x y] r IH]; intros err s e s' X E; cbn [score_rows] in E; [injection E as _ <-; auto|].
  apply mbind_ok in E. destruct E as ([] & s1 & E1 & E). destruct (trial_tick _ _ _ _ _ _ E1) as (T1 & X1). rewrite X in *. cbn [ticks_of] in T1.
  apply mbind_ok in E. destruct E as (pa & s2 & E2 & E). injection E2 as <- <-. destruct (IH _ _ _ _ X1 E). split; [lia|assumption].
Qed.
Lemma score_tick d cover s e s' : supervised_score V K d cover s = Ok (e, s') -> s_time s' = s_time s.
Proof.
  intros E. unfold supervised_score in E. apply mbind_ok in E. destruct E as ([] & s1 & E1 & E). injection E1 as <-.
  apply mbind_ok in E. destruct E as (err & s2 & E2 & E). injection E as _ <-. apply (score_rows_tick cover) in E2; [|reflexivity]. destruct E2 as (-> & _). reflexivity.
Qed.
Lemma epoch_tick d val sh n i s ev s' : 0 <= n -> epoch V K d val sh n i s = Ok (ev, s') -> s_time s' = s_time s + n.
Proof.
  intros Hn E. unfold epoch in E. apply mbind_ok in E. destruct E as (st0 & s1 & E1 & E). destruct (q_lift _ _ _ _ E1). apply mbind_ok in E. destruct E as (e & s2 & E2 & E).
  apply (fit_tick _ _ _ _ _ _ _ Hn) in E2. apply mbind_ok in E. destruct E as (v & s3 & E3 & E). injection E as _ <-.
  destruct val as [t|]; [apply score_tick in E3|injection E3 as _ <-]; lia.
Qed.

(** Callbacks do not run trials. *)
Lemma q_early c e t : quiet (early_run V K c e t).
Proof. unfold early_run. qt; try apply q_store; try apply q_retrieve. Qed.
Lemma q_check c e t p : quiet (check_run (B := B) c e t p).
Proof. unfold check_run, save. qt. Qed.
Lemma q_callbacks calls : forall p, quiet (callbacks_run V K calls p).
Proof.
  induction calls as [|cb r IH]; intros p; cbn [callbacks_run]; [apply q_ret|]. qt; try apply q_early; try apply q_check; try apply IH.
Qed.
Lemma q_finish calls : forall p, quiet (callbacks_finish (B := B) calls p).
Proof.
  induction calls as [|cb r IH]; intros p; cbn [callbacks_finish]; [apply q_ret|]. unfold early_finish, check_finish, save. qt; try apply q_retrieve; try apply IH.
Qed.

(** [m] epochs were run: [m] of them entered the metrics, each took [n_trials] ticks; without
    callbacks all of them were run. *)
Lemma fit_loop_epochs d val sh nt n : 0 <= nt -> forall i calls p s calls' p' s',
  fit_loop V K n i nt d val sh calls p s = Ok ((calls', p'), s') ->
  exists m, (m <= n)%nat /\ s_time s' = s_time s + Z.of_nat m * nt /\ p_counter p' = p_counter p + Z.of_nat m /\ (n <> 0 -> m <> 0)%nat /\ (calls = [] -> m = n /\ calls' = []).
Proof.
  intros Hnt. induction n as [|n IH]; intros i calls p s calls' p' s' E; cbn [fit_loop] in E.
  - injection E as <- <- <-. exists 0%nat. repeat split; lia || auto.
  - apply mbind_ok in E. destruct E as (ev & s1 & E1 & E). apply (epoch_tick _ _ _ _ _ _ _ _ Hnt) in E1.
    apply mbind_ok in E. destruct E as (p1 & s2 & E2 & E). destruct (q_lift _ _ _ _ E2) as (T2 & _).
    assert (C1 : p_counter p1 = p_counter p + 1).
    { unfold mlift, update_metrics, cint in E2. remember (1 + p_counter p) as c1 eqn:Ec. destruct (_ && _) in E2; [|discriminate E2]. cbn [obind] in E2. destruct (_ && _) in E2; [|discriminate E2].
      cbn [obind] in E2. injection E2 as <- <-. cbn [p_counter]. lia. }
    apply mbind_ok in E. destruct E as ([[calls1 p2] stop] & s3 & E3 & E). destruct (q_callbacks _ _ _ _ _ E3) as (T3 & _).
    assert (C2 : p_counter p2 = p_counter p1 /\ (calls = [] -> calls1 = [] /\ stop = false)).
    { clear -E3. revert calls1 p1 p2 stop s2 s3 E3. induction calls as [|cb r IHc]; intros calls1 p1 p2 stop s2 s3 E3; cbn [callbacks_run] in E3.
      - injection E3 as <- <- <- _. auto.
      - split; [|discriminate]. apply mbind_ok in E3. destruct E3 as (tr & sa & _ & E3). apply mbind_ok in E3. destruct E3 as ([[cb1 p3] stop1] & sb & E4 & E3).
        apply mbind_ok in E3. destruct E3 as ([[r1 p4] stop'] & sc & E5 & E3). injection E3 as _ <- _ _. apply IHc in E5. destruct E5 as (-> & _).
        destruct cb as [c|c].
        + apply mbind_ok in E4. destruct E4 as (e & sd & _ & E4). apply mbind_ok in E4. destruct E4 as ([c1 st1] & se & _ & E4). injection E4 as _ <- _ _. reflexivity.
        + apply mbind_ok in E4. destruct E4 as (e & sd & _ & E4). apply mbind_ok in E4. destruct E4 as ([c1 q] & se & E6 & E4). injection E4 as _ <- _ _.
          unfold check_run in E6. apply mbind_ok in E6. destruct E6 as (due & sf & _ & E6). destruct (due <=? tr).
          * apply mbind_ok in E6. destruct E6 as ([c2 q2] & sg & E7 & E6). 
            assert (p_counter q2 = p_counter p1).
            { destruct (_ || _) in E7.
              - apply mbind_ok in E7. destruct E7 as (q3 & sh' & E8 & E7). injection E7 as _ <- _. apply mbind_ok in E8. destruct E8 as (z & sk & _ & E8). injection E8 as <- _. reflexivity.
              - injection E7 as _ <- _. reflexivity. }
            destruct (flt _ _) in E6; injection E6 as _ <- _; assumption.
          * injection E6 as _ <- _. reflexivity. }
    destruct C2 as (C2 & NC). destruct stop.
    + injection E as <- <- <-. exists 1%nat. split; [lia|]. split; [lia|]. split; [lia|]. split; [lia|]. intros H. destruct (NC H) as (_ & X). discriminate.
    + apply IH in E. destruct E as (m & L & T & C & _ & D). exists (S m). split; [lia|]. split; [lia|]. split; [lia|]. split; [lia|].
      intros H. destruct (NC H) as (H1 & _). destruct (D H1). split; [lia|assumption].
Qed.

Lemma init_time s a s' : xcsf_init V K s = Ok (a, s') -> s_time s' = 0.
Proof.
  intros E. unfold xcsf_init in E. apply mbind_ok in E. destruct E as ([] & s1 & E1 & E). injection E1 as <-.
  assert (Q : forall n, quiet (pset_init_loop V K n)) by (induction n as [|n IH]; cbn [pset_init_loop]; qt; try apply q_add).
  refine (_ (((_ : quiet _) _ _ _ E))); [|unfold clset_init, clset_pset_init; qt; apply Q].
  intros (-> & _). reflexivity.
Qed.
End Tick.
