(** * Time stamps and matching counters of all rules, through every operation. *)
From Coq Require Import ZArith Bool List Lia.
From Verif Require Import Outcome F64 Rng Pop PopSeq.
Import ListNotations.
Open Scope Z_scope.

Section Clock.
Context {B : Type} (V : vtab B) (K : cfg) (T : Z).

(** A rule whose stamp is not later than the clock [t] (or than [T], the latest stamp of a rule
    inserted from outside) and which has not matched more often than it was tested. *)
Definition J (t : Z) (c : cl B) : Prop := 0 <= c_time c <= Z.max t T /\ 0 <= c_mtotal c <= c_age c.
Definition stamped (s : st B) : Prop := 0 <= s_time s /\ forall l c, s_heap s l = Some c -> J (s_time s) c.
(** From any stamped state with clock at least [t] and explore flag [e], the flag becomes [e'], the clock advances by at most [n] and the result
    satisfies [Q] at the final clock. *)
Definition pres {A} (e e' : bool) (t n : Z) (m : M B A) (Q : Z -> A -> Prop) : Prop := forall s a s', t <= s_time s -> stamped s -> s_explore s = e ->
  m s = Ok (a, s') -> stamped s' /\ s_explore s' = e' /\ s_time s <= s_time s' <= s_time s + n /\ Q (s_time s') a.
Definition any {A} : Z -> A -> Prop := fun _ _ => True.

Lemma J_mono t t' c : t <= t' -> J t c -> J t' c.
Proof. unfold J. lia. Qed.
Lemma p_bind {A C} e1 e2 e3 t n n' (m : M B A) (k : A -> M B C) (Q Q' : Z -> _ -> Prop) : pres e1 e2 t n m Q ->
  (forall t' a, t <= t' -> Q t' a -> pres e2 e3 t' n' (k a) Q') -> pres e1 e3 t (n + n') (mbind m k) Q'.
Proof.
  intros H1 H2 s a s' Ht S X E. unfold mbind in E. destruct (m s) as [[x s1]| | |] eqn:E1; try discriminate E.
  destruct (H1 s x s1 Ht S X E1) as (S1 & X1 & T1 & Q1). destruct (H2 (s_time s1) x ltac:(lia) Q1 s1 a s' ltac:(lia) S1 X1 E) as (S2 & X2 & T2 & Q2).
  split; [exact S2|]. split; [exact X2|]. split; [lia|exact Q2].
Qed.
(** The first part leaves the clock alone. *)
Lemma p_bind0 {A C} e1 e2 e3 t n (m : M B A) (k : A -> M B C) (Q Q' : Z -> _ -> Prop) : pres e1 e2 t 0 m Q ->
  (forall t' a, t <= t' -> Q t' a -> pres e2 e3 t' n (k a) Q') -> pres e1 e3 t n (mbind m k) Q'.
Proof. intros. replace n with (0 + n) by lia. eapply p_bind; eassumption. Qed.
Lemma p_weak {A} e e' t n n' (m : M B A) (Q Q' : Z -> A -> Prop) : pres e e' t n m Q -> n <= n' -> (forall t' a, t <= t' -> Q t' a -> Q' t' a) -> pres e e' t n' m Q'.
Proof. intros H L HQ s a s' Ht S X E. destruct (H s a s' Ht S X E) as (S1 & X1 & T1 & Q1). split; [exact S1|]. split; [exact X1|]. split; [lia|apply HQ; [lia|exact Q1]]. Qed.
Ltac fin := split; [|split; [assumption|split; [cbn; lia|try exact I]]].
Lemma p_ret {A} e t (a : A) (Q : Z -> A -> Prop) : (forall t', t <= t' -> Q t' a) -> pres e e t 0 (mret a) Q.
Proof. intros H s x s' Ht S X E. injection E as <- <-. fin; [exact S|apply H, Ht]. Qed.
Lemma p_unit {A} e t (a : A) : pres e e t 0 (mret a) any.
Proof. apply p_ret. intros. exact I. Qed.
Lemma p_get {A} e t (f : st B -> A) : pres e e t 0 (mget f) any.
Proof. intros s x s' Ht S X E. injection E as <- <-. fin. exact S. Qed.
Lemma p_flag e t : pres e e t 0 (mget s_explore) (fun _ b => b = e).
Proof. intros s x s' Ht S X E. injection E as <- <-. fin; [exact S|exact X]. Qed.
Lemma p_time e t : pres e e t 0 (mget s_time) (fun t' a => 0 <= a <= t').
Proof. intros s x s' Ht S X E. injection E as <- <-. fin; [exact S|]. destruct S. lia. Qed.
Lemma p_mod e t (f : st B -> st B) : (forall s, s_heap (f s) = s_heap s /\ s_time (f s) = s_time s /\ s_explore (f s) = s_explore s) -> pres e e t 0 (mmod f) any.
Proof.
  intros H s x s' Ht (S0 & S) X E. injection E as _ <-. destruct (H s) as (H1 & H2 & H3). split; [|split; [congruence|rewrite H2; split; [lia|exact I]]].
  unfold stamped. rewrite H1, H2. auto.
Qed.
Lemma p_explore e b t : pres e b t 0 (set_explore (B := B) b) any.
Proof. intros s x s' Ht (S0 & S) X E. injection E as _ <-. split; [split; assumption|]. split; [reflexivity|]. split; [cbn; lia|exact I]. Qed.
Lemma p_rand {A} e t (r : RM A) (P : A -> Prop) : (forall g a g', r g = Ok (a, g') -> P a) -> pres e e t 0 (mrand r) (fun _ a => P a).
Proof.
  intros H s x s' Ht S X E. unfold mrand in E. destruct (r (s_rng s)) as [[a g]| | |] eqn:Er; try discriminate E. injection E as <- <-.
  fin; [exact S|]. eapply H, Er.
Qed.
Lemma p_draw {A} e t (r : RM A) : pres e e t 0 (mrand r) any.
Proof. eapply p_weak; [apply (p_rand e t r (fun _ => True)); auto|lia|intros; exact I]. Qed.
Lemma p_lift {A} e t (o : outcome A) : pres e e t 0 (mlift o) any.
Proof. intros s x s' Ht S X E. unfold mlift in E. destruct o; try discriminate E. injection E as <- <-. fin. exact S. Qed.
Lemma p_exit {A} e e' t n (Q : Z -> A -> Prop) : pres e e' t n mexit Q.
Proof. intros s x s' Ht S X E. discriminate E. Qed.
Lemma p_ub {A} e e' t n k (Q : Z -> A -> Prop) : pres e e' t n (mub k) Q.
Proof. intros s x s' Ht S X E. discriminate E. Qed.
Lemma p_fuel {A} e e' t n (Q : Z -> A -> Prop) : pres e e' t n mfuel Q.
Proof. intros s x s' Ht S X E. discriminate E. Qed.
Lemma p_iter {A} e t (f : A -> M B unit) l : (forall a t', t <= t' -> pres e e t' 0 (f a) any) -> pres e e t 0 (Pop.miter f l) any.
Proof.
  revert t. induction l as [|x l IH]; intros t H; cbn [Pop.miter]; [apply p_unit|].
  eapply p_bind0; [apply H; lia|]. intros t' _ Ht _. apply IH. intros a t2 H2. apply H. lia.
Qed.

Lemma p_heap e t l : pres e e t 0 (get l) (fun t' c => J t' c).
Proof.
  intros s x s' Ht S X E. unfold get in E. destruct (s_heap s l) eqn:El; try discriminate E. injection E as <- <-.
  fin; [exact S|]. destruct S as (_ & S). eapply S, El.
Qed.
Lemma p_put e t l c : J t c -> pres e e t 0 (put l c) any.
Proof.
  intros Hc s x s' Ht (S0 & S) X E. unfold put in E. destruct (s_heap s l) eqn:El; try discriminate E. injection E as _ <-.
  fin. split; [exact S0|]. cbn. intros l' c' H. unfold upd in H.
  destruct (Nat.eqb l' l); [injection H as <-; eapply J_mono; [exact Ht|exact Hc]|eapply S, H].
Qed.
Lemma p_alloc e t c : J t c -> pres e e t 0 (alloc c) any.
Proof.
  intros Hc s x s' Ht (S0 & S) X E. unfold alloc in E. injection E as _ <-.
  fin. split; [exact S0|]. cbn. intros l' c' H. unfold upd in H.
  destruct (Nat.eqb l' (s_next s)); [injection H as <-; eapply J_mono; [exact Ht|exact Hc]|eapply S, H].
Qed.
Lemma p_free e t l : pres e e t 0 (cl_free (B := B) l) any.
Proof.
  intros s x s' Ht (S0 & S) X E. unfold cl_free in E. destruct (s_heap s l) eqn:El; try discriminate E. injection E as _ <-.
  fin. split; [exact S0|]. cbn. intros l' c' H. unfold upd in H.
  destruct (Nat.eqb l' l); [discriminate H|eapply S, H].
Qed.
Lemma p_modify e t l f : (forall t' c, t <= t' -> J t' c -> J t' (f c)) -> pres e e t 0 (modify l f) any.
Proof. intros H. eapply p_bind0; [apply p_heap|]. intros t' c Ht Hc. apply p_put, H; assumption. Qed.
(** A random transformer that keeps the stamp and the counters in order. *)
Definition tame (c c' : cl B) : Prop := c_time c' = c_time c /\ (0 <= c_mtotal c <= c_age c -> 0 <= c_mtotal c' <= c_age c').
Lemma tame_J t c c' : tame c c' -> J t c -> J t c'.
Proof. intros (E & H) (H1 & H2). unfold J. rewrite E. split; auto. Qed.
Definition tames (f : cl B -> RM (cl B)) : Prop := forall c g c' g', f c g = Ok (c', g') -> tame c c'.
Lemma p_modify_rand e t l f : tames f -> pres e e t 0 (modify_rand l f) any.
Proof.
  intros H. eapply p_bind0; [apply p_heap|]. intros t' c Ht Hc.
  eapply p_bind0; [apply (p_rand e t' (f c) (tame c)); intros g a g' E; eapply H, E|]. intros t2 c' Ht2 Hc'.
  apply p_put. eapply tame_J; [exact Hc'|]. eapply J_mono; eassumption.
Qed.
Lemma p_get_all e t ls : pres e e t 0 (get_all (B := B) ls) (fun t' cs => Forall (J t') cs).
Proof.
  revert e t. induction ls as [|l ls IH]; intros e t; cbn [get_all].
  - apply p_ret. intros. constructor.
  - eapply p_bind0; [apply p_heap|]. intros t1 c H1 Hc. eapply p_bind0; [apply IH|]. intros t2 cs H2 Hcs.
    apply p_ret. intros t3 H3. constructor; [eapply J_mono; [|exact Hc]; lia|]. eapply Forall_impl; [|exact Hcs]. intros a. apply J_mono; lia.
Qed.
Lemma p_add e t w l : pres e e t 0 (clset_add (B := B) w l) any.
Proof.
  eapply p_bind0; [apply p_heap|]. intros t1 c H1 Hc. eapply p_bind0; [apply p_get|]. intros t2 z H2 _. apply p_mod. intros s. destruct w; repeat split.
Qed.
Lemma p_set e t w x : pres e e t 0 (mmod (with_set (B := B) w x)) any.
Proof. apply p_mod. intros s. destruct w; repeat split. Qed.

(** ** Rules. *)
Ltac inv_rm := repeat match goal with
  | H : bind ?m ?k ?g = Ok _ |- _ => unfold bind in H at 1; let E := fresh "E" in destruct (m g) as [[? ?]| | |] eqn:E; try discriminate H
  | p : (_ * _)%type |- _ => destruct p
  end.
Lemma tame_predict x : tames (fun c => cl_predict V c x).
Proof. intros c g c' g' H. unfold cl_predict in H. inv_rm. injection H as <- <-. split; cbn; auto. Qed.
Lemma tame_match x : tames (fun c => cl_match V c x).
Proof. intros c g c' g' H. unfold cl_match in H. inv_rm. injection H as <- <-. split; cbn; [reflexivity|]. destruct b0; lia. Qed.
Lemma tame_action x : tames (fun c => cl_action V c x).
Proof. intros c g c' g' H. unfold cl_action in H. inv_rm. injection H as <- <-. split; cbn; auto. Qed.
Lemma tame_trans a b c : tame a b -> tame b c -> tame a c.
Proof. intros (H1 & H2) (H3 & H4). split; [congruence|auto]. Qed.
Lemma tame_update x y n cur : tames (fun c => cl_update V K c x y n cur).
Proof.
  intros c g c' g' H. unfold cl_update in H. unfold bind in H at 1.
  set (c0 := set_exp (c_exp c + 1) c) in *.
  destruct ((if cur then ret c0 else cl_predict V c0 x) g) as [[c1 g1]| | |] eqn:E1; try discriminate H.
  assert (T1 : tame c c1).
  { apply (tame_trans c c0); [split; cbn; auto|]. destruct cur; [injection E1 as <- <-; split; auto|]. exact (tame_predict x c0 g c1 g1 E1). }
  apply (tame_trans c c1 c' T1).
  set (c2 := cl_update_stats K c1 _ n) in H.
  assert (T2 : tame c1 c2). { unfold c2, cl_update_stats. destruct (flt _ _); split; cbn; auto. }
  apply (tame_trans c1 c2 c' T2). inv_rm. injection H as <- <-. split; cbn; auto.
Qed.
Lemma rand_res c g c' g' : cl_rand V c g = Ok (c', g') -> tame c c'.
Proof. intros H. unfold cl_rand in H. inv_rm. injection H as <- <-. split; cbn; auto. Qed.
Lemma copy_res d c g c' g' : cl_copy V K d c g = Ok (c', g') -> tame d c'.
Proof. intros H. unfold cl_copy in H. inv_rm. injection H as <- <-. split; cbn; auto. Qed.
Lemma cover_res c x a g c' g' : cl_cover V c x a g = Ok (c', g') -> tame c c'.
Proof.
  intros H. unfold cl_cover in H. unfold bind in H at 1. destruct (cl_rand V c g) as [[c1 g1]| | |] eqn:E1; try discriminate H.
  apply (tame_trans c c1); [eapply rand_res, E1|]. inv_rm. injection H as <- <-. split; cbn; auto.
Qed.
Lemma init_copy_res c g c' g' : cl_init_copy V K c g = Ok (c', g') -> tame c c'.
Proof. intros H. unfold cl_init_copy in H. inv_rm. injection H as <- <-. split; cbn; auto. Qed.
Lemma mutate_res c g c' b g' : cl_mutate V K c g = Ok ((c', b), g') -> tame c c'.
Proof. intros H. unfold cl_mutate in H. inv_rm. injection H as <- <- <-. split; cbn; auto. Qed.
Lemma crossover_res c1 c2 g c1' c2' b g' : cl_crossover V c1 c2 g = Ok ((c1', c2', b), g') -> tame c1 c1' /\ tame c2 c2'.
Proof. intros H. unfold cl_crossover in H. inv_rm. injection H as <- <- <- <-. split; split; cbn; auto. Qed.
Lemma init_J t size time : 0 <= time <= Z.max t T -> J t (cl_init V K size time).
Proof. intros H. split; cbn; lia. Qed.
Lemma tame_set_num n (c : cl B) t : J t c -> J t (set_num n c).
Proof. intros H. exact H. Qed.

(** ** Sets. *)
Ltac b0 := eapply p_bind0; [first [apply p_time | apply p_get | apply p_set | apply p_add | apply p_lift | apply p_draw | apply p_free | apply p_get_all | apply p_heap | apply p_unit]|intros ?t ?a ?Ht ?HQ].
Lemma p_delete e t : pres e e t 0 (clset_pset_del V K) any.
Proof.
  unfold clset_pset_del. b0. b0. b0. eapply p_bind0 with (Q := any).
  - destruct (never_match K a0 0); [apply p_unit|apply p_draw].
  - intros t3 oi H3 _. destruct oi as [i|]; [|apply p_ub]. destruct (nth_error (set_list a) i); [|apply p_ub].
    eapply p_bind0; [apply p_modify; intros; apply tame_set_num; assumption|intros t4 u H4 _]. b0. b0.
    destruct (c_num a3 =? 0); [|apply p_unit]. b0. apply p_set.
Qed.
Lemma p_enforce_loop fuel : forall e t, pres e e t 0 (enforce_loop V K fuel) any.
Proof.
  induction fuel as [|f IH]; intros e t; cbn [enforce_loop]; b0; destruct (POP_SIZE K <? set_nm a); try apply p_unit; try apply p_fuel.
  eapply p_bind0; [apply p_delete|]. intros. apply IH.
Qed.
Lemma p_enforce e t : pres e e t 0 (clset_pset_enforce_limit V K) any.
Proof. unfold clset_pset_enforce_limit. b0. apply p_enforce_loop. Qed.
Lemma p_keep e t ls : pres e e t 0 (keep_alive (B := B) ls) any.
Proof.
  revert e t. induction ls as [|l ls IH]; intros e t; cbn [keep_alive]; [apply p_unit|]. b0.
  eapply p_bind0; [apply IH|]. intros t2 ((ls' & sz) & nm) H2 _. destruct (c_num a =? 0); apply p_unit.
Qed.
Lemma p_validate e t w : pres e e t 0 (clset_validate (B := B) w) any.
Proof. unfold clset_validate. b0. eapply p_bind0; [apply p_keep|]. intros t2 ((ls' & sz) & nm) H2 _. apply p_set. Qed.
Lemma p_coverage e t : pres e e t 0 (action_coverage (B := B) K) any.
Proof. unfold action_coverage. b0. b0. b0. apply p_unit. Qed.
Lemma p_cover_actions x cov : forall e t i, pres e e t 0 (cover_actions V K x cov i) any.
Proof.
  induction cov as [|b r IH]; intros e t i; cbn [cover_actions]; [apply p_unit|]. eapply p_bind0 with (Q := any).
  - destruct b; [apply p_unit|]. b0. b0.
    eapply p_bind0; [apply (p_rand _ _ _ (tame (cl_init V K (of_Z (set_nm a + 1)) a0))); intros g c g' E; eapply cover_res, E|].
    intros t2 c H2 Hc. eapply p_bind0; [apply p_alloc; eapply tame_J; [exact Hc|]; apply init_J; cbn beta in HQ0; lia|].
    intros t3 l H3 _. b0. apply p_add.
  - intros. apply IH.
Qed.
Lemma p_cover_loop x fuel : forall e t att cov covered, pres e e t 0 (cover_loop V K fuel x att cov covered) any.
Proof.
  induction fuel as [|f IH]; intros e t att cov covered; cbn [cover_loop]; destruct covered; try apply p_unit; try apply p_fuel.
  eapply p_bind0; [apply p_cover_actions|intros ?t ?a ?Ht _]. b0. eapply p_bind0; [apply p_enforce|intros ?t ?a ?Ht _]. b0.
  eapply p_bind0 with (Q := any).
  - destruct (set_sz a2 <? set_sz a0); [|apply p_unit]. b0. eapply p_bind0; [apply p_validate|intros ?t ?a ?Ht _]. b0.
    destruct (set_sz _ <? set_sz _); [apply p_coverage|apply p_unit].
  - intros t5 (cov' & cv) H5 _. destruct (MAX_COVER <? att + 1); [apply p_exit|apply IH].
Qed.
Lemma p_cover e t x : pres e e t 0 (clset_cover V K x) any.
Proof. unfold clset_cover. eapply p_bind0; [apply p_coverage|]. intros t1 (cov & cv) _ _. apply p_cover_loop. Qed.
Lemma p_match e t x cover : pres e e t 0 (clset_match V K x cover) any.
Proof.
  unfold clset_match. b0. eapply p_bind0 with (Q := any).
  - apply p_iter. intros l t1 H1. unfold match_one. eapply p_bind0; [apply p_modify_rand, tame_match|intros ?t ?a ?Ht _]. b0.
    destruct (c_m a1); [|apply p_unit]. b0. apply p_modify_rand, tame_action.
  - intros t1 u H1 _. b0. eapply p_bind0 with (Q := any); [destruct (cover && _); [apply p_cover|apply p_unit]|intros ?t ?a ?Ht _].
    b0. b0. b0. apply p_mod. intros s. repeat split.
Qed.
Lemma p_action e t a : pres e e t 0 (clset_action (B := B) K a) any.
Proof.
  unfold clset_action. b0. eapply p_bind0 with (Q := any).
  - apply p_iter. intros l t1 H1. b0. destruct (c_action a1 =? a); [apply p_add|apply p_unit].
  - intros. apply p_mod. intros s. repeat split.
Qed.
Lemma p_update_fits lcs sum : forall e t, pres e e t 0 (update_fits (B := B) K lcs sum) any.
Proof.
  induction lcs as [|(l, c) r IH]; intros e t; cbn [update_fits]; [apply p_unit|].
  eapply p_bind0; [apply p_modify; intros t' c' _ H; exact H|intros; apply IH].
Qed.
Lemma p_subsume_all l ls : forall e t, pres e e t 0 (subsume_all V l ls) any.
Proof.
  induction ls as [|x ls IH]; intros e t; cbn [subsume_all]; [apply p_unit|]. eapply p_bind0 with (Q := any).
  - destruct (Nat.eqb l x); [apply p_unit|]. b0. b0. destruct (cl_general V a a0); [|apply p_unit].
    eapply p_bind0; [apply p_put; apply tame_set_num; eapply J_mono; [|exact HQ]; lia|intros ?t ?a ?Ht _].
    eapply p_bind0; [apply p_modify; intros; apply tame_set_num; assumption|intros ?t ?a ?Ht _]. b0. apply p_unit.
  - intros t1 d H1 _. eapply p_bind0; [apply IH|intros ?t ?a ?Ht _]. apply p_unit.
Qed.
Lemma p_update e t w x y cur : pres e e t 0 (clset_update V K w x y cur) any.
Proof.
  unfold clset_update. b0. eapply p_bind0 with (Q := any); [apply p_iter; intros; apply p_modify_rand, tame_update|intros ?t ?a ?Ht _].
  eapply p_bind0 with (Q := any).
  - unfold clset_update_fit. b0. destruct (vla0_is_ub K && _); [apply p_ub|]. b0. apply p_update_fits.
  - intros t3 u H3 _. destruct (SET_SUBSUMPTION K); [|apply p_unit]. unfold clset_subsumption. b0. b0.
    destruct (find_subsumer V K _ None) as [[l c]|]; [|apply p_unit]. eapply p_bind0; [apply p_subsume_all|intros ?t d ?Ht _].
    destruct d; [|apply p_unit]. eapply p_bind0; [apply p_validate|intros; apply p_validate].
Qed.
Lemma p_kill e t w : pres e e t 0 (clset_kill (B := B) w) any.
Proof.
  unfold clset_kill. b0. eapply p_bind0 with (Q := any); [apply p_iter; intros; apply p_free|intros; apply p_set].
Qed.
Lemma p_absorb e t p c : pres e e t 0 (absorb (B := B) p c) any.
Proof.
  unfold absorb. eapply p_bind0; [apply p_modify; intros; apply tame_set_num; assumption|intros ?t ?a ?Ht _].
  eapply p_bind0; [apply p_mod; intros s; repeat split|intros; apply p_free].
Qed.
Lemma p_ea_subsume e t c p1 p2 w : pres e e t 0 (ea_subsume V K c p1 p2 w) any.
Proof.
  unfold ea_subsume. b0. b0. b0. destruct (_ && _); [apply p_absorb|]. destruct (_ && _); [apply p_absorb|]. b0. b0. cbv zeta.
  destruct (_ <? _); [apply p_ub|]. destruct (0 <? _); [|apply p_add]. b0. destruct (nth_error _ _) as [[l r]|]; [|apply p_ub].
  destruct (_ <? 0); [apply p_ub|apply p_absorb].
Qed.
Lemma p_ea_add e t w p1 p2 c b b' : pres e e t 0 (ea_add V K w p1 p2 c b b') any.
Proof. unfold ea_add. destruct (_ && _); [apply p_absorb|]. destruct (ea_subsumption K); [apply p_ea_subsume|apply p_add]. Qed.
Lemma init_offspring_tame c1p c2p c1 c2 b : tame c1 (fst (ea_init_offspring K c1p c2p c1 c2 b)) /\ tame c2 (snd (ea_init_offspring K c1p c2p c1 c2 b)).
Proof. unfold ea_init_offspring. destruct b; split; split; cbn; auto. Qed.
Lemma p_ea_offspring e t w p1 p2 : pres e e t 0 (ea_offspring V K w p1 p2) any.
Proof.
  unfold ea_offspring. b0. b0.
  eapply p_bind0; [apply (p_rand _ _ _ (fun o => let '(d7, d8, _, _, _) := o in
     tame (cl_init V K (c_size a) (c_time a)) d7 /\ tame (cl_init V K (c_size a0) (c_time a0)) d8))|].
  - intros g ((((d7 & d8) & x) & y) & z) g' H. unfold bind in H at 1.
    destruct (cl_copy V K _ a g) as [[d1 g1]| | |] eqn:E1; try discriminate H. apply copy_res in E1. unfold bind in H at 1.
    destruct (cl_copy V K _ a0 g1) as [[d2 g2]| | |] eqn:E2; try discriminate H. apply copy_res in E2. unfold bind in H at 1.
    destruct (cl_crossover V d1 d2 g2) as [[[[d3 d4] b] g3]| | |] eqn:E3; try discriminate H. apply crossover_res in E3. unfold bind in H at 1.
    destruct (cl_mutate V K d3 g3) as [[[d5 b5] g5]| | |] eqn:E5; try discriminate H. apply mutate_res in E5. unfold bind in H at 1.
    destruct (cl_mutate V K d4 g5) as [[[d6 b6] g6]| | |] eqn:E6; try discriminate H. apply mutate_res in E6.
    pose proof (init_offspring_tame a a0 d5 d6 b) as E7. destruct (ea_init_offspring K a a0 d5 d6 b) as (q7, q8). injection H as <- <- <- <- <-. cbn [fst snd] in E7.
    split; (eapply tame_trans; [eassumption|]; eapply tame_trans; [apply E3|]; eapply tame_trans; [eassumption|apply E7]).
  - intros t2 ((((d7 & d8) & x) & y) & z) H2 (Q1 & Q2).
    assert (J7 : J t2 d7). { eapply tame_J; [exact Q1|]. apply init_J. destruct HQ as (X & _). lia. }
    assert (J8 : J t2 d8). { eapply tame_J; [exact Q2|]. apply init_J. destruct HQ0 as (X & _). lia. }
    eapply p_bind0; [apply p_alloc, J7|intros t3 l1 H3 _]. eapply p_bind0; [apply p_alloc; eapply J_mono; [|exact J8]; lia|intros t4 l2 H4 _].
    eapply p_bind0; [apply p_ea_add|intros; apply p_ea_add].
Qed.
Lemma p_ea_loop n w p1 p2 : forall e t, pres e e t 0 (ea_loop V K n w p1 p2) any.
Proof. induction n as [|n IH]; intros e t; cbn [ea_loop]; [apply p_unit|]. eapply p_bind0; [apply p_ea_offspring|intros; apply IH]. Qed.
Lemma p_tick e t : pres e e t 1 (mmod (fun s : st B => with_time (s_time s + 1) s)) any.
Proof.
  intros s x s' Ht (S0 & S) X E. injection E as _ <-. fin. split; [cbn; lia|]. cbn. intros l c H.
  eapply J_mono; [|eapply S, H]. lia.
Qed.
Lemma p_ea e t w : pres e e t 1 (ea V K w) any.
Proof.
  unfold ea. replace 1 with (1 + 0) at 1 by lia. eapply p_bind; [apply p_tick|intros ?t ?a ?Ht _]. b0. b0.
  destruct (set_sz _ =? 0); [apply p_unit|]. b0. destruct (flt _ _); [apply p_unit|].
  eapply p_bind0 with (Q := any).
  { unfold clset_set_times. b0. b0. apply p_iter. intros l t' Ht'. apply p_modify. intros tt2 c HH2 (X & Y). split; [|exact Y]. cbn in *. lia. }
  intros ?t ?a ?Ht _. b0. b0. destruct a5 as (c1 & c2). eapply p_bind0; [apply p_ea_loop|intros; apply p_enforce].
Qed.
Lemma p_pa e t x : pres e e t 0 (pa_build V K x) any.
Proof.
  unfold pa_build. b0. eapply p_bind0 with (Q := any); [apply p_iter; intros; apply p_modify_rand, tame_predict|intros ?t ?a ?Ht _].
  b0. b0. destruct a2. apply p_mod. intros s. repeat split.
Qed.
Lemma p_pos {A} e e' t n m (m' : M B A) (Q : Z -> A -> Prop) : pres e e' t m m' Q -> m <= n -> pres e e' t n m' Q.
Proof. intros H L. eapply p_weak; [exact H|exact L|auto]. Qed.

(** ** Trials. *)
Ltac b1 L := eapply p_bind0; [apply L|intros ?t ?a ?Ht _].
Ltac pmod := apply p_mod; intros ?s; repeat split.
Ltac bx := eapply p_bind0; [apply p_explore|intros ?t ?a ?Ht _].
Definition tk (b : bool) : Z := if b then 1 else 0.
(** A trial advances the clock only if it learns. *)
Lemma p_trial e t x y cover : pres e e t (tk e) (supervised_trial V K x y cover) any.
Proof.
  unfold supervised_trial. b0. b0. eapply p_bind0 with (Q := any).
  - destruct cover as [cv|].
    + b1 p_match. b0. destruct (_ <? 1); [|apply p_pa]. destruct (_ <? _); [apply p_ub|]. pmod.
    + b1 p_match. apply p_pa.
  - intros ?t ?a ?Ht _. eapply p_bind0; [apply p_flag|intros t3 ex H3 ->]. replace (tk e) with (tk e + 0) by lia. eapply p_bind with (Q := any).
    + destruct e; [|apply p_unit]. b1 p_update. apply p_ea.
    + intros ?t ?a ?Ht _. b1 p_kill. apply p_set.
Qed.
Lemma p_fit_step e t d sh cnt : pres e true t 1 (supervised_fit_step V K d sh cnt) any.
Proof.
  unfold supervised_fit_step. b0. b0. b0. bx. replace 1 with (1 + 0) at 1 by lia.
  eapply p_bind; [apply (p_trial true)|intros ?t ?a ?Ht _]. b0. cbv zeta. eapply p_bind0; [unfold update_error; pmod|intros; apply p_unit].
Qed.
Lemma p_test_step e t d sh cnt : pres e false t 0 (supervised_test_step V K d sh cnt) any.
Proof. unfold supervised_test_step. b0. b0. b0. bx. apply (p_trial false). Qed.
(** The flag may end up either way. *)
Definition presx {A} (t n : Z) (m : M B A) (Q : Z -> A -> Prop) : Prop := forall s a s', t <= s_time s -> stamped s ->
  m s = Ok (a, s') -> stamped s' /\ s_time s <= s_time s' <= s_time s + n /\ Q (s_time s') a.
Lemma px {A} t n (m : M B A) Q : (forall e, exists e', pres e e' t n m Q) -> presx t n m Q.
Proof. intros H s a s' Ht S E. destruct (H (s_explore s)) as (e' & P). destruct (P s a s' Ht S eq_refl E) as (A1 & _ & A2 & A3). auto. Qed.
Lemma x_bind {A C} t n n' (m : M B A) (k : A -> M B C) (Q Q' : Z -> _ -> Prop) : presx t n m Q ->
  (forall t' a, t <= t' -> Q t' a -> presx t' n' (k a) Q') -> presx t (n + n') (mbind m k) Q'.
Proof.
  intros H1 H2 s a s' Ht S E. unfold mbind in E. destruct (m s) as [[x s1]| | |] eqn:E1; try discriminate E.
  destruct (H1 s x s1 Ht S E1) as (S1 & T1 & Q1). destruct (H2 (s_time s1) x ltac:(lia) Q1 s1 a s' ltac:(lia) S1 E) as (S2 & T2 & Q2).
  split; [exact S2|]. split; [lia|exact Q2].
Qed.
Lemma x_weak {A} t n n' (m : M B A) Q : presx t n m Q -> n <= n' -> presx t n' m Q.
Proof. intros H L s a s' Ht S E. destruct (H s a s' Ht S E) as (S1 & T1 & Q1). split; [exact S1|]. split; [lia|exact Q1]. Qed.
Lemma x_bind0 {A C} t n (m : M B A) (k : A -> M B C) (Q Q' : Z -> _ -> Prop) : presx t n m Q ->
  (forall t' a, t <= t' -> Q t' a -> presx t' 0 (k a) Q') -> presx t n (mbind m k) Q'.
Proof. intros. replace n with (n + 0) by lia. eapply x_bind; eassumption. Qed.
Lemma x_ret {A} t (a : A) : presx t 0 (mret a) any.
Proof. apply px. intros e. exists e. apply p_unit. Qed.

Lemma x_fit_loop n : forall t d test sh cnt err, presx t (Z.of_nat n) (supervised_fit_loop V K n d test sh cnt err) any.
Proof.
  induction n as [|n IH]; intros t d test sh cnt err; cbn [supervised_fit_loop]; [apply x_ret|].
  replace (Z.of_nat (S n)) with (1 + Z.of_nat n) by lia. eapply x_bind; [apply px; intros e; exists true; apply p_fit_step|]. intros t1 x1 H1 _.
  replace (Z.of_nat n) with (0 + Z.of_nat n) by lia. eapply x_bind with (Q := any); [|intros; apply IH].
  destruct test as [d'|]; [|apply x_ret]. apply px. intros e. exists false. apply p_test_step.
Qed.
Lemma p_predict_rows xs cover : forall t, pres false false t 0 (predict_rows V K xs cover) any.
Proof.
  induction xs as [|x r IH]; intros t; cbn [predict_rows]; [apply p_unit|]. b1 (p_trial false). b0. b1 IH. apply p_unit.
Qed.
Lemma p_score_rows rows cover : forall t err, pres false false t 0 (score_rows V K rows cover err) any.
Proof.
  induction rows as [|(x, y) r IH]; intros t err; cbn [score_rows]; [apply p_unit|]. b1 (p_trial false). b0. apply IH.
Qed.
Lemma p_score e t d cover : pres e false t 0 (supervised_score V K d cover) any.
Proof. unfold supervised_score. bx. b1 p_score_rows. apply p_unit. Qed.
Lemma p_score_n_loop n d cover : forall t err, pres false false t 0 (score_n_loop V K n d cover err) any.
Proof.
  induction n as [|n IH]; intros t err; cbn [score_n_loop]; [apply p_unit|]. b0. b0. b0. b1 (p_trial false). b0. apply IH.
Qed.
Lemma p_score_n e t d n cover : pres e false t 0 (supervised_score_n V K d n cover) any.
Proof. unfold supervised_score_n. destruct (_ <? n); [apply p_score|]. bx. b1 p_score_n_loop. apply p_unit. Qed.

Lemma p_improve e t w x y cur : pres e e t 1 (clset_validate w ;;; clset_update V K w x y cur ;;; (ex <~ mget s_explore ;; if ex : bool then ea V K w else mret tt))%m any.
Proof. b1 p_validate. b1 p_update. b0. destruct a1; [apply p_ea|]. eapply p_pos; [apply p_unit|lia]. Qed.
Lemma p_rl_update e t x a r done : pres e e t 2 (rl_update V K x a r done) any.
Proof.
  unfold rl_update. b1 p_action. b0. replace 2 with (1 + 1) by lia. eapply p_bind with (Q := any).
  - destruct (set_list a1); [eapply p_pos; [apply p_unit|lia]|]. b0. b0. b0. b0. cbv zeta. apply p_improve.
  - intros tt3 u HH3 _. destruct done; [apply p_improve|eapply p_pos; [apply p_unit|lia]].
Qed.
Lemma p_rl_error e t a r done mp : pres e e t 0 (rl_error (B := B) K a r done mp) any.
Proof. unfold rl_error. b0. b0. b0. cbv zeta. eapply p_bind0; [unfold update_error; pmod|intros; apply p_unit]. Qed.
Lemma p_end_step e t x a r : pres e e t 0 (rl_end_step (B := B) K x a r) any.
Proof. unfold rl_end_step. b0. b0. b0. b0. b0. b0. destruct (_ <? _); [apply p_ub|pmod]. Qed.
Lemma p_decision e t x : pres e e t 0 (rl_decision V K x) any.
Proof.
  unfold rl_decision. b1 p_match. b1 p_pa. b0. b0. b0. destruct a1; [|apply p_draw]. b0. destruct (flt _ _); apply p_draw.
Qed.
Section EnvClock.
Context {E : Type} (VE : env E).
Lemma p_rl_step e t en : pres e e t 2 (rl_step V K VE en) any.
Proof.
  unfold rl_step, rl_init_step. eapply p_bind0 with (Q := any); [b0; apply p_set|intros ?t ?a ?Ht _]. b0. destruct a0 as (e0, x). b1 p_decision. b0. match goal with p : (E * f64)%type |- _ => destruct p as (e', r) end.
  replace 2 with (2 + 0) by lia. eapply p_bind; [apply p_rl_update|intros ?t ?a ?Ht _]. b1 p_rl_error. b1 p_end_step. apply p_unit.
Qed.
Lemma p_rl_loop n : forall e t en r st err, pres e e t (2 * Z.of_nat n) (rl_loop V K VE n en r st err) any.
Proof.
  induction n as [|n IH]; intros e t en r st err; cbn [rl_loop]; [apply p_unit|].
  replace (2 * Z.of_nat (S n)) with (2 + 2 * Z.of_nat n) by lia. eapply p_bind; [apply p_rl_step|intros t1 (((e' & r') & done) & er) H1 _].
  destruct done; [eapply p_pos; [apply p_unit|lia]|apply IH].
Qed.
Lemma p_rl_trial e t en ex : pres e ex t (2 * Z.of_nat (Z.to_nat (TELETRANSPORTATION K))) (rl_trial V K VE en ex) any.
Proof.
  unfold rl_trial. b0. bx. eapply p_bind0 with (Q := any).
  { unfold rl_init_trial. destruct (_ <? 1); [apply p_exit|]. eapply p_bind0; [pmod|intros ?t ?a ?Ht _]. b0. apply p_set. }
  intros ?t ?a ?Ht _. replace (2 * Z.of_nat (Z.to_nat (TELETRANSPORTATION K))) with (2 * Z.of_nat (Z.to_nat (TELETRANSPORTATION K)) + 0) by lia.
  eapply p_bind; [apply p_rl_loop|intros tt1 (((e' & r') & st) & er) HH1 _]. eapply p_bind0 with (Q := any); [unfold rl_end_trial; b0; apply p_kill|intros ?t ?a ?Ht _].
  destruct (env_multistep VE); apply p_unit.
Qed.
End EnvClock.
Lemma p_rl_fit e t x a r : pres e true t 2 (rl_fit V K x a r) any.
Proof.
  unfold rl_fit. eapply p_bind0 with (Q := any).
  { unfold rl_init_trial. destruct (_ <? 1); [apply p_exit|]. eapply p_bind0; [pmod|intros ?t ?a ?Ht _]. b0. apply p_set. }
  intros ?t ?a ?Ht _. eapply p_bind0 with (Q := any); [unfold rl_init_step; b0; apply p_set|intros ?t ?a ?Ht _]. b1 p_match. b1 p_pa. b0. b0. cbv zeta. bx.
  replace 2 with (2 + 0) by lia. eapply p_bind; [apply p_rl_update|intros ?t ?a ?Ht _]. b1 p_end_step.
  eapply p_bind0 with (Q := any); [unfold rl_end_trial; b0; apply p_kill|intros ?t ?a ?Ht _]. eapply p_bind0; [unfold update_error; pmod|intros; apply p_unit].
Qed.
Lemma p_store e t : pres e e t 0 (store_pset V K) any.
Proof.
  unfold store_pset. b1 p_kill. b0. apply p_iter. intros l t' Ht'. b0.
  eapply p_bind0; [apply (p_rand _ _ _ (tame a1)); intros g c g' E; eapply init_copy_res, E|intros tt3 c HH3 Hc].
  eapply p_bind0; [apply p_alloc; eapply tame_J; [exact Hc|]; eapply J_mono; [|exact HQ0]; lia|intros; apply p_add].
Qed.
Lemma p_retrieve e t : pres e e t 0 (retrieve_pset (B := B)) any.
Proof. unfold retrieve_pset. b0. destruct (_ <? 1); [apply p_unit|]. b1 p_kill. b0. b0. apply p_set. Qed.
Lemma p_insert e t c : J 0 c -> 0 <= t -> pres e e t 0 (insert_cl V K c) any.
Proof.
  intros H Ht0. unfold insert_cl. eapply p_bind0; [apply p_alloc; eapply J_mono; [exact Ht0|exact H]|intros ?t ?a ?Ht _]. b0. b0. b1 p_enforce. apply p_kill.
Qed.
Lemma p_init_loop fuel : forall e t, 0 <= t -> pres e e t 0 (pset_init_loop V K fuel) any.
Proof.
  induction fuel as [|f IH]; intros e t Ht0; cbn [pset_init_loop]; b0; destruct (_ <? _); try apply p_unit; try apply p_fuel.
  eapply p_bind0; [apply (p_rand _ _ _ (tame (cl_init V K (of_Z (POP_SIZE K)) 0))); intros g c g' E; eapply rand_res, E|intros tt3 c HH3 Hc].
  eapply p_bind0; [apply p_alloc; eapply tame_J; [exact Hc|]; apply init_J; lia|intros ?t ?a ?Ht _]. b0. apply IH. lia.
Qed.

(** ** Sequences of operations. *)
Section Seq.
Context {E : Type} (VE : env E).
(** By how much an operation may advance the clock. *)
Definition ticks (o : op (B := B) (E := E)) : Z :=
  match o with
  | OFit _ _ _ _ trials => Z.max 0 trials
  | ORlFit _ _ _ => 2
  | ORlTrial _ _ => 2 * Z.max 0 (TELETRANSPORTATION K)
  | _ => 0
  end.
Definition all_ticks (os : list (op (B := B) (E := E))) : Z := fold_right (fun o z => ticks o + z) 0 os.
Definition op_stamped (o : op (B := B) (E := E)) : Prop := match o with OInsert c => J 0 c | _ => True end.
Lemma x_op t o : 0 <= t -> op_stamped o -> presx t (ticks o) (run_op V K VE o) any.
Proof.
  intros H0 H. destruct o; cbn [run_op ticks].
  - eapply x_bind0; [|intros; apply x_ret]. unfold supervised_fit. eapply x_bind0; [|intros; apply x_ret].
    replace (Z.max 0 trials) with (Z.of_nat (Z.to_nat trials)) by lia. apply x_fit_loop.
  - eapply x_bind0; [|intros; apply x_ret]. apply px. intros e. exists false. unfold supervised_predict. bx. apply p_predict_rows.
  - eapply x_bind0; [|intros; apply x_ret]. apply px. intros e. exists false. apply p_score_n.
  - eapply x_bind0; [|intros; apply x_ret]. apply px. intros e. exists true. apply p_rl_fit.
  - eapply x_bind0; [|intros; apply x_ret]. apply px. intros e'. exists explore.
    replace (Z.max 0 (TELETRANSPORTATION K)) with (Z.of_nat (Z.to_nat (TELETRANSPORTATION K))) by lia. apply p_rl_trial.
  - apply px. intros e. exists e. apply p_insert; assumption.
  - apply px. intros e. exists e. apply p_store.
  - apply px. intros e. exists e. apply p_retrieve.
Qed.
Lemma x_ops os : forall t, 0 <= t -> Forall op_stamped os -> presx t (all_ticks os) (run_ops V K VE os) any.
Proof.
  induction os as [|o os IH]; intros t Ht F; cbn [run_ops]; [apply x_ret|]. inversion F as [|? ? F1 F2]; subst.
  change (all_ticks (o :: os)) with (ticks o + all_ticks os). eapply x_bind; [apply x_op; assumption|]. intros t' a Ht' _. apply IH; [lia|exact F2].
Qed.
Lemma ops_stamped os s s' : stamped s -> Forall op_stamped os -> run_ops V K VE os s = Ok (tt, s') ->
  stamped s' /\ s_time s <= s_time s' <= s_time s + all_ticks os.
Proof. intros S F H. destruct (x_ops os 0 ltac:(lia) F s tt s' (proj1 S) S H) as (A1 & A2 & _). auto. Qed.
Lemma life_stamped os s s' : (forall l, s_heap s l = None) -> Forall op_stamped os ->
  (xcsf_init V K ;;; run_ops V K VE os)%m s = Ok (tt, s') -> stamped s' /\ 0 <= s_time s' <= all_ticks os.
Proof.
  intros H0 F H. unfold mbind in H. destruct (xcsf_init V K s) as [[[] s1]| | |] eqn:E1; try discriminate H.
  assert (S1 : stamped s1 /\ s_time s1 = 0).
  { unfold xcsf_init, clset_init in E1. unfold mbind at 1 in E1. unfold mmod at 1 in E1.
    set (s0 := with_explore false (with_stats (E0 K) f0 f0 f0 (with_time 0 s))) in E1.
    assert (S0 : stamped s0) by (split; [cbn; lia|]; cbn; intros l c X; rewrite H0 in X; discriminate X).
    unfold mbind at 1 2 3 in E1. unfold mmod in E1.
    match type of E1 with clset_pset_init V K ?z = _ => set (s3 := z) in E1 end.
    assert (S3 : stamped s3) by exact S0. unfold clset_pset_init in E1. destruct (POP_INIT K).
    - unfold mbind at 1, mget in E1. destruct (p_init_loop _ (s_explore s3) 0 ltac:(lia) s3 tt s1 (proj1 S3) S3 eq_refl E1) as (A1 & _ & A2 & _).
      split; [exact A1|]. change (s_time s3) with 0 in A2. lia.
    - injection E1 as <-. split; [exact S3|reflexivity]. }
  destruct S1 as (S1 & Z1). destruct (ops_stamped os s1 s' S1 F H) as (A1 & A2). split; [exact A1|]. lia.
Qed.
End Seq.
End Clock.
