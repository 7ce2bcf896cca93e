(** * Predicting with a loaded system (C35). *)
From Coq Require Import ZArith Bool List Lia Ascii.
From Verif Require Import Outcome F64 Rng Pop PopSpec PopPA Cond Pred Arr ArrFacts Layer Net Param Comp Demo File FileFacts PropFile FileOver Pa PaFacts.
Import ListNotations.
Open Scope Z_scope.

(** ** Loading leaves the arrays alone, whatever the file. *)
Lemma pbind_inv {A B} (m : PL A) (k : A -> PL B) c g r : pbind m k c g = Ok r -> exists a c' g', m c g = Ok (a, c', g') /\ k a c' g' = Ok r.
Proof. unfold pbind, bind. destruct (m c g) as [[[a c'] g']| | |]; try discriminate. intros E. exists a, c', g'. auto. Qed.
Lemma mbind_inv {B A C} (m : M B A) (k : A -> M B C) s r : mbind m k s = Ok r -> exists a s1, m s = Ok (a, s1) /\ k a s1 = Ok r.
Proof. unfold mbind. destruct (m s) as [[a s1]| | |]; try discriminate. intros E. exists a, s1. auto. Qed.
Lemma param_load_pa {B} y (s : st B) c g y1 s1 c1 g1 : param_load y s c g = Ok (y1, s1, c1, g1) -> s_pa s1 = s_pa s /\ s_nr s1 = s_nr s.
Proof.
  unfold param_load. intros E.
  repeat match type of E with
  | pbind _ _ _ _ = Ok _ => apply pbind_inv in E; destruct E as (? & ? & ? & _ & E); cbv beta in E
  | (if ?b then _ else _) _ _ = Ok _ => destruct b; [discriminate E|]
  end.
  injection E as <- <- <- <-. split; reflexivity.
Qed.
Lemma np_kill {B} w : nopa (B := B) (clset_kill w).
Proof. unfold clset_kill. apply np_bind; [apply np_getset|]. intros s. apply np_bind; [apply np_iter; intros l; apply np_free|]. intros _. apply np_set. Qed.
Lemma np_clfree {B} w : nopa (B := B) (clset_free w).
Proof. unfold clset_free. apply np_set. Qed.
Section Load.
Context (K : cfg) (log2 : f64 -> f64).
Lemma np_load_loop h n : forall c, nopa (pset_load_loop K log2 h n c).
Proof.
  induction n as [|n IH]; intros c; cbn [pset_load_loop]; [apply np_ret|]. apply np_bind; [apply np_rand|]. intros r. apply np_bind; [apply np_alloc|]. intros l.
  apply np_bind; [apply np_add|]. intros _. apply IH.
Qed.
Lemma C35_load_lemma y0 c s0 y1 rest s1 : xcsf_load K log2 y0 c s0 = Ok ((y1, rest), s1) -> s_pa s1 = s_pa s0 /\ s_nr s1 = s_nr s0.
Proof.
  unfold xcsf_load. intros E. apply mbind_inv in E. destruct E as (ps & sa & E1 & E). injection E1 as <- <-.
  apply mbind_inv in E. destruct E as ([] & sb & E1 & E).
  assert (KB : s_pa sb = s_pa s0 /\ s_nr sb = s_nr s0).
  { refine (nopa_keeps _ _ _ _ _ E1). apply np_if; [|apply np_ret]. apply np_bind; [apply np_kill|]. intros _. apply np_init. }
  apply mbind_inv in E. destruct E as (r & sc & E2 & E). destruct (nopa_keeps _ _ _ _ (np_rand _) E2) as (C1 & C2).
  destruct (negb _ || negb _); [discriminate E|]. apply mbind_inv in E. destruct E as (sd & se & E3 & E). injection E3 as <- <-.
  apply mbind_inv in E. destruct E as (q & sf & E4 & E). unfold mread, mrand in E4.
  destruct (param_load y0 sc (snd r) (s_rng sc)) as [[[[y2 s2] c2] g2]| | |] eqn:PL; try discriminate. injection E4 as <- <-.
  destruct (param_load_pa _ _ _ _ _ _ _ _ PL) as (D1 & D2). cbn [fst snd] in E.
  apply mbind_inv in E. destruct E as ([] & sg & E5 & E). injection E5 as <-. apply mbind_inv in E. destruct E as (h & sh & E6 & E).
  destruct (nopa_keeps _ _ _ _ (np_lift _) E6) as (F1 & F2). apply mbind_inv in E. destruct E as (c' & si & E7 & E). injection E as _ _ <-.
  assert (NP : nopa (pset_load K log2 h c2)).
  { unfold pset_load. apply np_bind; [apply np_rand|]. intros u. apply np_bind; [apply np_init|]. intros _. apply np_bind; [apply np_load_loop|]. intros c3.
    apply np_bind; [apply np_mod; reflexivity|]. intros _. apply np_ret. }
  destruct (nopa_keeps _ _ _ _ NP E7) as (G1 & G2). destruct KB as (B1 & B2). change (s_pa sh = s_pa s2) in F1. change (s_nr sh = s_nr s2) in F2. split; congruence.
Qed.
End Load.

(** ** One trial *)
Section NoPa2.
Context {B : Type} (V : vtab B) (K : cfg).
Ltac np := repeat (intros; match goal with
  | |- nopa (mret _) => apply np_ret
  | |- nopa (mub _) => apply np_ub
  | |- nopa (mrand _) => apply np_rand
  | |- nopa (get _) => apply np_cell
  | |- nopa (put _ _) => apply np_put
  | |- nopa (alloc _) => apply np_alloc
  | |- nopa (cl_free _) => apply np_free
  | |- nopa (get_all _) => apply np_all
  | |- nopa (miter _ _) => apply np_iter
  | |- nopa (mmod (with_set _ _)) => apply np_set
  | |- nopa (mget (get_set _)) => apply np_getset
  | |- nopa (mget _) => apply np_get; reflexivity
  | |- nopa (mmod _) => apply np_mod; reflexivity
  | |- nopa (mbind _ _) => apply np_bind
  | |- nopa (if _ then _ else _) => apply np_if
  | |- nopa (clset_add _ _) => apply np_add
  | |- nopa (modify _ _) => apply np_modify
  | |- nopa (modify_rand _ _) => apply np_modrand
  | |- nopa (clset_validate _) => apply np_validate
  | |- nopa (let '(_, _) := ?r in _) => destruct r
  | |- nopa (match ?r with Some _ => _ | None => _ end) => destruct r
  end); intros.
Lemma np_fits lcs : forall sum, nopa (B := B) (update_fits K lcs sum).
Proof. induction lcs as [|[l c] r IH]; intros sum; cbn [update_fits]; np. apply IH. Qed.
Lemma np_subsume s ls : nopa (subsume_all V s ls).
Proof. induction ls as [|l r IH]; cbn [subsume_all]; np. exact IH. Qed.
Lemma np_update w x y cur : nopa (clset_update V K w x y cur).
Proof.
  unfold clset_update, clset_update_fit, clset_subsumption. np; [apply np_fits|]. apply np_subsume.
Qed.
Lemma np_absorb p c : nopa (B := B) (Pop.absorb p c). Proof. unfold Pop.absorb. np. Qed.
Lemma np_ea_add w a b c m1 m2 : nopa (ea_add V K w a b c m1 m2).
Proof. unfold ea_add, ea_subsume. np; try apply np_absorb; np. Qed.
Lemma np_ea_loop n : forall w a b, nopa (ea_loop V K n w a b).
Proof. induction n as [|n IH]; intros w a b; cbn [ea_loop]; np; [|apply IH]. unfold ea_offspring. np; apply np_ea_add. Qed.
Lemma np_ea w : nopa (ea V K w).
Proof. unfold ea, clset_set_times, clset_pset_enforce_limit. np; [apply np_ea_loop|apply np_enforce]. Qed.
End NoPa2.

Section Trial.
Context {B : Type} (V : vtab B) (K : cfg).
Hypothesis (HN : 1 <= n_actions K) (HY : 1 <= y_dim K).
(** The state as it would be in a system created with these dimensions. *)
Definition fresh (s : st B) : st B := with_pa (Pop.zeros (n_actions K * y_dim K)) (Pop.zeros (n_actions K * y_dim K)) s.
(** The first part of a trial; [cover]: whether missing actions are covered. *)
Definition matching (x : list f64) (cover : bool) : M B unit := clset_init MSET ;;; clset_init KSET ;;; clset_match V K x cover.
Lemma np_matching x cover : nopa (matching x cover).
Proof. unfold matching. apply np_bind; [apply np_init|]. intros _. apply np_bind; [apply np_init|]. intros _. apply np_match. Qed.
Definition finishing (x y : list f64) : M B unit :=
  ex <~ mget s_explore ;; (if ex : bool then clset_update V K MSET x y true ;;; ea V K MSET else mret tt) ;;; clset_kill KSET ;;; clset_free MSET.
Lemma np_finishing x y : nopa (finishing x y).
Proof.
  apply np_bind; [apply np_get; reflexivity|]. intros ex. apply np_bind; [apply np_if; [|apply np_ret]|].
  - apply np_bind; [apply np_update|]. intros _. apply np_ea.
  - intros _. apply np_bind; [apply np_kill|]. intros _. apply np_clfree.
Qed.
Definition is_none {T} (o : option T) : bool := match o with None => true | Some _ => false end.
Definition middle (build : M B unit) (fill : list f64 -> M B unit) (cover : option (list f64)) : M B unit :=
  match cover with
  | Some cv => ms <~ mget s_mset ;; if set_sz ms <? 1 then fill cv else build
  | None => build
  end.
Definition fill (cv : list f64) : M B unit :=
  if Z.of_nat (length cv) <? pa_size K then mub OutOfBounds else mmod (fun s => with_pa (firstn (Z.to_nat (pa_size K)) cv) (s_nr s) s).
Definition fill_c (cv : list f64) : M B unit :=
  pa <~ mget s_pa ;; if (length cv <? length pa)%nat then mub OutOfBounds else mmod (fun s => with_pa (firstn (length pa) cv) (s_nr s) s).
Lemma regroup (m1 m2 m3 m4 m5 : M B unit) s : mbind m1 (fun _ => mbind m2 (fun _ => mbind (mbind m3 (fun _ => m4)) (fun _ => m5))) s =
  mbind (mbind m1 (fun _ => mbind m2 (fun _ => m3))) (fun _ => mbind m4 (fun _ => m5)) s.
Proof.
  unfold mbind. destruct (m1 s) as [[[] s1]| | |]; [|reflexivity..]. destruct (m2 s1) as [[[] s2]| | |]; [|reflexivity..].
  destruct (m3 s2) as [[[] s3]| | |]; reflexivity.
Qed.
Lemma trial_parts x y cover s :
  supervised_trial V K x y cover s = (matching x (is_none cover) ;;; middle (pa_build V K x) fill cover ;;; finishing x y) s /\
  supervised_trial_c V K x y cover s = (matching x (is_none cover) ;;; middle (pa_build_c V K x) fill_c cover ;;; finishing x y) s.
Proof.
  split; destruct cover as [cv|]; apply regroup.
Qed.
Lemma with_pa_twice a b a' b' (s : st B) : with_pa a b (with_pa a' b' s) = with_pa a b s.
Proof. reflexivity. Qed.
(** The arrays that are overwritten do not matter. *)
Lemma build_forget x a b s : pa_build V K x (with_pa a b s) = pa_build V K x s.
Proof.
  destruct (build_parts V K x s) as (E & _). destruct (build_parts V K x (with_pa a b s)) as (E' & _). rewrite E, E'. clear E E'.
  match goal with |- match ?p (with_pa a b s) with _ => _ end = _ => assert (NP : nopa p) end.
  { apply np_bind; [apply np_get; reflexivity|]. intros ms. apply np_bind; [apply np_iter; intros l; apply np_modrand|]. intros _. apply np_all. }
  rewrite NP. match goal with |- context [match ?q with Ok _ => _ | _ => _ end] => destruct q as [[cs s1]| | |]; [|reflexivity..] end.
  destruct (pa_accum K cs _ _) as [[pa nr]| | |]; reflexivity.
Qed.
Lemma mbind_ok {A C} (m : M B A) (k : A -> M B C) s a s1 : m s = Ok (a, s1) -> mbind m k s = k a s1.
Proof. intros E. unfold mbind. now rewrite E. Qed.
Lemma mbind_ub {A C} (m : M B A) (k : A -> M B C) s u : m s = UB u -> mbind m k s = UB u.
Proof. intros E. unfold mbind. now rewrite E. Qed.
Lemma build_len x s s1 : pa_build V K x s = Ok (tt, s1) -> len (s_pa s1) = n_actions K * y_dim K /\ len (s_nr s1) = n_actions K * y_dim K.
Proof.
  destruct (build_parts V K x s) as (E & _). rewrite E. clear E. match goal with |- match ?q with _ => _ end = _ -> _ => destruct q as [[cs s2]| | |]; try discriminate end.
  destruct (pa_accum_cases K cs (Pop.zeros (n_actions K * y_dim K)) (Pop.zeros (n_actions K * y_dim K))) as [(pa & nr & X & L1 & L2)|X]; rewrite X; [|discriminate].
  intros E. injection E as <-. unfold Pop.zeros in L1, L2. rewrite repeat_length in L1, L2. cbn [s_pa s_nr with_pa]. unfold len. rewrite pa_norm_len by lia. split; nia.
Qed.

(** A trial of a system whose arrays are at least as long as its dimensions require: what a system
    created with those dimensions does, with longer arrays. *)
Lemma C35_room_lemma x y cover s s' : n_actions K * y_dim K <= len (s_pa s) -> len (s_nr s) = len (s_pa s) ->
  (forall cv, cover = Some cv -> len (s_pa s) <= len cv) ->
  supervised_trial V K x y cover (fresh s) = Ok (tt, s') ->
  exists pa nr, supervised_trial_c V K x y cover s = Ok (tt, with_pa pa nr s') /\
    len pa = len (s_pa s) /\ len nr = len (s_pa s) /\ firstn (Z.to_nat (n_actions K * y_dim K)) pa = s_pa s'.
Proof.
  intros LP LN LC. destruct (trial_parts x y cover (fresh s)) as (-> & _). destruct (trial_parts x y cover s) as (_ & ->).
  intros E. apply mbind_inv in E. destruct E as ([] & s1' & E1 & E). unfold fresh in E1. rewrite (np_matching x _ _ _ s) in E1.
  destruct (matching x (is_none cover) s) as [[[] s1]| | |] eqn:M1; try discriminate. injection E1 as <-.
  destruct (nopa_keeps _ _ _ _ (np_matching x _) M1) as (P1 & P2). rewrite (mbind_ok _ _ _ _ _ M1).
  apply mbind_inv in E. destruct E as ([] & s2 & E2 & E3).
  assert (BUILD : forall s2, pa_build V K x (with_pa (Pop.zeros (n_actions K * y_dim K)) (Pop.zeros (n_actions K * y_dim K)) s1) = Ok (tt, s2) ->
    exists pa nr, pa_build_c V K x s1 = Ok (tt, with_pa pa nr s2) /\ len pa = len (s_pa s) /\ len nr = len (s_pa s) /\ firstn (Z.to_nat (n_actions K * y_dim K)) pa = s_pa s2).
  { intros s3 F. rewrite build_forget in F. destruct (build_len x s1 s3 F) as (L1 & L2). eexists _, _. split; [apply (build_room V K HN HY x s1 s3); [rewrite P1, P2; exact LN|rewrite P1; exact LP|exact F]|].
    rewrite P1. unfold len in *. unfold pad, len. rewrite !app_length, repeat_length. split; [lia|]. split; [lia|]. rewrite firstn_app, firstn_all2 by lia.
    replace (Z.to_nat (n_actions K * y_dim K) - length (s_pa s3))%nat with O by lia. cbn [firstn]. apply app_nil_r. }
  assert (MID : exists pa nr, middle (pa_build_c V K x) fill_c cover s1 = Ok (tt, with_pa pa nr s2) /\ len pa = len (s_pa s) /\ len nr = len (s_pa s) /\ firstn (Z.to_nat (n_actions K * y_dim K)) pa = s_pa s2).
  { destruct cover as [cv|]; cbn [middle] in E2 |- *; [|apply BUILD; exact E2].
    unfold mbind, mget in E2 |- *. cbn [s_mset with_pa] in E2. destruct (set_sz (s_mset s1) <? 1); [|apply BUILD; exact E2].
    unfold fill in E2. destruct (Z.of_nat (length cv) <? pa_size K); [discriminate|]. injection E2 as <-.
    specialize (LC cv eq_refl). unfold fill_c, mbind, mget. rewrite P1. unfold len in *. destruct (Nat.ltb_spec (length cv) (length (s_pa s))); [lia|].
    exists (firstn (length (s_pa s)) cv), (s_nr s1). split; [reflexivity|]. rewrite P2, firstn_length. split; [lia|]. split; [lia|].
    cbn [s_pa with_pa]. rewrite firstn_firstn. f_equal. unfold pa_size. lia. }
  destruct MID as (pa & nr & M2 & L1 & L2 & F). rewrite (mbind_ok _ _ _ _ _ M2). exists pa, nr. rewrite np_finishing, E3.
  destruct (nopa_keeps _ _ _ _ (np_finishing x y) E3) as (Q1 & _). rewrite Q1. auto.
Qed.
(** A trial of a system whose arrays are shorter: whenever the array is built, a write beyond its
    end.  [cover']: what would be given to the system created with the dimensions. *)
Lemma C35_short_lemma x y cover cover' s s' : len (s_pa s) < n_actions K * y_dim K -> len (s_nr s) = len (s_pa s) ->
  is_none cover = is_none cover' -> supervised_trial V K x y cover' (fresh s) = Ok (tt, s') ->
  (forall s1, matching x (is_none cover) s = Ok (tt, s1) -> cover = None \/ 1 <= set_sz (s_mset s1)) ->
  supervised_trial_c V K x y cover s = UB OutOfBounds.
Proof.
  intros LP LN SC. destruct (trial_parts x y cover' (fresh s)) as (-> & _). destruct (trial_parts x y cover s) as (_ & ->). rewrite <- SC.
  intros E NE. apply mbind_inv in E. destruct E as ([] & s1' & E1 & E). unfold fresh in E1. rewrite (np_matching x _ _ _ s) in E1.
  destruct (matching x (is_none cover) s) as [[[] s1]| | |] eqn:M1; try discriminate. injection E1 as <-. specialize (NE s1 eq_refl).
  destruct (nopa_keeps _ _ _ _ (np_matching x _) M1) as (P1 & P2). rewrite (mbind_ok _ _ _ _ _ M1). apply mbind_ub.
  apply mbind_inv in E. destruct E as ([] & s2 & E2 & _).
  assert (BUILD : forall s2, pa_build V K x (with_pa (Pop.zeros (n_actions K * y_dim K)) (Pop.zeros (n_actions K * y_dim K)) s1) = Ok (tt, s2) -> pa_build_c V K x s1 = UB OutOfBounds).
  { intros s3 F. rewrite build_forget in F. apply (build_short V K HY x s1 s3); [rewrite P1, P2; exact LN|rewrite P1; exact LP|exact F]. }
  destruct cover as [cv|], cover' as [cv'|]; try discriminate SC; cbn [middle] in *; [|eapply BUILD; exact E2].
  destruct NE as [NE|NE]; [discriminate NE|]. unfold mbind, mget in E2 |- *. cbn [s_mset with_pa] in E2. destruct (Z.ltb_spec (set_sz (s_mset s1)) 1); [lia|]. eapply BUILD; exact E2.
Qed.
Lemma C35_same_lemma x y cover s : len (s_pa s) = n_actions K * y_dim K -> len (s_nr s) = n_actions K * y_dim K ->
  supervised_trial_c V K x y cover s = supervised_trial V K x y cover s.
Proof. apply trial_same; assumption. Qed.
End Trial.

(** ** A trial after loading a file. *)
Section Loaded.
Context (K : cfg) (log2 : f64 -> f64) (V : vtab body).
(** [K1]: the loaded dimensions; the arrays are those of the system the file was loaded into. *)
Lemma C35_loaded_lemma y0 c s0 y1 rest s1 h x y cover s2 :
  xcsf_load K log2 y0 c s0 = Ok ((y1, rest), s1) -> shape_of (y_par y1) = Ok h -> 1 <= sh_n h -> 1 <= sh_y h ->
  len (s_nr s0) = len (s_pa s0) ->
  let K1 := with_dims K h in
  supervised_trial V K1 x y cover (fresh K1 s1) = Ok (tt, s2) ->
  (sh_n h * sh_y h <= len (s_pa s0) -> (forall cv, cover = Some cv -> len (s_pa s0) <= len cv) ->
   exists pa nr, supervised_trial_c V K1 x y cover s1 = Ok (tt, with_pa pa nr s2) /\
     len pa = len (s_pa s0) /\ len nr = len (s_pa s0) /\ firstn (Z.to_nat (sh_n h * sh_y h)) pa = s_pa s2) /\
  (len (s_pa s0) < sh_n h * sh_y h ->
   (forall s, matching V K1 x (is_none cover) s1 = Ok (tt, s) -> cover = None \/ 1 <= set_sz (s_mset s)) ->
   supervised_trial_c V K1 x y cover s1 = UB OutOfBounds).
Proof.
  intros L SH HN HY LN K1 T. destruct (C35_load_lemma K log2 _ _ _ _ _ _ L) as (P1 & P2). rewrite <- P1 in *. rewrite <- P2 in LN. split.
  - intros R C. exact (C35_room_lemma V K1 HN HY x y cover s1 s2 R LN C T).
  - intros R C. exact (C35_short_lemma V K1 HY x y cover cover s1 s2 R LN eq_refl T C).
Qed.
End Loaded.

(** ** A concrete system *)
(** The functions of one kind of rule as functions of another. *)
Definition vmap {A B} (f : A -> B) (g : B -> A) (V : vtab A) : vtab B :=
  let one (m : RM A) : RM B := (a <- m ;; ret (f a))%rng in
  let two {T} (m : RM (A * T)) : RM (B * T) := (r <- m ;; ret (f (fst r), snd r))%rng in
  let three {T} (m : RM (A * A * T)) : RM (B * B * T) := (r <- m ;; ret (f (fst (fst r)), f (snd (fst r)), snd r))%rng in
  mkVtab B (f (v_blank V))
    (fun b => one (v_cond_init V (g b))) (fun b => one (v_act_init V (g b))) (fun b => one (v_pred_init V (g b)))
    (fun b s => one (v_cond_copy V (g b) (g s))) (fun b s => one (v_act_copy V (g b) (g s))) (fun b s => one (v_pred_copy V (g b) (g s)))
    (fun b x => one (v_cond_cover V (g b) x)) (fun b x n => one (v_act_cover V (g b) x n))
    (fun b x => two (v_cond_match V (g b) x)) (fun b x => two (v_act_compute V (g b) x)) (fun b v x => two (v_pred_compute V (g b) v x))
    (fun b x y => one (v_cond_update V (g b) x y)) (fun b x y => one (v_act_update V (g b) x y)) (fun b e v x y => two (v_pred_update V (g b) e v x y))
    (fun a b => v_cond_general V (g a) (g b)) (fun a b => v_act_general V (g a) (g b))
    (fun a b => three (v_cond_crossover V (g a) (g b))) (fun a b => three (v_act_crossover V (g a) (g b))) (fun a b => three (v_pred_crossover V (g a) (g b)))
    (fun b => two (v_cond_mutate V (g b))) (fun b => two (v_act_mutate V (g b))) (fun b => two (v_pred_mutate V (g b)))
    (fun b => v_cond_size V (g b)) (fun b => v_pred_size V (g b)).
(** Hyperrectangles, integer actions and linear predictions as rules that can be saved. *)
Definition of_body (b : File.body) : payload rect actint nlms :=
  mkPay (match bd_cond b with VRect c => Some c | _ => None end) (match bd_act b with AInt a => Some a | _ => None end)
    (match bd_pred b with PNlms p => Some p | _ => None end).
Definition to_body (p : payload rect actint nlms) : File.body :=
  mkBody (match y_act p with Some a => AInt a | None => ARule end) (match y_pred p with Some q => PNlms q | None => PConst end)
    (match y_cond p with Some c => VRect c | None => VDummy end).
Definition body_tab (K : cfg) : vtab File.body := vmap to_body of_body (rect_tab K).

Definition wide_rule (num act : Z) (c : f64) : cl File.body :=
  mkCl (lit 1 10) (lit 3 10) num 12 (of_Z 3) 40 true [fhalf; f1] act 4 2
    (mkBody (AInt (mkAct act [fhalf])) (PNlms (mkNlms 3 [f1; c; f0; f1; c; f1] [lit 1 4] (lit 1 10) [f1; f1; f1])) (VRect (mkRect [c; f1] [f1; fhalf] [f1]))).
Definition wide_shape := mkShape 2 2 2 COND_TYPE_HYPERRECTANGLE_CSR 0 (mkPpar PRED_TYPE_NLMS_LINEAR true f1 f1 f1 f1 f1).
Definition wide_state := small_state [wide_rule 3 1 (lit 1 4); wide_rule 2 0 (lit 3 4)] [1; 0]%nat.
Definition K_of (h : shape) : cfg := with_dims K0 h.
Definition narrow_state := small_state [rule_b] [0]%nat.
Definition wide_file : list cell := match xcsf_save (small_sys 1 2 2) wide_state with Ok c => c | _ => [] end.
Definition wide_loaded : st File.body := match xcsf_load K0 small_log2 (small_sys 1 2 1) wide_file narrow_state with Ok (_, s) => s | _ => narrow_state end.
Definition narrow_file : list cell := match xcsf_save (small_sys 1 2 1) (small_state [rule_a; rule_b] [1; 0]%nat) with Ok c => c | _ => [] end.
Definition narrow_loaded : st File.body := match xcsf_load K0 small_log2 (small_sys 1 2 2) narrow_file wide_state with Ok (_, s) => s | _ => narrow_state end.
Lemma wide_savable : savable (small_sys 1 2 2).
Proof.
  constructor; try (eexists; split; [reflexivity|]; lia); try (eexists; reflexivity).
  - exists 3%nat. split; [reflexivity|]. cbn. lia.
  - exists 1. split; [reflexivity|]. unfold small_sys. cbn [y_constants]. unfold len. rewrite repeat_length. lia.
Qed.
Lemma wide_fits num act c : rule_fits K0 small_log2 wide_shape (wide_rule num act c).
Proof.
  assert (R : ~ (sh_cond wide_shape = RULE_TYPE_DGP \/ sh_cond wide_shape = RULE_TYPE_NEURAL)) by (intros [X|X]; discriminate X).
  split; [reflexivity|]. split; [split; [exact R|split; reflexivity]|]. split.
  - split; [left; reflexivity|]. repeat split.
  - split; [left; reflexivity|]. repeat split.
Qed.
Lemma shape_same y y0 y1 : params_restored y y0 y1 -> shape_of (y_par y1) = shape_of (y_par y).
Proof.
  intros (I & D & O & _). unfold shape_of, need_i, need_d, need_b. rewrite !I, !D, O by discriminate. reflexivity.
Qed.
Definition done {A} (r : outcome A) : bool := match r with Ok _ => true | _ => false end.
(** A file of a system with two outputs, loaded into one with one output: both are well-formed, a
    system created with the file's dimensions can predict, the loaded one writes outside of its
    prediction array. *)
Lemma C35_refuted_lemma : exists y s h rs y0 s0 cells y1 s1 x cover,
  savable y /\ savable y0 /\ shape_of (y_par y) = Ok h /\ population s rs /\ Forall (rule_fits K0 small_log2 h) rs /\ disposable s0 /\
  (exists h0, shape_of (y_par y0) = Ok h0 /\ len (s_pa s0) = sh_n h0 * sh_y h0 /\ len (s_nr s0) = sh_n h0 * sh_y h0 /\ len cover = sh_n h0 * sh_y h0) /\
  xcsf_save y s = Ok cells /\ xcsf_load K0 small_log2 y0 cells s0 = Ok ((y1, []), s1) /\ shape_of (y_par y1) = Ok h /\
  let K1 := with_dims K0 h in
  done (supervised_trial (body_tab K1) K1 x [] (Some (Pop.zeros (sh_n h * sh_y h))) (with_explore false (fresh K1 s1))) = true /\
  supervised_trial_c (body_tab K1) K1 x [] (Some cover) (with_explore false s1) = UB OutOfBounds.
Proof.
  destruct (C34_lemma K0 small_log2 (small_sys 1 2 2) (small_sys 1 2 1) wide_state narrow_state wide_shape [wide_rule 2 0 (lit 3 4); wide_rule 3 1 (lit 1 4)]) as (cells & E & L).
  - exact wide_savable.
  - intros n N. cbn in N. injection N as <-. unfold len. cbn [small_sys y_constants]. rewrite repeat_length. lia.
  - reflexivity.
  - split; [reflexivity|]. split; reflexivity.
  - apply Forall_cons; [apply wide_fits|]. apply Forall_cons; [apply wide_fits|apply Forall_nil].
  - exact small_disposable.
  - assert (C : xcsf_save (small_sys 1 2 2) wide_state = Ok wide_file) by (unfold wide_file; rewrite E; reflexivity).
    assert (W : cells = wide_file) by (unfold wide_file; rewrite E; reflexivity). rewrite W in L. clear W E. destruct (L []) as (y1 & s1 & LD & PR & _). rewrite app_nil_r in LD.
    exists (small_sys 1 2 2), wide_state, wide_shape, [wide_rule 2 0 (lit 3 4); wide_rule 3 1 (lit 1 4)], (small_sys 1 2 1), narrow_state, wide_file, y1, s1, [fhalf; f1], [f0; f0].
    split; [exact wide_savable|]. split; [apply small_savable; lia|]. split; [reflexivity|]. split; [split; [reflexivity|]; split; reflexivity|].
    split; [apply Forall_cons; [apply wide_fits|]; apply Forall_cons; [apply wide_fits|apply Forall_nil]|]. split; [exact small_disposable|].
    split; [exists small_shape; repeat split|]. split; [exact C|]. split; [exact LD|].
    assert (S1 : s1 = wide_loaded) by (unfold wide_loaded; rewrite LD; reflexivity).
    split; [exact (shape_same _ _ _ PR)|]. cbv zeta. rewrite S1. split; vm_compute; reflexivity.
Qed.
