(** * Predictions with the prediction array as allocated. *)
From Coq Require Import ZArith Bool List Lia.
From Verif Require Import Outcome F64 Rng Pop PopSpec PopPA Arr ArrFacts Pa.
Import ListNotations.
Open Scope Z_scope.

(** ** Operations that neither read nor write the prediction array. *)
Section NoPa.
Context {B : Type}.
Definition nopa {A} (m : M B A) : Prop := forall a b s,
  m (with_pa a b s) = match m s with Ok (r, s') => Ok (r, with_pa a b s') | Exit => Exit | UB w => UB w | OutOfFuel => OutOfFuel end.
Lemma np_ret {A} (a : A) : nopa (mret a). Proof. intros p q s. reflexivity. Qed.
Lemma np_bind {A C} (m : M B A) (k : A -> M B C) : nopa m -> (forall a, nopa (k a)) -> nopa (mbind m k).
Proof. intros H F a b s. unfold mbind. rewrite H. destruct (m s) as [[r s']| | |]; [apply F|reflexivity..]. Qed.
Lemma np_exit {A} : nopa (A := A) mexit. Proof. intros p q s. reflexivity. Qed.
Lemma np_ub {A} k : nopa (A := A) (mub k). Proof. intros p q s. reflexivity. Qed.
Lemma np_fuel {A} : nopa (A := A) mfuel. Proof. intros p q s. reflexivity. Qed.
Lemma np_get {A} (f : st B -> A) : (forall a b s, f (with_pa a b s) = f s) -> nopa (mget f).
Proof. intros H p q s. unfold mget. now rewrite H. Qed.
Lemma np_mod (f : st B -> st B) : (forall a b s, f (with_pa a b s) = with_pa a b (f s)) -> nopa (mmod f).
Proof. intros H p q s. unfold mmod. now rewrite H. Qed.
Lemma np_rand {A} (r : RM A) : nopa (mrand r).
Proof. intros p q s. unfold mrand. cbn [s_rng with_pa]. destruct (r (s_rng s)) as [[a g]| | |]; reflexivity. Qed.
Lemma np_lift {A} (o : outcome A) : nopa (mlift o).
Proof. intros p q s. unfold mlift. destruct o; reflexivity. Qed.
Lemma np_cell l : nopa (get l).
Proof. intros p q s. unfold get. cbn [s_heap with_pa]. destruct (s_heap s l); reflexivity. Qed.
Lemma np_put l c : nopa (put l c).
Proof. intros p q s. unfold put. cbn [s_heap with_pa]. destruct (s_heap s l); reflexivity. Qed.
Lemma np_alloc c : nopa (alloc c). Proof. intros p q s. reflexivity. Qed.
Lemma np_free l : nopa (cl_free l).
Proof. intros p q s. unfold cl_free. cbn [s_heap with_pa]. destruct (s_heap s l); reflexivity. Qed.
Lemma np_if {A} (b : bool) (m k : M B A) : nopa m -> nopa k -> nopa (if b then m else k).
Proof. destruct b; auto. Qed.
Lemma np_iter {A} (f : A -> M B unit) l : (forall x, nopa (f x)) -> nopa (miter f l).
Proof. intros H. induction l as [|x l IH]; [apply np_ret|]. apply np_bind; [apply H|]. intros _. exact IH. Qed.
Lemma np_all ls : nopa (get_all ls).
Proof. induction ls as [|l r IH]; [apply np_ret|]. apply np_bind; [apply np_cell|]. intros c. apply np_bind; [exact IH|]. intros cs. apply np_ret. Qed.
Lemma np_set w x : nopa (mmod (with_set w x)). Proof. apply np_mod. reflexivity. Qed.
Lemma np_getset w : nopa (mget (get_set w)). Proof. apply np_get. destruct w; reflexivity. Qed.

(** What is left of the arrays afterwards. *)
Lemma nopa_keeps {A} (m : M B A) s r s' : nopa m -> m s = Ok (r, s') -> s_pa s' = s_pa s /\ s_nr s' = s_nr s.
Proof.
  intros H E. specialize (H (s_pa s) (s_nr s) s). replace (with_pa (s_pa s) (s_nr s) s) with s in H by (destruct s; reflexivity).
  rewrite E in H. injection H as ->. split; reflexivity.
Qed.
Context (V : vtab B) (K : cfg).
Ltac np := repeat (intros; match goal with
  | |- nopa (mret _) => apply np_ret
  | |- nopa mexit => apply np_exit
  | |- nopa (mub _) => apply np_ub
  | |- nopa mfuel => apply np_fuel
  | |- nopa (mrand _) => apply np_rand
  | |- nopa (mlift _) => apply np_lift
  | |- nopa (get _) => apply np_cell
  | |- nopa (put _ _) => apply np_put
  | |- nopa (alloc _) => apply np_alloc
  | |- nopa (cl_free _) => apply np_free
  | |- nopa (get_all _) => apply np_all
  | |- nopa (miter _ _) => apply np_iter
  | |- nopa (mmod (with_set _ _)) => apply np_set
  | |- nopa (mget (get_set _)) => apply np_getset
  | |- nopa (mget _) => apply np_get; reflexivity
  | |- nopa (mmod _) => apply np_mod; reflexivity
  | |- nopa (mbind _ _) => apply np_bind
  | |- nopa (if _ then _ else _) => apply np_if
  | |- nopa (let '(_, _) := ?r in _) => destruct r
  | |- nopa (match ?r with Some _ => _ | None => _ end) => destruct r
  end); intros.
Lemma np_init w : nopa (clset_init w). Proof. unfold clset_init. np. Qed.
Lemma np_add w l : nopa (clset_add w l). Proof. unfold clset_add. np. Qed.
Lemma np_modify l f : nopa (modify l f). Proof. unfold modify. np. Qed.
Lemma np_modrand l f : nopa (modify_rand l f). Proof. unfold modify_rand. np. Qed.
Lemma np_del : nopa (clset_pset_del V K).
Proof. unfold clset_pset_del. np; try apply np_modify; np; apply np_add. Qed.
Lemma np_enforce n : nopa (enforce_loop V K n).
Proof. induction n as [|n IH]; cbn [enforce_loop]; np; [apply np_del|exact IH]. Qed.
Lemma np_alive ls : nopa (keep_alive ls).
Proof. induction ls as [|l r IH]; cbn [keep_alive]; np. exact IH. Qed.
Lemma np_validate w : nopa (clset_validate w).
Proof. unfold clset_validate. np; apply np_alive. Qed.
Lemma np_coverage : nopa (action_coverage K).
Proof. unfold action_coverage. np. Qed.
Lemma np_actions x cov : forall i, nopa (cover_actions V K x cov i).
Proof. induction cov as [|b r IH]; intros i; cbn [cover_actions]; np; try apply np_add; np. apply IH. Qed.
Lemma np_loop x n : forall a cov c, nopa (cover_loop V K n x a cov c).
Proof.
  induction n as [|n IH]; intros a cov c; cbn [cover_loop]; np; try apply np_actions; try apply IH.
  - unfold clset_pset_enforce_limit. np. apply np_enforce.
  - apply np_validate.
  - apply np_coverage.
Qed.
Lemma np_cover x : nopa (clset_cover V K x).
Proof. unfold clset_cover. apply np_bind; [apply np_coverage|]. intros [cov c]. apply np_loop. Qed.
Lemma np_match x cover : nopa (clset_match V K x cover).
Proof.
  unfold clset_match. np; try apply np_cover. unfold match_one. np; try apply np_modrand; try apply np_add.
Qed.
End NoPa.

(** ** The arrays *)
Lemma add_at_app a i v a' z : add_at a i v = Some a' -> add_at (a ++ z) i v = Some (a' ++ z).
Proof.
  revert i a'. induction a as [|x a IH]; intros i a' E; [destruct i; discriminate E|]. destruct i as [|i]; cbn [add_at app] in *.
  - injection E as <-. reflexivity.
  - destruct (add_at a i v) as [r|] eqn:X; [|discriminate E]. injection E as <-. now rewrite (IH i r X).
Qed.
Lemma add_atZ_app a i v a' z : add_atZ a i v = Ok a' -> add_atZ (a ++ z) i v = Ok (a' ++ z).
Proof.
  unfold add_atZ. destruct (i <? 0); [discriminate|]. destruct (add_at a (Z.to_nat i) v) as [r|] eqn:X; [|discriminate].
  intros E. injection E as <-. now rewrite (add_at_app _ _ _ _ z X).
Qed.
Lemma pa_add_app fit preds z z' : forall k pa nr pa' nr', pa_add fit preds k pa nr = Ok (pa', nr') ->
  pa_add fit preds k (pa ++ z) (nr ++ z') = Ok (pa' ++ z, nr' ++ z').
Proof.
  induction preds as [|p r IH]; intros k pa nr pa' nr'; cbn [pa_add]; [intros E; injection E as <- <-; reflexivity|].
  destruct (add_atZ pa k (fmul p fit)) as [a| | |] eqn:E1; try discriminate. cbn [obind].
  destruct (add_atZ nr k fit) as [b| | |] eqn:E2; try discriminate. cbn [obind]. intros E.
  rewrite (add_atZ_app _ _ _ _ z E1). cbn [obind]. rewrite (add_atZ_app _ _ _ _ z' E2). cbn [obind]. now apply IH.
Qed.
Lemma pa_accum_app {B} K z z' (cs : list (cl B)) : forall pa nr pa' nr', pa_accum K cs pa nr = Ok (pa', nr') ->
  pa_accum K cs (pa ++ z) (nr ++ z') = Ok (pa' ++ z, nr' ++ z').
Proof.
  induction cs as [|c r IH]; intros pa nr pa' nr'; cbn [pa_accum]; [intros E; injection E as <- <-; reflexivity|].
  destruct (Z.of_nat (length (c_prediction c)) <? y_dim K); [discriminate|].
  match goal with |- context [pa_add ?f ?p ?k pa nr] => destruct (pa_add f p k pa nr) as [[a b]| | |] eqn:E1; try discriminate; cbn [obind]; intros E; rewrite (pa_add_app f p z z' k pa nr a b E1) end.
  cbn [obind]. now apply IH.
Qed.
Lemma add_at_len a i v a' : add_at a i v = Some a' -> length a' = length a.
Proof.
  revert i a'. induction a as [|x a IH]; intros i a' E; [destruct i; discriminate E|]. destruct i as [|i]; cbn [add_at] in E.
  - injection E as <-. reflexivity.
  - destruct (add_at a i v) as [r|] eqn:X; [|discriminate E]. injection E as <-. cbn [length]. now rewrite (IH i r X).
Qed.
Lemma add_atZ_cases a i v : (exists a', add_atZ a i v = Ok a' /\ length a' = length a) \/ add_atZ a i v = UB OutOfBounds.
Proof.
  unfold add_atZ. destruct (i <? 0); [right; reflexivity|]. destruct (add_at a (Z.to_nat i) v) as [r|] eqn:X; [|right; reflexivity].
  left. exists r. split; [reflexivity|]. eapply add_at_len; exact X.
Qed.
Lemma pa_add_cases fit preds : forall k pa nr, (exists pa' nr', pa_add fit preds k pa nr = Ok (pa', nr') /\ length pa' = length pa /\ length nr' = length nr) \/
  pa_add fit preds k pa nr = UB OutOfBounds.
Proof.
  induction preds as [|p r IH]; intros k pa nr; cbn [pa_add]; [left; exists pa, nr; auto|].
  destruct (add_atZ_cases pa k (fmul p fit)) as [(a & -> & La)| ->]; [cbn [obind]|right; reflexivity].
  destruct (add_atZ_cases nr k fit) as [(b & -> & Lb)| ->]; [cbn [obind]|right; reflexivity].
  destruct (IH (k + 1) a b) as [(a' & b' & -> & H1 & H2)| ->]; [|right; reflexivity]. left. exists a', b'. split; [reflexivity|]. lia.
Qed.
Lemma pa_accum_cases {B} K (cs : list (cl B)) : forall pa nr, (exists pa' nr', pa_accum K cs pa nr = Ok (pa', nr') /\ length pa' = length pa /\ length nr' = length nr) \/
  pa_accum K cs pa nr = UB OutOfBounds.
Proof.
  induction cs as [|c r IH]; intros pa nr; cbn [pa_accum]; [left; exists pa, nr; auto|].
  destruct (Z.of_nat (length (c_prediction c)) <? y_dim K); [right; reflexivity|].
  match goal with |- context [pa_add ?f ?p ?k pa nr] => destruct (pa_add_cases f p k pa nr) as [(a & b & -> & La & Lb)| ->]; [cbn [obind]|right; reflexivity] end.
  destruct (IH a b) as [(a' & b' & -> & H1 & H2)| ->]; [|right; reflexivity]. left. exists a', b'. split; [reflexivity|]. lia.
Qed.

(** The final division: defined exactly when there is room for all actions and outputs. *)
Section Divide.
Context (K : cfg).
Let n := n_actions K.
Let y := y_dim K.
Definition quotient (pa nr : list f64) (k : Z) : f64 := if fne (at_ f0 nr k) f0 then fdiv (at_ f0 pa k) (at_ f0 nr k) else f0.
Lemma divide_row pa0 nr i pa : 0 <= i -> 0 <= y -> i * y + y <= len nr -> len pa = len nr -> (forall k, i * y <= k < i * y + y -> at_ f0 pa k = at_ f0 pa0 k) ->
  exists pa', ofor y (fun j pa => let k := i * y + j in (n <- rd nr k ;; if fne n f0 then p <- rd pa k ;; wr pa k (fdiv p n) else wr pa k f0)%out) pa = Ok pa' /\
    len pa' = len pa /\ forall k, 0 <= k -> at_ f0 pa' k = if (i * y <=? k) && (k <? i * y + y) then quotient pa0 nr k else at_ f0 pa k.
Proof.
  intros Hi Hy L LP SAME.
  destruct (ofor_ind (fun j pa' => len pa' = len pa /\ forall k, 0 <= k -> at_ f0 pa' k = if (i * y <=? k) && (k <? i * y + j) then quotient pa0 nr k else at_ f0 pa k)
    (fun j pa => let k := i * y + j in (n <- rd nr k ;; if fne n f0 then p <- rd pa k ;; wr pa k (fdiv p n) else wr pa k f0)%out) y pa Hy) as (pa' & E & H).
  - split; [reflexivity|]. intros k _. destruct (Z.leb_spec (i * y) k), (Z.ltb_spec k (i * y + 0)); cbn [andb]; try lia; reflexivity.
  - intros j q Hj (Lq & Hq). cbv zeta. rewrite (rd_ok f0) by nia. cbn [obind].
    assert (STEP : forall v, v = quotient pa0 nr (i * y + j) -> exists q', wr q (i * y + j) v = Ok q' /\
      len q' = len pa /\ forall k, 0 <= k -> at_ f0 q' k = if (i * y <=? k) && (k <? i * y + (j + 1)) then quotient pa0 nr k else at_ f0 pa k).
    { intros v ->. destruct (wr_ok q (i * y + j) (quotient pa0 nr (i * y + j)) ltac:(nia)) as (q' & E & (WL & WA & WO & _)). exists q'. split; [exact E|]. split; [lia|].
      intros k Hk. destruct (Z.eq_dec k (i * y + j)) as [->|D].
      - rewrite WA. destruct (Z.leb_spec (i * y) (i * y + j)), (Z.ltb_spec (i * y + j) (i * y + (j + 1))); try lia; reflexivity.
      - rewrite WO by (exact Hk || exact D). rewrite Hq by exact Hk. destruct (Z.leb_spec (i * y) k), (Z.ltb_spec k (i * y + j)), (Z.ltb_spec k (i * y + (j + 1))); try lia; reflexivity. }
    unfold quotient in STEP. destruct (fne (at_ f0 nr (i * y + j)) f0) eqn:X.
    + rewrite (rd_ok f0) by nia. cbn [obind]. apply STEP. try rewrite X. f_equal.
      rewrite Hq by nia. destruct (Z.leb_spec (i * y) (i * y + j)), (Z.ltb_spec (i * y + j) (i * y + j)); try lia. cbn [andb]. apply SAME. lia.
    + apply STEP. try rewrite X. reflexivity.
  - exists pa'. split; [exact E|exact H].
Qed.
Lemma divide_ok pa nr : 0 <= n -> 0 <= y -> len nr = len pa -> n * y <= len pa ->
  exists pa', pa_divide K pa nr = Ok pa' /\ len pa' = len pa /\
    forall k, 0 <= k -> at_ f0 pa' k = if k <? n * y then quotient pa nr k else at_ f0 pa k.
Proof.
  intros Hn Hy LN L. unfold pa_divide. fold n y.
  destruct (ofor_ind (fun i pa' => len pa' = len pa /\ forall k, 0 <= k -> at_ f0 pa' k = if k <? i * y then quotient pa nr k else at_ f0 pa k)
    (fun i pa => ofor y (fun j pa => let k := i * y + j in (n <- rd nr k ;; if fne n f0 then p <- rd pa k ;; wr pa k (fdiv p n) else wr pa k f0)%out) pa) n pa Hn) as (pa' & E & H).
  - split; [reflexivity|]. intros k Hk. destruct (Z.ltb_spec k (0 * y)); [lia|reflexivity].
  - intros i q Hi (Lq & Hq).
    destruct (divide_row pa nr i q) as (q' & E & L' & H'); [lia|lia|nia|lia| |].
    { intros k Hk. rewrite Hq by nia. destruct (Z.ltb_spec k (i * y)); [lia|reflexivity]. }
    exists q'. split; [exact E|]. split; [lia|]. intros k Hk. rewrite H' by exact Hk. rewrite Hq by exact Hk.
    destruct (Z.leb_spec (i * y) k), (Z.ltb_spec k (i * y + y)), (Z.ltb_spec k (i * y)), (Z.ltb_spec k ((i + 1) * y)); cbn [andb]; try nia; reflexivity.
  - exists pa'. split; [exact E|exact H].
Qed.
(** A loop with a failing step. *)
Lemma ofor_bad {S} (I : S -> Prop) (f : Z -> S -> outcome S) m s : (forall i s, 0 <= i < m -> I s -> (exists s', f i s = Ok s' /\ I s') \/ f i s = UB OutOfBounds) ->
  I s -> (exists s', ofor m f s = Ok s' /\ I s' /\ forall i, 0 <= i < m -> exists s0 s1, I s0 /\ f i s0 = Ok s1) \/ ofor m f s = UB OutOfBounds.
Proof.
  intros H I0. unfold ofor.
  assert (G : forall c i s, I s -> 0 <= i -> i + Z.of_nat c <= m \/ c = O -> (exists s', oloop c i f s = Ok s' /\ I s' /\ forall j, i <= j < i + Z.of_nat c -> exists s0 s1, I s0 /\ f j s0 = Ok s1) \/ oloop c i f s = UB OutOfBounds).
  { induction c as [|c IH]; intros i u Iu Hi Hc; cbn [oloop].
    - left. exists u. split; [reflexivity|]. split; [exact Iu|]. intros j Hj. lia.
    - destruct (H i u ltac:(lia) Iu) as [(u' & E & Iu')|E]; rewrite E; cbn [obind]; [|right; reflexivity].
      destruct (IH (i + 1) u' Iu' ltac:(lia) ltac:(lia)) as [(s' & E' & Is' & A)|E']; [|right; exact E']. left. exists s'. split; [exact E'|]. split; [exact Is'|].
      intros j Hj. destruct (Z.eq_dec j i) as [->|]; [exists u, u'; auto|apply A; lia]. }
  destruct (Z.le_gt_cases m 0) as [M0|M0].
  - replace (Z.to_nat m) with O by lia. left. exists s. split; [reflexivity|]. split; [exact I0|]. intros i Hi. lia.
  - destruct (G (Z.to_nat m) 0 s I0 ltac:(lia) ltac:(lia)) as [(s' & E & Is & A)|E]; [|right; exact E]. left. exists s'. split; [exact E|]. split; [exact Is|]. intros i Hi. apply A. lia.
Qed.
Lemma divide_bad pa nr : 0 < y -> len nr = len pa -> len pa < n * y -> pa_divide K pa nr = UB OutOfBounds.
Proof.
  intros Hy LN L. unfold pa_divide. fold n y. set (m := len pa) in *.
  set (cell := fun k (pa : list f64) => (n <- rd nr k ;; if fne n f0 then p <- rd pa k ;; wr pa k (fdiv p n) else wr pa k f0)%out).
  assert (C : forall k q, 0 <= k -> len q = m -> (exists q', cell k q = Ok q' /\ len q' = m) \/ cell k q = UB OutOfBounds).
  { intros k q Hk Lq. unfold cell. destruct (Z.lt_ge_cases k m).
    - left. rewrite !(rd_ok f0) by lia. cbn [obind]. destruct (fne (at_ f0 nr k) f0);
        match goal with |- context [wr q k ?v] => destruct (wr_ok q k v ltac:(lia)) as (q' & -> & (WL & _)) end; exists q'; split; [reflexivity|lia|reflexivity|lia].
    - right. rewrite rd_out by lia. reflexivity. }
  assert (R : forall i q, 0 <= i -> len q = m -> (exists q', ofor y (fun j q => cell (i * y + j) q) q = Ok q' /\ len q' = m /\ forall j, 0 <= j < y -> exists a b, len a = m /\ cell (i * y + j) a = Ok b) \/
     ofor y (fun j q => cell (i * y + j) q) q = UB OutOfBounds).
  { intros i q Hi Lq. apply (ofor_bad (fun q => len q = m)); [|exact Lq]. intros j u Hj Lu. apply C; [nia|exact Lu]. }
  destruct (ofor_bad (fun q => len q = m) (fun i q => ofor y (fun j q => cell (i * y + j) q) q) n pa) as [(q & _ & _ & A)|E]; [|reflexivity| |exact E].
  - intros i u Hi Lu. destruct (R i u ltac:(lia) Lu) as [(q' & E & L' & _)|E]; [left; exists q'; auto|right; exact E].
  - exfalso. assert (M0 : 0 <= m) by (unfold m, len; lia). assert (N0 : 0 < n) by nia. destruct (A (n - 1)) as (s0 & s1 & L0 & E0); [lia|]. destruct (R (n - 1) s0 ltac:(lia) L0) as [(_ & _ & _ & Z0)|E']; [|congruence].
    destruct (Z0 (y - 1) ltac:(lia)) as (a & b & La & Eb). unfold cell in Eb. rewrite rd_out in Eb by (replace ((n - 1) * y + (y - 1)) with (n * y - 1) by ring; lia). discriminate Eb.
Qed.
End Divide.

(** ** Building the prediction array. *)
Section Build.
Context {B : Type} (V : vtab B) (K : cfg).
Hypothesis (HN : 1 <= n_actions K) (HY : 1 <= y_dim K).
Let ny := n_actions K * y_dim K.

Definition pad (m : Z) : list f64 := repeat f0 (Z.to_nat (m - ny)).
Lemma repeat_split {T} (a : T) p q : repeat a (p + q) = repeat a p ++ repeat a q.
Proof. induction p as [|p IH]; [reflexivity|]. cbn. now rewrite IH. Qed.

(** Up to the arrays both models do the same. *)
Lemma build_parts x s : let P := (ms <~ mget s_mset ;; miter (fun l => modify_rand l (fun c => cl_predict V c x)) (set_list ms) ;;; get_all (set_list ms)) in
  pa_build V K x s = match P s with
    | Ok (cs, s1) => match pa_accum K cs (zeros ny) (zeros ny) with Ok (pa, nr) => Ok (tt, with_pa (pa_norm pa nr) nr s1) | Exit => Exit | UB w => UB w | OutOfFuel => OutOfFuel end
    | Exit => Exit | UB w => UB w | OutOfFuel => OutOfFuel end /\
  pa_build_c V K x s = match P s with
    | Ok (cs, s1) => match pa_accum K cs (repeat f0 (length (s_pa s))) (repeat f0 (length (s_nr s))) with
        | Ok (pa, nr) => match pa_divide K pa nr with Ok pa' => Ok (tt, with_pa pa' nr s1) | Exit => Exit | UB w => UB w | OutOfFuel => OutOfFuel end
        | Exit => Exit | UB w => UB w | OutOfFuel => OutOfFuel end
    | Exit => Exit | UB w => UB w | OutOfFuel => OutOfFuel end.
Proof.
  cbv zeta. split.
  - unfold pa_build, mbind, mget. destruct (miter _ _ s) as [[[] s1]| | |]; [|reflexivity..]. destruct (get_all _ s1) as [[cs s2]| | |]; [|reflexivity..].
    unfold mlift. fold ny. change (pa_size K) with ny. destruct (pa_accum K cs (zeros ny) (zeros ny)) as [[pa nr]| | |]; reflexivity.
  - unfold pa_build_c, pa_reset. set (a := repeat f0 (length (s_pa s))). set (b := repeat f0 (length (s_nr s))).
    unfold mbind, mget, mmod. cbn [s_mset]. fold a b.
    rewrite (np_iter (fun l => modify_rand l (fun c => cl_predict V c x)) (set_list (s_mset s)) (fun l => np_modrand l _) a b s).
    destruct (miter _ _ s) as [[[] s1]| | |]; [|reflexivity..]. rewrite (np_all (set_list (s_mset s)) a b s1). destruct (get_all _ s1) as [[cs s2]| | |]; [|reflexivity..].
    cbn [s_pa s_nr with_pa]. unfold mlift. destruct (pa_accum K cs a b) as [[pa nr]| | |]; [|reflexivity..].
    destruct (pa_divide K pa nr); reflexivity.
Qed.

(** Enough room: the same result, padded with zeros. *)
Lemma build_room x s s' : len (s_nr s) = len (s_pa s) -> ny <= len (s_pa s) -> pa_build V K x s = Ok (tt, s') ->
  pa_build_c V K x s = Ok (tt, with_pa (s_pa s' ++ pad (len (s_pa s))) (s_nr s' ++ pad (len (s_pa s))) s').
Proof.
  intros LN L E. destruct (build_parts x s) as (E1 & E2). rewrite E1 in E. rewrite E2. clear E1 E2.
  match type of E with match ?q with _ => _ end = _ => destruct q as [[cs s1]| | |]; try discriminate end.
  destruct (pa_accum_cases K cs (zeros ny) (zeros ny)) as [(pa & nr & X & La & Lb)|X]; rewrite X in E; [|discriminate].
  injection E as <-. unfold len in LN, L. assert (Hny : 0 <= ny) by (unfold ny; nia).
  assert (RZ : repeat f0 (length (s_pa s)) = zeros ny ++ pad (len (s_pa s))).
  { unfold zeros, pad, len. rewrite <- repeat_split. f_equal. lia. }
  replace (length (s_nr s)) with (length (s_pa s)) by lia. rewrite RZ, (pa_accum_app K _ _ cs _ _ _ _ X).
  assert (L1 : length pa = Z.to_nat ny) by (rewrite La; apply repeat_length). assert (L2 : length nr = Z.to_nat ny) by (rewrite Lb; apply repeat_length).
  set (z := pad (len (s_pa s))). destruct (divide_ok K (pa ++ z) (nr ++ z)) as (pa' & -> & LP & H); [lia|lia| | |].
  { unfold len. rewrite !app_length. lia. } { unfold len. rewrite app_length. fold ny. lia. }
  cbn [s_pa s_nr with_pa]. f_equal. f_equal. 
  replace pa' with (pa_norm pa nr ++ z); [destruct s1; reflexivity|].
  assert (LL : length (pa_norm pa nr) = length pa) by (apply pa_norm_len; lia).
  apply (list_ext f0); [rewrite LP; unfold len; rewrite !app_length, LL; reflexivity|].
  intros k Hk. unfold len in Hk. rewrite app_length, LL in Hk. rewrite H by lia. unfold at_, quotient, at_. fold ny. destruct (Z.ltb_spec k ny).
  - rewrite !app_nth1 by lia. rewrite pa_norm_nth by lia. unfold fne, feq. destruct (BinarySingleNaN.Beqb (nth (Z.to_nat k) nr f0) f0); reflexivity.
  - rewrite !app_nth2 by lia. rewrite LL. reflexivity.
Qed.
(** Not enough room: a write outside of the array. *)
Lemma build_short x s s' : len (s_nr s) = len (s_pa s) -> len (s_pa s) < ny -> pa_build V K x s = Ok (tt, s') ->
  pa_build_c V K x s = UB OutOfBounds.
Proof.
  intros LN L E. destruct (build_parts x s) as (E1 & E2). rewrite E1 in E. rewrite E2. clear E1 E2.
  match type of E with match ?q with _ => _ end = _ => destruct q as [[cs s1]| | |]; try discriminate end.
  destruct (pa_accum_cases K cs (repeat f0 (length (s_pa s))) (repeat f0 (length (s_nr s)))) as [(pa & nr & X & La & Lb)|X]; rewrite X; [|reflexivity].
  rewrite repeat_length in La, Lb. rewrite divide_bad; [reflexivity|lia| |]; unfold len in *; fold ny; lia.
Qed.
(** In a system that keeps its dimensions nothing is different. *)
Lemma build_same x s : len (s_pa s) = ny -> len (s_nr s) = ny -> pa_build_c V K x s = pa_build V K x s.
Proof.
  intros LP LN. destruct (build_parts x s) as (E1 & E2). destruct (pa_build V K x s) as [[[] s']| | |] eqn:E.
  - rewrite (build_room x s s') by (assumption || lia). rewrite LP. unfold pad. replace (Z.to_nat (ny - ny)) with O by lia. cbn [repeat]. rewrite !app_nil_r. destruct s'; reflexivity.
  - rewrite E2. match type of E1 with _ = match ?q with _ => _ end => destruct q as [[cs s1]| | |]; try discriminate; [|reflexivity] end.
    exfalso. destruct (pa_accum_cases K cs (zeros ny) (zeros ny)) as [(pa & nr & X & _)|X]; rewrite X in E1; discriminate.
  - rewrite E2. match type of E1 with _ = match ?q with _ => _ end => destruct q as [[cs s1]| | |]; try discriminate; [|congruence] end.
    replace (length (s_pa s)) with (Z.to_nat ny) by (unfold len in LP; lia). replace (length (s_nr s)) with (Z.to_nat ny) by (unfold len in LN; lia). fold (zeros ny).
    destruct (pa_accum_cases K cs (zeros ny) (zeros ny)) as [(pa & nr & X & _)|X]; rewrite X in E1 |- *; [discriminate|]. congruence.
  - rewrite E2. match type of E1 with _ = match ?q with _ => _ end => destruct q as [[cs s1]| | |]; try discriminate; [|reflexivity] end.
    exfalso. destruct (pa_accum_cases K cs (zeros ny) (zeros ny)) as [(pa & nr & X & _)|X]; rewrite X in E1; discriminate.
Qed.
Lemma trial_same x y cover s : len (s_pa s) = ny -> len (s_nr s) = ny ->
  supervised_trial_c V K x y cover s = supervised_trial V K x y cover s.
Proof.
  intros LP LN. unfold supervised_trial_c, supervised_trial, clset_init. set (s0 := with_set KSET empty_set (with_set MSET empty_set s)).
  assert (L0 : len (s_pa s0) = ny /\ len (s_nr s0) = ny) by (split; assumption).
  unfold mbind at 1, mmod at 1. unfold mbind at 1, mmod at 1. symmetry. unfold mbind at 1, mmod at 1. unfold mbind at 1, mmod at 1. symmetry.
  change (with_set KSET empty_set (with_set MSET empty_set s)) with s0.
  match goal with |- mbind ?m1 ?k s0 = mbind ?m2 ?k s0 => assert (H : m1 s0 = m2 s0); [|unfold mbind at 1; rewrite H; reflexivity] end.
  destruct cover as [cv|].
  - unfold mbind at 1. symmetry. unfold mbind at 1. destruct (clset_match V K x false s0) as [[[] s1]| | |] eqn:E; [|reflexivity..].
    destruct (nopa_keeps _ _ _ _ (np_match V K x false) E) as (P1 & P2). unfold mbind, mget. destruct (set_sz (s_mset s1) <? 1).
    + rewrite P1. unfold mmod, mub. change (pa_size K) with ny. destruct L0 as (L0 & _). unfold len in L0.
      replace (Z.to_nat ny) with (length (s_pa s0)) by lia.
      destruct (Z.ltb_spec (Z.of_nat (length cv)) ny), (Nat.ltb_spec (length cv) (length (s_pa s0))); try lia; reflexivity.
    + symmetry. apply build_same; [rewrite P1|rewrite P2]; apply L0.
  - unfold mbind at 1. symmetry. unfold mbind at 1. destruct (clset_match V K x true s0) as [[[] s1]| | |] eqn:E; [|reflexivity..].
    destruct (nopa_keeps _ _ _ _ (np_match V K x true) E) as (P1 & P2). symmetry. apply build_same; [rewrite P1|rewrite P2]; apply L0.
Qed.
End Build.
