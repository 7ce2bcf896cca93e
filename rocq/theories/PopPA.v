(** * The prediction array and action selection. *)
From Coq Require Import ZArith Bool List Reals Lia Lra Permutation.
From Flocq Require Import Core BinarySingleNaN.
From Verif Require Import Outcome F64 F64Facts F64Bounds Rng RngFacts Pop PopSpec PopInv PopSel PopDel PopCover PopMatch PopUpdate.
Import ListNotations.
Open Scope Z_scope.

(** ** Array updates. *)
Lemma add_at_spec a i v : (i < length a)%nat -> exists a', add_at a i v = Some a' /\
  length a' = length a /\ forall j, nth j a' f0 = if Nat.eqb j i then fadd (nth i a f0) v else nth j a f0.
Proof.
  revert i. induction a as [|x a IH]; intros i H; cbn [length] in H; [lia|]. destruct i as [|i]; cbn [add_at].
  - eexists. spl; [reflexivity|reflexivity|]. intros [|j]; reflexivity.
  - destruct (IH i) as (a' & E & L & Hn); [lia|]. rewrite E. eexists. spl; [reflexivity|cbn [length]; lia|].
    intros [|j]; [reflexivity|]. cbn [nth Nat.eqb]. apply Hn.
Qed.
Lemma add_at_None a i v : (length a <= i)%nat -> add_at a i v = None.
Proof.
  revert i. induction a as [|x a IH]; intros i H; [destruct i; reflexivity|]. cbn [length] in H.
  destruct i as [|i]; [lia|]. cbn [add_at]. rewrite IH by lia. reflexivity.
Qed.

Lemma pa_add_spec fit preds k pa nr : 0 <= k -> length nr = length pa ->
  k + Z.of_nat (length preds) <= Z.of_nat (length pa) ->
  exists pa' nr', pa_add fit preds k pa nr = Ok (pa', nr') /\
    length pa' = length pa /\ length nr' = length pa /\
    forall j, 0 <= j ->
      nth (Z.to_nat j) pa' f0 = (if (k <=? j) && (j <? k + Z.of_nat (length preds))
         then fadd (nth (Z.to_nat j) pa f0) (fmul (nth (Z.to_nat (j - k)) preds f0) fit) else nth (Z.to_nat j) pa f0) /\
      nth (Z.to_nat j) nr' f0 = (if (k <=? j) && (j <? k + Z.of_nat (length preds))
         then fadd (nth (Z.to_nat j) nr f0) fit else nth (Z.to_nat j) nr f0).
Proof.
  revert k pa nr. induction preds as [|p r IH]; intros k pa nr K0 LN H; cbn [pa_add].
  - exists pa, nr. spl; try reflexivity; try assumption. intros j Hj. cbn [length].
    destruct (Z.leb_spec k j), (Z.ltb_spec j (k + Z.of_nat 0)); cbn [andb]; try lia; split; reflexivity.
  - cbn [length] in H. unfold add_atZ. destruct (Z.ltb_spec k 0); [lia|].
    destruct (add_at_spec pa (Z.to_nat k) (fmul p fit)) as (pa1 & E1 & L1 & H1); [lia|].
    destruct (add_at_spec nr (Z.to_nat k) fit) as (nr1 & E2 & L2 & H2); [lia|].
    rewrite E1. cbn [obind]. rewrite E2. cbn [obind].
    destruct (IH (k + 1) pa1 nr1) as (pa2 & nr2 & E3 & L3 & L4 & H3); [lia|lia|lia|].
    rewrite E3. exists pa2, nr2. spl; try reflexivity; try lia. intros j Hj. destruct (H3 j Hj) as (A1 & A2).
    rewrite A1, A2, H1, H2. cbn [length].
    destruct (Nat.eqb_spec (Z.to_nat j) (Z.to_nat k)) as [Ej|Nj].
    + assert (j = k) by lia. subst j.
      destruct (Z.leb_spec (k + 1) k); [lia|]. cbn [andb].
      destruct (Z.leb_spec k k); [|lia]. destruct (Z.ltb_spec k (k + Z.of_nat (S (length r)))); [|lia]. cbn [andb].
      rewrite Z.sub_diag. split; reflexivity.
    + assert (j <> k) by (intros ->; congruence).
      destruct (Z.leb_spec (k + 1) j); destruct (Z.leb_spec k j); try lia; cbn [andb]; [|split; reflexivity].
      destruct (Z.ltb_spec j (k + 1 + Z.of_nat (length r))); destruct (Z.ltb_spec j (k + Z.of_nat (S (length r)))); try lia; [|split; reflexivity].
      split; [|reflexivity]. replace (Z.to_nat (j - k)) with (S (Z.to_nat (j - (k + 1)))) by lia. reflexivity.
Qed.

Section PA.
Context {B : Type} (K : cfg).

(** The numerator and denominator of the weighted mean of action [a], output [j]. *)
Definition pa_num (cs : list (cl B)) (a j : Z) (z : f64) : f64 :=
  fold_left (fun acc c => if c_action c =? a
    then fadd acc (fmul (nth (Z.to_nat j) (c_prediction c) f0) (c_fit c)) else acc) cs z.
Definition pa_den (cs : list (cl B)) (a : Z) (z : f64) : f64 :=
  fold_left (fun acc c => if c_action c =? a then fadd acc (c_fit c) else acc) cs z.

Lemma cell_in yd a a' j : 0 < yd -> 0 <= j < yd ->
  (a' * yd <=? a * yd + j) && (a * yd + j <? a' * yd + yd) = (a' =? a).
Proof.
  intros Y J. destruct (Z.eqb_spec a' a) as [-> |D].
  - destruct (Z.leb_spec (a * yd) (a * yd + j)), (Z.ltb_spec (a * yd + j) (a * yd + yd)); try lia; reflexivity.
  - destruct (Z.leb_spec (a' * yd) (a * yd + j)), (Z.ltb_spec (a * yd + j) (a' * yd + yd)); try reflexivity.
    exfalso. apply D. nia.
Qed.

Lemma pa_accum_spec (cs : list (cl B)) pa nr : 1 <= y_dim K ->
  Forall (fun c => 0 <= c_action c < n_actions K /\ Z.of_nat (length (c_prediction c)) = y_dim K) cs ->
  Z.of_nat (length pa) = n_actions K * y_dim K -> length nr = length pa ->
  exists pa' nr', pa_accum K cs pa nr = Ok (pa', nr') /\ length pa' = length pa /\ length nr' = length pa /\
    forall a j, 0 <= a < n_actions K -> 0 <= j < y_dim K ->
      nth (Z.to_nat (a * y_dim K + j)) pa' f0 = pa_num cs a j (nth (Z.to_nat (a * y_dim K + j)) pa f0) /\
      nth (Z.to_nat (a * y_dim K + j)) nr' f0 = pa_den cs a (nth (Z.to_nat (a * y_dim K + j)) nr f0).
Proof.
  intros Y F. revert pa nr. induction cs as [|c r IH]; intros pa nr LP LN; cbn [pa_accum].
  - exists pa, nr. spl; try reflexivity; try assumption. intros; split; reflexivity.
  - inversion F as [|? ? (Ra & Lp) F']; subst. destruct (Z.ltb_spec (Z.of_nat (length (c_prediction c))) (y_dim K)); [lia|].
    replace (firstn (Z.to_nat (y_dim K)) (c_prediction c)) with (c_prediction c) by (rewrite <- Lp, Nat2Z.id, firstn_all; reflexivity).
    destruct (pa_add_spec (c_fit c) (c_prediction c) (c_action c * y_dim K) pa nr) as (pa1 & nr1 & E1 & L1 & L2 & H1).
    { nia. } { exact LN. } { rewrite LP, Lp. nia. }
    rewrite E1. cbn [obind].
    destruct (IH F' pa1 nr1) as (pa2 & nr2 & E2 & L3 & L4 & H2); [lia|lia|].
    rewrite E2. exists pa2, nr2. spl; try reflexivity; try lia.
    intros a j HA HJ. destruct (H2 a j HA HJ) as (A1 & A2). rewrite A1, A2.
    destruct (H1 (a * y_dim K + j)) as (B1 & B2); [nia|]. rewrite Lp, cell_in in B1, B2 by lia.
    unfold pa_num, pa_den. cbn [fold_left]. rewrite B1, B2. destruct (Z.eqb_spec (c_action c) a) as [-> |]; [|split; reflexivity].
    replace (a * y_dim K + j - a * y_dim K) with j by lia. split; reflexivity.
Qed.

Lemma pa_norm_len pa nr : length nr = length pa -> length (pa_norm pa nr) = length pa.
Proof. revert nr. induction pa as [|p pa IH]; intros [|n nr] H; try discriminate; [reflexivity|]. cbn in *. f_equal. apply IH. lia. Qed.
Lemma pa_norm_nth pa nr i : length nr = length pa -> (i < length pa)%nat ->
  nth i (pa_norm pa nr) f0 = if feq (nth i nr f0) f0 then f0 else fdiv (nth i pa f0) (nth i nr f0).
Proof.
  revert nr i. induction pa as [|p pa IH]; intros [|n nr] i H Hi; try discriminate; cbn [length] in *; [lia|].
  destruct i as [|i].
  - cbn [pa_norm nth]. unfold fne, feq. destruct (Beqb n f0); reflexivity.
  - cbn [pa_norm nth]. apply IH; lia.
Qed.

(** What pa_build leaves in the arrays. *)
Record pa_ok (cs : list (cl B)) (pa nr : list f64) : Prop := {
  pk_len : Z.of_nat (length pa) = n_actions K * y_dim K;
  pk_nlen : Z.of_nat (length nr) = n_actions K * y_dim K;
  pk_nr : forall a j, 0 <= a < n_actions K -> 0 <= j < y_dim K ->
    nth (Z.to_nat (a * y_dim K + j)) nr f0 = pa_den cs a f0;
  pk_pa : forall a j, 0 <= a < n_actions K -> 0 <= j < y_dim K ->
    nth (Z.to_nat (a * y_dim K + j)) pa f0 =
      if feq (pa_den cs a f0) f0 then f0 else fdiv (pa_num cs a j f0) (pa_den cs a f0)
}.

Lemma nth_zeros n i : nth i (zeros n) f0 = f0.
Proof. unfold zeros. apply nth_repeat. Qed.

Lemma pa_arrays_spec (cs : list (cl B)) : 1 <= y_dim K -> 1 <= n_actions K ->
  Forall (fun c => 0 <= c_action c < n_actions K /\ Z.of_nat (length (c_prediction c)) = y_dim K) cs ->
  exists pa nr, pa_accum K cs (zeros (pa_size K)) (zeros (pa_size K)) = Ok (pa, nr) /\
    pa_ok cs (pa_norm pa nr) nr.
Proof.
  intros Y A F. assert (LZ : Z.of_nat (length (zeros (pa_size K))) = n_actions K * y_dim K).
  { rewrite zeros_len; [reflexivity|]. unfold pa_size. nia. }
  destruct (pa_accum_spec cs _ _ Y F LZ eq_refl) as (pa & nr & E & L1 & L2 & H).
  exists pa, nr. split; [exact E|]. constructor.
  - rewrite pa_norm_len by congruence. lia.
  - lia.
  - intros a j HA HJ. destruct (H a j HA HJ) as (_ & E2). rewrite E2, nth_zeros. reflexivity.
  - intros a j HA HJ. destruct (H a j HA HJ) as (E1 & E2). rewrite pa_norm_nth, E1, E2, !nth_zeros; [reflexivity|congruence|].
    assert (a * y_dim K + j < n_actions K * y_dim K) by nia. lia.
Qed.

(** ** Choosing an action. *)
Definition vals_at (pa : list f64) (i : Z) : f64 := nth (Z.to_nat i) pa f0.

Lemma fgt_trans x y z : fgt x y = true -> fgt y z = true -> fgt x z = true.
Proof.
  intros H1 H2. apply (flt_fle_trans z y x); [exact H2|]. apply flt_fle, H1.
Qed.
Lemma fgt_feq x y z : fgt x y = true -> feq y z = true -> fgt x z = true.
Proof.
  unfold fgt. fold (flt y x). fold (flt z x). intros H1 H2. destruct (flt_nn _ _ H1) as (Ny & Nx). destruct (feq_nn _ _ H2) as (_ & Nz).
  apply flt_X in H1; try assumption. apply feq_X in H2; try assumption. apply flt_X; try assumption. lra.
Qed.

Lemma best_scan_spec all n (r : list f64) (i : Z) max mx :
  0 <= i -> Z.of_nat (length all) = n -> i + Z.of_nat (length r) = n ->
  (forall j, 0 <= j < Z.of_nat (length r) -> vals_at r j = vals_at all (i + j)) ->
  (forall j, 0 <= j < i -> fgt (vals_at all j) max = false) ->
  mx <> [] ->
  (forall e, In e mx -> 0 <= e < i /\ (vals_at all e = max \/ feq (vals_at all e) max = true)) ->
  (forall j, 0 <= j < i -> feq (vals_at all j) max = true -> In j mx) ->
  exists max', best_scan r i max mx <> [] /\
    (forall e, In e (best_scan r i max mx) -> 0 <= e < n /\ (vals_at all e = max' \/ feq (vals_at all e) max' = true)) /\
    (forall j, 0 <= j < n -> fgt (vals_at all j) max' = false) /\
    (forall j, 0 <= j < n -> feq (vals_at all j) max' = true -> In j (best_scan r i max mx)) /\
    Z.of_nat (length (best_scan r i max mx)) <= Z.of_nat (length mx) + Z.of_nat (length r).
Proof.
  revert i max mx. induction r as [|v r IH]; intros i max mx I0 LA LR HV HG NE HE HA; cbn [best_scan].
  - cbn [length] in LR. exists max. replace i with n in * by lia. spl; try assumption. cbn; lia.
  - cbn [length] in *. assert (Ev : v = vals_at all i).
    { specialize (HV 0 ltac:(lia)). rewrite Z.add_0_r in HV. exact HV. }
    assert (HV' : forall j, 0 <= j < Z.of_nat (length r) -> vals_at r j = vals_at all (i + 1 + j)).
    { intros j Hj. specialize (HV (j + 1) ltac:(lia)). replace (i + 1 + j) with (i + (j + 1)) by lia. rewrite <- HV.
      unfold vals_at. replace (Z.to_nat (j + 1)) with (S (Z.to_nat j)) by lia. reflexivity. }
    destruct (fgt v max) eqn:G.
    + destruct (IH (i + 1) v [i]) as (mx' & A1 & A2 & A3 & A4 & A5); try assumption; try lia; try discriminate.
      * intros j Hj. destruct (Z.eq_dec j i) as [-> |D].
        { rewrite <- Ev. apply flt_irrefl. }
        destruct (fgt (vals_at all j) v) eqn:G2; [|reflexivity]. rewrite <- (HG j ltac:(lia)). symmetry. eapply fgt_trans; eassumption.
      * intros e [<- |[]]. split; [lia|]. left. congruence.
      * intros j Hj Fj. destruct (Z.eq_dec j i) as [E'|D]; [left; congruence|]. exfalso.
        assert (fgt (vals_at all j) max = true); [|rewrite HG in H by lia; discriminate].
        destruct (feq_nn _ _ Fj) as (N1 & N2). apply feq_X in Fj; try assumption.
        destruct (flt_nn _ _ G) as (N3 & _). apply flt_X in G; try assumption. apply flt_X; try assumption. lra.
      * exists mx'. spl; try assumption. destruct mx; [congruence|]. cbn [length] in *. lia.
    + destruct (feq v max) eqn:Q.
      * destruct (IH (i + 1) max (mx ++ [i])) as (mx' & A1 & A2 & A3 & A4 & A5); try assumption; try lia.
        { intros j Hj. destruct (Z.eq_dec j i) as [-> |D]; [rewrite <- Ev; exact G|apply HG; lia]. }
        { destruct mx; discriminate. }
        { intros e He. apply in_app_iff in He. destruct He as [He|[<- |[]]].
          - destruct (HE e He). split; [lia|assumption].
          - split; [lia|]. right. rewrite <- Ev. exact Q. }
        { intros j Hj Fj. apply in_app_iff. destruct (Z.eq_dec j i) as [-> |D]; [right; left; reflexivity|left; apply HA; [lia|exact Fj]]. }
        exists mx'. spl; try assumption. rewrite app_length in A5. cbn [length] in A5. lia.
      * destruct (IH (i + 1) max mx) as (mx' & A1 & A2 & A3 & A4 & A5); try assumption; try lia.
        { intros j Hj. destruct (Z.eq_dec j i) as [-> |D]; [rewrite <- Ev; exact G|apply HG; lia]. }
        { intros e He. destruct (HE e He). split; [lia|assumption]. }
        { intros j Hj Fj. destruct (Z.eq_dec j i) as [-> |D]; [|apply HA; [lia|exact Fj]]. rewrite <- Ev, Q in Fj. discriminate. }
        exists mx'. spl; try assumption. lia.
Qed.

Lemma vals_firstn pa n j : 0 <= j < n -> vals_at (firstn (Z.to_nat n) pa) j = vals_at pa j.
Proof.
  intros H. unfold vals_at. rewrite <- (firstn_skipn (Z.to_nat n) pa) at 2.
  destruct (Nat.lt_ge_cases (Z.to_nat j) (length (firstn (Z.to_nat n) pa))) as [L|L].
  - rewrite app_nth1 by exact L. reflexivity.
  - rewrite nth_overflow by exact L. rewrite app_nth2 by exact L.
    assert (length pa <= Z.to_nat j)%nat.
    { rewrite firstn_length in L. lia. }
    rewrite skipn_all2; [destruct (Z.to_nat j - _)%nat; reflexivity|]. lia.
Qed.

(** The list of best actions, and the fact that the selected one is in it. *)
Lemma best_action_rpost (FO : Prop) (pa : list f64) : 1 <= n_actions K <= int_max ->
  n_actions K <= Z.of_nat (length pa) ->
  rpost FO (pa_best_action K pa) (fun a => 0 <= a < n_actions K /\
    forall b, 0 <= b < n_actions K -> fgt (vals_at pa b) (vals_at pa a) = false).
Proof.
  intros NA LP. unfold pa_best_action. set (all := firstn (Z.to_nat (n_actions K)) pa).
  assert (LA : Z.of_nat (length all) = n_actions K) by (unfold all; rewrite firstn_length; lia).
  assert (HA : forall j, 0 <= j < n_actions K -> vals_at all j = vals_at pa j) by (intros j Hj; apply vals_firstn, Hj).
  destruct all as [|v r] eqn:Ea; [cbn [length] in LA; lia|].
  destruct (Z.ltb_spec (Z.of_nat (length pa)) (n_actions K)); [lia|]. cbv zeta. rewrite <- Ea in *.
  destruct (best_scan_spec all (n_actions K) r 1 v [0]) as (mx & A1 & A2 & A3 & A4 & A5); try lia; try discriminate.
  - rewrite Ea in LA. cbn [length] in LA. lia.
  - intros j Hj. unfold vals_at. rewrite Ea. replace (Z.to_nat (1 + j)) with (S (Z.to_nat j)) by lia. reflexivity.
  - intros j Hj. replace j with 0 by lia. rewrite Ea. apply flt_irrefl.
  - intros e [<- |[]]. split; [lia|]. left. rewrite Ea. reflexivity.
  - intros j Hj _. left. lia.
  - set (mi := best_scan r 1 v [0]) in *. assert (LM : 0 < Z.of_nat (length mi)) by (destruct mi; [congruence|cbn [length]; lia]).
    assert (LM2 : Z.of_nat (length mi) <= int_max) by (rewrite Ea in LA; cbn [length] in LA, A5; lia).
    eapply rp_bind; [apply rp_uniform_int; lia|]. intros i Hi. cbv beta in Hi.
    destruct (nth_error mi (Z.to_nat i)) as [a|] eqn:En.
    2:{ apply nth_error_None in En. lia. }
    destruct (Z.ltb_spec i 0); [lia|]. apply rp_ret. apply nth_error_In in En. destruct (A2 a En) as (Ra & Va).
    split; [exact Ra|]. intros b Hb. rewrite <- !HA by assumption.
    destruct (fgt (vals_at all b) (vals_at all a)) eqn:G; [|reflexivity].
    rewrite <- (A3 b Hb). destruct Va as [Va|Va]; [rewrite <- Va; symmetry; exact G|].
    symmetry. eapply fgt_feq; eassumption.
Qed.

Lemma rand_action_rpost (FO : Prop) fuel nr : FO -> 1 <= n_actions K <= int_max ->
  n_actions K <= Z.of_nat (length nr) ->
  rpost FO (pa_rand_action K fuel nr) (fun a => 0 <= a < n_actions K /\ feq (vals_at nr a) f0 = false).
Proof.
  intros HF NA LN. induction fuel as [|f IH]; cbn [pa_rand_action]; [intros g; exact HF|].
  eapply rp_bind; [apply rp_uniform_int; lia|]. intros a Ha. cbv beta in Ha.
  destruct (Z.ltb_spec a 0); [lia|].
  destruct (nth_error nr (Z.to_nat a)) as [v|] eqn:En; [|apply nth_error_None in En; lia].
  destruct (feq v f0) eqn:Q; [exact IH|]. apply rp_ret. split; [exact Ha|].
  unfold vals_at. rewrite (nth_error_nth _ _ f0 En). exact Q.
Qed.

Lemma pa_val_eq pa a : 0 <= a < n_actions K -> n_actions K <= Z.of_nat (length pa) ->
  pa_val K pa a = Ok (vals_at pa a).
Proof.
  intros H L. unfold pa_val. destruct (Z.ltb_spec a 0); [lia|]. destruct (Z.leb_spec (n_actions K) a); [lia|]. cbn [orb].
  destruct (nth_error pa (Z.to_nat a)) as [v|] eqn:E; [|apply nth_error_None in E; lia].
  unfold vals_at. rewrite (nth_error_nth _ _ f0 E). reflexivity.
Qed.
Lemma pa_val_out pa a : a < 0 \/ n_actions K <= a -> pa_val K pa a = Exit.
Proof.
  intros H. unfold pa_val. destruct (Z.ltb_spec a 0), (Z.leb_spec (n_actions K) a); cbn [orb]; try reflexivity; lia.
Qed.

(** No element exceeds the value returned, even in the presence of NaN. *)
Lemma argmax_spec xs i mi (m : f64) : let r := argmax_scan xs i mi m in
  (snd r = m \/ (In (snd r) xs /\ fgt (snd r) m = true)) /\ forall v, In v xs -> fgt v (snd r) = false.
Proof.
  revert i mi m. induction xs as [|v r IH]; intros i mi m; cbn [argmax_scan]; cbv zeta.
  - cbn [snd]. spl; [left; reflexivity|intros v []].
  - destruct (fgt v m) eqn:G.
    + destruct (IH (S i) i v) as (A1 & A3). cbv zeta in *. spl.
      * right. destruct A1 as [-> |(A1 & A2)]; [split; [left; reflexivity|exact G]|].
        split; [right; exact A1|]. eapply fgt_trans; eassumption.
      * intros u [-> |H]; [|apply A3, H]. destruct A1 as [-> |(A1 & A2)]; [apply flt_irrefl|].
        destruct (fgt u (snd (argmax_scan r (S i) i u))) eqn:G2; [|reflexivity].
        rewrite <- (flt_irrefl u). symmetry. eapply fgt_trans; eassumption.
    + destruct (IH (S i) mi m) as (A1 & A3). cbv zeta in *. spl.
      * destruct A1 as [-> |(A1 & A2)]; [left; reflexivity|right; split; [right; exact A1|exact A2]].
      * intros u [-> |H]; [|apply A3, H]. destruct A1 as [E|(A1 & A2)]; [rewrite E; exact G|].
        destruct (fgt u (snd (argmax_scan r (S i) mi m))) eqn:G2; [|reflexivity].
        rewrite <- G. symmetry. eapply fgt_trans; eassumption.
Qed.
Lemma pa_best_val_spec (pa : list f64) : pa <> [] ->
  exists v, pa_best_val pa = Ok v /\ In v pa /\ forall u, In u pa -> fgt u v = false.
Proof.
  intros NE. destruct pa as [|v r]; [congruence|]. unfold pa_best_val.
  destruct (argmax_spec r 1 0 v) as (A1 & A3). cbv zeta in *. eexists. spl; [reflexivity| |].
  - destruct A1 as [-> |(A1 & _)]; [left; reflexivity|right; exact A1].
  - intros u [-> |H]; [|apply A3, H]. destruct A1 as [E|(_ & A2)]; [rewrite E; apply flt_irrefl|].
    destruct (fgt u _) eqn:G; [|reflexivity]. rewrite <- (flt_irrefl u). symmetry. eapply fgt_trans; eassumption.
Qed.
End PA.

Section Build.
Context {B : Type} (FO : Prop) (V : vtab B) (K : cfg) (kf N : Z) (wf : B -> Prop)
  (mt : B -> list f64 -> Prop) (CO : cfg_ok K kf) {dom : list f64 -> Prop} (VO : vt_ok (dom := dom) FO V K wf mt).

(** pa_build: every rule of the match set predicts, then the array is filled. *)
Definition pa_rel (x : list f64) (s s' : st B) : Prop := exists s1 cs pa nr,
  touches_all (predicted V K wf x) (set_list (s_mset s)) s s1 /\
  map (s_heap s1) (set_list (s_mset s)) = map Some cs /\
  pa_ok K cs pa nr /\ s' = with_pa pa nr s1.

Lemma predicted_ok x c c' : predicted V K wf x c c' -> rule_ok K kf N wf c -> rule_ok K kf N wf c'.
Proof. intros (b & p & -> & W & L & _) []. constructor; cbn; assumption. Qed.

Lemma pa_build_spec x s ex : xok K dom x -> Inv K kf N wf s ex -> act_ok s (s_mset s) ->
  hpost FO (pa_build V K x s) (fun _ s' => pa_rel x s s' /\ Inv K kf N wf s' ex).
Proof.
  intros Lx I (ND & SZ & SUB). unfold pa_build. apply hp_bind_get.
  eapply hp_bind.
  { apply (miter_touch FO _ (predicted V K wf x) (rule_ok K kf N wf)); [exact ND| |].
    - intros l Hl. destruct (s_heap s l) as [c|] eqn:E; [|exfalso; apply (inv_live_P I (SUB _ Hl)), E].
      exists c. split; [reflexivity|apply (i_ok I _ _ E)].
    - intros l c s0 E R. apply (modify_rand_touch FO _ _ l c s0 E). eapply predict_spec; eassumption. }
  intros [] s1 T. destruct (touches_all_pset _ _ _ _ T) as (M1 & X1 & G1).
  assert (I1 : Inv K kf N wf s1 ex).
  { eapply (touches_all_inv K kf N N wf); [exact I|exact T|lia| |].
    - intros c c' (b & p & -> & _). reflexivity.
    - intros l c c' _ _ P R. eapply predicted_ok; eassumption. }
  pose proof (G1 PSET) as P1. cbn [get_set] in P1.
  destruct (live_list (s_heap s1) (set_list (s_mset s))) as (cs & E).
  { intros l Hl. apply (inv_live_P I1). rewrite P1. apply SUB, Hl. }
  unfold mbind at 1. rewrite (get_all_eq _ _ _ E).
  destruct (pa_arrays_spec K cs) as (pa & nr & Epa & Hpa).
  { apply (ok_y_dim _ _ CO). } { apply (ok_n_actions _ _ CO). }
  { apply Forall_forall. intros c Hc. destruct (map_heap_in _ _ _ _ E Hc) as (l & Hl & El).
    pose proof (i_ok I1 _ _ El) as R. split; apply R. }
  unfold mbind at 1. rewrite Epa. unfold mlift. apply hp_mod. split; [|exact I1].
  exists s1, cs, (pa_norm pa nr), nr. auto.
Qed.
End Build.
