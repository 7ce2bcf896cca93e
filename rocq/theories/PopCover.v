(** * Validation, action coverage and covering. *)
From Coq Require Import ZArith Bool List Reals Lia Lra Permutation.
From Flocq Require Import Core BinarySingleNaN.
From Verif Require Import Outcome F64 F64Facts F64Bounds Rng RngFacts Pop PopSpec PopInv PopSel PopDel.
Import ListNotations.
Open Scope Z_scope.

(** ** clset_validate *)
Section Validate.
Context {B : Type}.

(** The rules of [ls] with non-zero numerosity. *)
Definition alive (h : loc -> option (cl B)) (ls : list loc) : list loc :=
  filter (fun l => negb (num_of h l =? 0)) ls.
Definition exact_set (h : loc -> option (cl B)) (ls : list loc) : cset :=
  mkSet ls (Z.of_nat (length ls)) (sum_nums h ls).

Lemma alive_cons h l r : alive h (l :: r) = if num_of h l =? 0 then alive h r else l :: alive h r.
Proof. unfold alive. cbn [filter]. destruct (num_of h l =? 0); reflexivity. Qed.
Lemma keep_alive_eq ls (s : st B) : (forall l, In l ls -> s_heap s l <> None) ->
  keep_alive ls s = Ok ((alive (s_heap s) ls, Z.of_nat (length (alive (s_heap s) ls)),
                         sum_nums (s_heap s) (alive (s_heap s) ls)), s).
Proof.
  induction ls as [|l r IH]; intros H; [reflexivity|].
  cbn [keep_alive]. unfold mbind at 1.
  destruct (s_heap s l) as [c|] eqn:E; [|exfalso; apply (H l); [left; reflexivity|exact E]].
  rewrite (get_eq _ _ _ E). unfold mbind. rewrite IH by (intros; apply H; right; assumption).
  rewrite alive_cons. rewrite (num_of_some _ _ _ E). destruct (c_num c =? 0).
  - reflexivity.
  - cbn [length sum_nums]. rewrite (num_of_some _ _ _ E).
    replace (Z.of_nat (S (length (alive (s_heap s) r)))) with (Z.of_nat (length (alive (s_heap s) r)) + 1) by lia.
    replace (c_num c + sum_nums (s_heap s) (alive (s_heap s) r)) with (sum_nums (s_heap s) (alive (s_heap s) r) + c_num c) by lia.
    reflexivity.
Qed.
Lemma validate_eq w (s : st B) : (forall l, In l (set_list (get_set w s)) -> s_heap s l <> None) ->
  clset_validate w s = Ok (tt, with_set w (exact_set (s_heap s) (alive (s_heap s) (set_list (get_set w s)))) s).
Proof.
  intros H. unfold clset_validate, mbind, mget. rewrite keep_alive_eq by exact H. reflexivity.
Qed.
Lemma sum_nums_alive h ls : sum_nums h (alive h ls) = sum_nums h ls.
Proof.
  induction ls as [|l r IH]; [reflexivity|]. unfold alive in *. cbn [filter sum_nums].
  destruct (Z.eqb_spec (num_of h l) 0); cbn [negb sum_nums]; lia.
Qed.
Lemma alive_in h ls l : In l (alive h ls) <-> In l ls /\ num_of h l <> 0.
Proof.
  unfold alive. rewrite filter_In, negb_true_iff, Z.eqb_neq. reflexivity.
Qed.
Lemma alive_nodup h ls : NoDup ls -> NoDup (alive h ls).
Proof. apply NoDup_filter. Qed.
Lemma alive_len h ls : (length (alive h ls) <= length ls)%nat.
Proof. unfold alive. induction ls; simpl; [lia|]. destruct (negb _); simpl; lia. Qed.
Lemma alive_len_eq h ls : length (alive h ls) = length ls -> alive h ls = ls.
Proof.
  induction ls as [|l ls IH]; [reflexivity|]. unfold alive in *. cbn [filter].
  destruct (negb _); cbn [length]; intros H.
  - f_equal. apply IH. lia.
  - pose proof (alive_len h ls) as A. unfold alive in A. lia.
Qed.
End Validate.

(** ** clset_action_coverage *)
Section Coverage.
Context {B : Type} (K : cfg).

Lemma mark_len cov a : length (mark cov a) = length cov.
Proof. revert a. induction cov as [|b r IH]; intros [|a]; simpl; auto. Qed.
Lemma mark_nth cov a j : (a < length cov)%nat ->
  nth j (mark cov a) false = (nth j cov false || Nat.eqb j a)%bool.
Proof.
  revert a j. induction cov as [|b r IH]; intros a j L; simpl in L; [lia|].
  destruct a as [|a], j as [|j]; simpl; try reflexivity.
  - rewrite orb_true_r. reflexivity.
  - rewrite orb_false_r. reflexivity.
  - rewrite orb_false_r. reflexivity.
  - apply IH. lia.
Qed.
Lemma mark_actions_spec (cs : list (cl B)) cov :
  Forall (fun c => 0 <= c_action c < n_actions K) cs -> Z.of_nat (length cov) = n_actions K ->
  exists cov', mark_actions K cs cov = Ok cov' /\ Z.of_nat (length cov') = n_actions K /\
    forall a, 0 <= a < n_actions K ->
      nth (Z.to_nat a) cov' false = (nth (Z.to_nat a) cov false || existsb (fun c => c_action c =? a) cs)%bool.
Proof.
  revert cov. induction cs as [|c cs IH]; intros cov F L; cbn [mark_actions].
  - exists cov. spl; auto. intros a _. simpl. rewrite orb_false_r. reflexivity.
  - inversion F as [|? ? Ha F2]; subst.
    replace ((0 <=? c_action c) && (c_action c <? n_actions K)) with true
      by (symmetry; apply andb_true_intro; split; [apply Z.leb_le|apply Z.ltb_lt]; lia).
    destruct (IH (mark cov (Z.to_nat (c_action c))) F2) as (cov' & E & L' & H).
    { rewrite mark_len. exact L. }
    exists cov'. spl; auto. intros a Ra. rewrite H by exact Ra. rewrite mark_nth by lia. cbn [existsb].
    rewrite orb_assoc. f_equal. f_equal.
    destruct (Z.eqb_spec (c_action c) a) as [<- |Ne]; [apply Nat.eqb_refl|]. apply Nat.eqb_neq. lia.
Qed.

(** The action [a] is advocated by some rule of [ls]. *)
Definition advocated (h : loc -> option (cl B)) (ls : list loc) (a : Z) : Prop :=
  exists l c, In l ls /\ h l = Some c /\ c_action c = a.

Lemma action_coverage_spec (s : st B) cs : map (s_heap s) (set_list (s_mset s)) = map Some cs ->
  Forall (fun c => 0 <= c_action c < n_actions K) cs ->
  exists cov, action_coverage K s = Ok ((cov, forallb (fun b => b) cov), s) /\
    Z.of_nat (length cov) = Z.max 0 (n_actions K) /\
    forall a, 0 <= a < n_actions K ->
      (nth (Z.to_nat a) cov false = true <-> advocated (s_heap s) (set_list (s_mset s)) a).
Proof.
  intros E F. unfold action_coverage, mbind, mget. rewrite (get_all_eq _ _ _ E).
  destruct (Z.leb_spec 0 (n_actions K)) as [Hn|Hn].
  - destruct (mark_actions_spec cs (repeat false (Z.to_nat (n_actions K))) F) as (cov & E1 & L & H).
    { rewrite repeat_length. lia. }
    unfold mlift. rewrite E1. exists cov. spl; [reflexivity|lia|]. intros a Ra. rewrite H by exact Ra.
    rewrite nth_repeat. simpl. rewrite existsb_exists. split.
    + intros (c & I & Q). apply Z.eqb_eq in Q. destruct (map_heap_in _ _ _ _ E I) as (l & Il & El).
      exists l, c. auto.
    + intros (l & c & I & El & Q). destruct (map_heap_in' _ _ _ _ E I) as (c' & Ic & Ec).
      exists c'. split; [exact Ic|]. apply Z.eqb_eq. congruence.
  - assert (cs = []) as ->. { destruct cs; [reflexivity|]. inversion F; lia. }
    cbn [mark_actions]. unfold mlift. exists (repeat false (Z.to_nat (n_actions K))). spl; [reflexivity| |lia].
    rewrite repeat_length. lia.
Qed.

Lemma forallb_all cov : Z.of_nat (length cov) = n_actions K ->
  (forallb (fun b : bool => b) cov = true <-> forall a, 0 <= a < n_actions K -> nth (Z.to_nat a) cov false = true).
Proof.
  intros L. rewrite forallb_forall. split.
  - intros H a Ra. apply H. apply nth_In. lia.
  - intros H b I. destruct (In_nth _ _ false I) as (j & Lj & <-).
    specialize (H (Z.of_nat j)). rewrite Nat2Z.id in H. apply H. lia.
Qed.
End Coverage.

(** ** Creating rules *)
Section Cover.
Context {B : Type} (FO : Prop) (V : vtab B) (K : cfg) (kf Nx : Z) (wf : B -> Prop)
  (mt : B -> list f64 -> Prop) (CO : cfg_ok K kf) {dom : list f64 -> Prop} (VO : vt_ok (dom := dom) FO V K wf mt) (HN : 0 <= Nx).
Notation rule_ok := (rule_ok K kf Nx wf).
Notation inv := (inv K kf Nx wf).
Notation Inv := (Inv K kf Nx wf).

(** A rule as created by covering: initial error and fitness, one micro-rule, no
    experience, the given set size estimate, time stamp and action. *)
(** The payload of a rule made for the input [x] and the action [a]. *)
Definition born (x : list f64) (a : Z) (b : B) : Prop := exists b1 b2 b3 b4,
  rout (v_cond_init V (v_blank V)) b1 /\ rout (v_pred_init V b1) b2 /\ rout (v_act_init V b2) b3 /\
  rout (v_cond_cover V b3 x) b4 /\ rout (v_act_cover V b4 x a) b.
Record fresh_rule (x : list f64) (size : f64) (t a : Z) (c : cl B) : Prop := {
  fr_err : c_err c = INIT_ERROR K; fr_fit : c_fit c = INIT_FITNESS K;
  fr_num : c_num c = 1; fr_exp : c_exp c = 0; fr_size : c_size c = size; fr_time : c_time c = t;
  fr_m : c_m c = true; fr_prediction : c_prediction c = repeat f0 (Z.to_nat (y_dim K)); fr_action : c_action c = a;
  fr_age : c_age c = 0; fr_mtotal : c_mtotal c = 0;
  fr_body : born x a (c_body c)
}.

Lemma zeros_len n : 0 <= n -> Z.of_nat (length (zeros n)) = n.
Proof. intros H. unfold zeros. rewrite repeat_length. lia. Qed.

Lemma fresh_ok x size t a c : fin_in 1 (bpow radix2 33) size -> 0 <= a < n_actions K ->
  fresh_rule x size t a c -> wf (c_body c) -> rule_ok c.
Proof.
  intros S A [] W. constructor; rewrite ?fr_fit0, ?fr_size0, ?fr_action0, ?fr_exp0, ?fr_prediction0; try assumption.
  - apply (ok_init_fitness _ _ CO).
  - fold (zeros (y_dim K)). apply zeros_len. pose proof (ok_y_dim _ _ CO). lia.
  - lia.
Qed.

Lemma cl_rand_spec c : c_body c = v_blank V ->
  rpost FO (cl_rand V c) (fun c' => exists b1 b2 b, wf b /\ c' = set_body b c /\ rout (v_cond_init V (v_blank V)) b1 /\
    rout (v_pred_init V b1) b2 /\ rout (v_act_init V b2) b).
Proof.
  intros E g. unfold cl_rand. rewrite E. pose proof (vo_rand _ _ _ _ _ VO g) as H.
  unfold bind in *. destruct (v_cond_init V (v_blank V) g) as [[b1 g1]| |w|] eqn:E1; auto.
  destruct (v_pred_init V b1 g1) as [[b2 g2]| |w|] eqn:E2; auto.
  destruct (v_act_init V b2 g2) as [[b3 g3]| |w|] eqn:E3; auto. simpl.
  exists b1, b2, b3. unfold rout. spl; eauto.
Qed.

Lemma cl_cover_spec size t x a : xok K dom x -> 0 <= a < n_actions K ->
  rpost FO (cl_cover V (cl_init V K size t) x a)
    (fun c => fresh_rule x size t a c /\ wf (c_body c) /\ mt (c_body c) x).
Proof.
  intros Lx Ra. unfold cl_cover. eapply rp_bind; [apply cl_rand_spec; reflexivity|].
  intros c1 (r1 & r2 & b & Wb & -> & O1 & O2 & O3). cbn [c_body set_body].
  eapply rp_bind; [apply rp_rout, (vo_cond_cover _ _ _ _ _ VO); assumption|]. intros b1 ((W1 & M1) & O4).
  eapply rp_bind; [apply rp_rout, (vo_act_cover _ _ _ _ _ VO); eassumption|]. intros b2 ((W2 & M2) & O5).
  apply rp_ret. cbn. spl; try assumption. constructor; try reflexivity. exists r1, r2, b, b1. auto.
Qed.

Lemma of_Z_size z : 1 <= z <= 2 ^ 33 -> fin_in 1 (bpow radix2 33) (of_Z z).
Proof.
  intros H. destruct (of_Z_fin z) as (F & E); [lia|]. split; [exact F|]. rewrite E.
  change 1%R with (IZR 1). change (bpow radix2 33) with (IZR (2 ^ 33)). split; apply IZR_le; lia.
Qed.

(** The rules created by one pass over the actions. *)
Record covers (x : list f64) (cov : list bool) (i : Z) (news : list loc) (s s' : st B) : Prop := {
  cv_news : news = rev (seq (s_next s) (length news));
  cv_next : s_next s' = (s_next s + length news)%nat;
  cv_misc : misc s' = misc s;
  cv_sets : forall w, w <> PSET -> w <> MSET -> get_set w s' = get_set w s;
  cv_p : s_pset s' = mkSet (news ++ set_list (s_pset s)) (set_sz (s_pset s) + Z.of_nat (length news))
                           (set_nm (s_pset s) + Z.of_nat (length news));
  cv_m : s_mset s' = mkSet (news ++ set_list (s_mset s)) (set_sz (s_mset s) + Z.of_nat (length news))
                           (set_nm (s_mset s) + Z.of_nat (length news));
  cv_old : forall l, (l < s_next s)%nat -> s_heap s' l = s_heap s l;
  cv_new : forall l, In l news -> exists c size a, s_heap s' l = Some c /\ fresh_rule x size (s_time s) a c /\
             wf (c_body c) /\ mt (c_body c) x /\ fin_in 1 (bpow radix2 33) size /\
             size = of_Z (set_nm (s_mset s) + 1 + Z.of_nat (l - s_next s)) /\
             i <= a < i + Z.of_nat (length cov) /\ nth (Z.to_nat (a - i)) cov true = false;
  cv_all : forall a, i <= a < i + Z.of_nat (length cov) -> nth (Z.to_nat (a - i)) cov true = false ->
             advocated (s_heap s') news a;
  cv_count : length news = length (filter negb cov)
}.

Lemma cover_actions_spec x cov i s ex : xok K dom x -> Inv s ex ->
  0 <= i -> i + Z.of_nat (length cov) <= n_actions K ->
  0 <= set_nm (s_mset s) -> set_nm (s_mset s) + Z.of_nat (length cov) <= 2 ^ 33 ->
  hpost FO (cover_actions V K x cov i s)
    (fun _ s' => Inv s' ex /\ exists news, covers x cov i news s s').
Proof.
  intros Lx. revert i s. induction cov as [|b r IH]; intros i s I Hi Hn M0 M1; cbn [cover_actions].
  - apply hp_ret. split; [exact I|]. exists []. constructor; try reflexivity; simpl.
    + lia.
    + destruct (s_pset s); simpl; f_equal; lia.
    + destruct (s_mset s); simpl; f_equal; lia.
    + intros l [].
    + intros a H. lia.
  - cbn [length] in *. destruct b.
    + unfold mbind, mret. eapply hp_mono; [apply (IH (i + 1) s I); lia|].
      intros _ s' (I' & news & C). split; [exact I'|]. exists news. destruct C. constructor; try assumption.
      * intros l H. destruct (cv_new0 l H) as (c & size & a & E & F & W & Mx & SS & SZ & Ra & Na).
        exists c, size, a. cbn [length]. spl; try assumption; try lia.
        replace (Z.to_nat (a - i)) with (S (Z.to_nat (a - (i + 1)))) by lia. exact Na.
      * intros a Ra Na. destruct (Z.eq_dec a i) as [-> |Ne].
        { rewrite Z.sub_diag in Na. discriminate. }
        cbn [length] in Ra. apply cv_all0; [lia|].
        replace (Z.to_nat (a - i)) with (S (Z.to_nat (a - (i + 1)))) in Na by lia. exact Na.
    + rewrite bind_assoc_m. apply hp_bind_get. rewrite bind_assoc_m. apply hp_bind_get.
      rewrite bind_assoc_m. eapply hp_bind; [eapply hp_rand with (Q := fun c s1 => exists g, s1 = with_rng g s /\
         fresh_rule x (of_Z (set_nm (s_mset s) + 1)) (s_time s) i c /\ wf (c_body c) /\ mt (c_body c) x);
         [apply cl_cover_spec; [exact Lx|lia]|]|].
      { intros c g (F & W & Mx). exists g. auto. }
      intros c s1 (g & -> & F & W & Mx).
      set (size := of_Z (set_nm (s_mset s) + 1)) in *.
      assert (SZ : fin_in 1 (bpow radix2 33) size) by (apply of_Z_size; lia).
      assert (R : rule_ok c) by (eapply fresh_ok; try eassumption; lia).
      assert (EN : c_num c = 1) by apply F.
      rewrite bind_assoc_m. unfold mbind at 1. unfold alloc. sst.
      set (h1 := upd (s_heap s) (s_next s) (Some c)).
      rewrite bind_assoc_m. unfold clset_add at 1. rewrite bind_assoc_m.
      eapply hp_bind_heap; [apply upd_eq|]. rewrite bind_assoc_m. apply hp_bind_get. apply hp_bind_mod.
      unfold clset_add at 1. rewrite bind_assoc_m. eapply hp_bind_heap; [apply upd_eq|].
      rewrite bind_assoc_m. apply hp_bind_get. apply hp_bind_mod.
      set (s2 := with_set MSET _ _).
      pose proof (inv_alloc c I R EN) as I1. pose proof (inv_add I1) as I2.
      fold h1 in I2. assert (EN1 : num_of h1 (s_next s) = 1) by (unfold h1; rewrite num_upd_eq; exact EN).
      rewrite EN1 in I2.
      assert (I3 : Inv s2 ex). { unfold PopSpec.Inv, s2. sst. rewrite EN. exact I2. }
      eapply hp_mono; [apply (IH (i + 1) s2 I3); unfold s2; sst; rewrite ?EN; lia|].
      intros _ s' (I' & news & C). split; [exact I'|]. exists (news ++ [s_next s]). destruct C.
      unfold s2 in *; sst.
      constructor; rewrite ?app_length; cbn [length].
      * rewrite cv_news0 at 1. rewrite Nat.add_1_r. cbn [seq rev]. reflexivity.
      * lia.
      * rewrite cv_misc0. reflexivity.
      * intros w D1 D2. rewrite cv_sets0 by assumption. destruct w; try reflexivity; congruence.
      * rewrite cv_p0, EN, <- app_assoc. simpl app. f_equal; lia.
      * rewrite cv_m0, EN, <- app_assoc. simpl app. f_equal; lia.
      * intros l Hl. rewrite cv_old0 by lia. unfold h1. apply upd_ne. lia.
      * intros l Hl. apply in_app_iff in Hl. destruct Hl as [Hl|[<- |[]]].
        { destruct (cv_new0 l Hl) as (c' & size' & a & E & F' & W' & Mx' & S' & SZ' & Ra & Na).
          exists c', size', a. cbn [length]. spl; try assumption; try lia.
          { rewrite SZ', EN. f_equal. assert (In l (rev (seq (S (s_next s)) (length news)))) by (rewrite <- cv_news0; exact Hl).
            apply in_rev in H. apply in_seq in H. lia. }
          replace (Z.to_nat (a - i)) with (S (Z.to_nat (a - (i + 1)))) by lia. exact Na. }
        exists c, size, i. cbn [length]. spl; try assumption; try lia.
        { rewrite cv_old0 by lia. apply upd_eq. }
        { unfold size. f_equal. lia. }
        rewrite Z.sub_diag. reflexivity.
      * intros a Ra Na. destruct (Z.eq_dec a i) as [-> |Ne].
        { exists (s_next s), c. spl; [apply in_app_iff; right; left; reflexivity| |apply F].
          rewrite cv_old0 by lia. apply upd_eq. }
        destruct (cv_all0 a) as (l & c' & Il & El & Ea); [lia| |].
        { replace (Z.to_nat (a - i)) with (S (Z.to_nat (a - (i + 1)))) in Na by lia. exact Na. }
        exists l, c'. spl; try assumption. apply in_app_iff; left; exact Il.
      * cbn [filter negb length]. rewrite cv_count0. lia.
Qed.
End Cover.
