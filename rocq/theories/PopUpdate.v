(** * Updating the rules of a set: statistics, fitness, set subsumption. *)
From Coq Require Import ZArith Bool List Reals Lia Lra Permutation.
From Flocq Require Import Core BinarySingleNaN.
From Verif Require Import Outcome F64 F64Facts F64Bounds Rng RngFacts Pop PopSpec PopInv PopSel PopDel PopCover PopMatch.
Import ListNotations.
Open Scope Z_scope.

Lemma rule_ok_mono {B} K kf N N' wf (c : cl B) : N <= N' -> rule_ok K kf N wf c -> rule_ok K kf N' wf c.
Proof. intros L []. constructor; try assumption. lia. Qed.
Lemma Inv_mono {B} K kf N N' wf (s : st B) ex : N <= N' -> Inv K kf N wf s ex -> Inv K kf N' wf s ex.
Proof.
  intros L I. unfold Inv in *. eapply inv_ext; [exact I|reflexivity|reflexivity|].
  intros l c E. eapply rule_ok_mono; [exact L|apply (i_ok I _ _ E)].
Qed.

Lemma get_with_eq {B} w X (s : st B) : get_set w (with_set w X s) = X.
Proof. destruct w; reflexivity. Qed.
Lemma get_with_ne {B} w v X (s : st B) : w <> v -> get_set v (with_set w X s) = get_set v s.
Proof. intros D. destruct w, v; try reflexivity; congruence. Qed.

Section Update.
Context {B : Type} (FO : Prop) (V : vtab B) (K : cfg) (kf : Z) (wf : B -> Prop)
  (mt : B -> list f64 -> Prop) (CO : cfg_ok K kf) {dom : list f64 -> Prop} (VO : vt_ok (dom := dom) FO V K wf mt).

(** ** One rule. *)

(** Moving averages: exact mean over the first 1/beta updates, then Widrow-Hoff. *)
Definition avg_step (old : f64) (e : Z) (new : f64) : f64 :=
  if flt (fmul (of_Z e) (BETA K)) f1
  then fdiv (fadd (fmul old (of_Z (e - 1))) new) (of_Z e)
  else fadd old (fmul (BETA K) (fsub new old)).

Record updated (x y : list f64) (nm : Z) (cur : bool) (c c' : cl B) : Prop := {
  ud_exp : c_exp c' = c_exp c + 1;
  ud_fit : c_fit c' = c_fit c; ud_num : c_num c' = c_num c; ud_time : c_time c' = c_time c;
  ud_m : c_m c' = c_m c; ud_action : c_action c' = c_action c; ud_age : c_age c' = c_age c;
  ud_mtotal : c_mtotal c' = c_mtotal c;
  ud_size : c_size c' = avg_step (c_size c) (c_exp c + 1) (of_Z nm);
  ud_err : exists b p b1 b2, (* the payload and the prediction the error is measured on *)
             (if cur then b = c_body c /\ p = c_prediction c
              else rout (v_pred_compute V (c_body c) (c_prediction c) x) (b, p)) /\
             Z.of_nat (length p) = y_dim K /\
             c_err c' = avg_step (c_err c) (c_exp c + 1) (loss_ptr K p y) /\
             rout (v_cond_update V b x y) b1 /\
             rout (v_pred_update V b1 (c_exp c + 1) p x y) (b2, c_prediction c') /\
             rout (v_act_update V b2 x y) (c_body c');
  ud_wf : wf (c_body c');
  ud_pred : Z.of_nat (length (c_prediction c')) = y_dim K
}.

(** The rule's prediction is computed afresh; nothing else but the payload changes. *)
Definition predicted (x : list f64) (c c' : cl B) : Prop := exists b p,
  c' = set_prediction p (set_body b c) /\ wf b /\ Z.of_nat (length p) = y_dim K /\
  rout (v_pred_compute V (c_body c) (c_prediction c) x) (b, p).
Lemma predict_spec N c x : rule_ok K kf N wf c -> xok K dom x ->
  rpost FO (cl_predict V c x) (predicted x c).
Proof.
  intros R Lx. unfold cl_predict. eapply rp_bind; [apply rp_rout, (vo_predict _ _ _ _ _ VO)|].
  - apply (ro_body R).
  - apply (ro_pred R).
  - exact Lx.
  - intros [b p] ((W & L) & R'). apply rp_ret. exists b, p. auto.
Qed.

Lemma update_spec N c x y nm cur : rule_ok K kf N wf c -> xok K dom x ->
  Z.of_nat (length y) = y_dim K ->
  rpost FO (cl_update V K c x y nm cur) (updated x y nm cur c).
Proof.
  intros R Lx Ly. unfold cl_update.
  eapply rp_bind with (P := fun c1 => exists b p, c1 = set_prediction p (set_body b (set_exp (c_exp c + 1) c)) /\
     wf b /\ Z.of_nat (length p) = y_dim K /\ (if cur then b = c_body c /\ p = c_prediction c
              else rout (v_pred_compute V (c_body c) (c_prediction c) x) (b, p))).
  { destruct cur.
    - apply rp_ret. exists (c_body c), (c_prediction c). spl; try apply R; try split; auto.
    - eapply rp_mono; [apply (predict_spec (N + 1)); [|exact Lx]|].
      + destruct R. constructor; cbn; try assumption; lia.
      + intros c1 (b & p & -> & W & L & R'). exists b, p. spl; auto. }
  intros c1 (b & p & -> & W & Lp & Hc).
  set (c2 := cl_update_stats K _ _ nm).
  assert (Ec2 : c2 = set_size (avg_step (c_size c) (c_exp c + 1) (of_Z nm))
     (set_err (avg_step (c_err c) (c_exp c + 1) (loss_ptr K p y))
        (set_prediction p (set_body b (set_exp (c_exp c + 1) c))))).
  { unfold c2, cl_update_stats, avg_step. cbn [c_exp set_prediction set_body set_exp].
    destruct (flt (fmul (of_Z (c_exp c + 1)) (BETA K)) f1); reflexivity. }
  assert (Eb : c_body c2 = b) by (rewrite Ec2; reflexivity). rewrite Eb.
  eapply rp_bind; [apply rp_rout, (vo_cond_update _ _ _ _ _ VO); assumption|]. intros b1 (W1 & R1).
  assert (Ee : c_exp c2 = c_exp c + 1) by (rewrite Ec2; reflexivity).
  assert (Epr : c_prediction c2 = p) by (rewrite Ec2; reflexivity).
  eapply rp_bind; [apply rp_rout, (vo_pred_update _ _ _ _ _ VO); try assumption|].
  { rewrite Ee. pose proof (ro_exp R). lia. }
  { rewrite Epr. exact Lp. }
  intros [b2 p2] ((W2 & L2) & R2). cbn [fst snd] in *. rewrite Ee, Epr in R2.
  eapply rp_bind; [apply rp_rout, (vo_act_update _ _ _ _ _ VO); assumption|]. intros b3 (W3 & R3).
  apply rp_ret. rewrite Ec2. constructor; cbn; try reflexivity; try assumption.
  exists b, p, b1, b2. spl; try assumption. reflexivity.
Qed.

Lemma updated_ok N x y nm cur c c' : 0 <= N -> N + 1 <= 2 ^ 53 -> 1 <= nm <= 2 ^ 33 ->
  updated x y nm cur c c' -> rule_ok K kf N wf c -> rule_ok K kf (N + 1) wf c'.
Proof.
  intros N0 N1 Hn U R. destruct U, R. constructor; rewrite ?ud_fit0, ?ud_action0, ?ud_exp0; try assumption; [|lia].
  rewrite ud_size0. unfold avg_step.
  assert (Hn33 : (IZR nm <= bpow radix2 33)%R).
  { change (bpow radix2 33) with (IZR (2 ^ 33)). apply IZR_le. lia. }
  destruct (flt _ _).
  - apply (size_mean_in 33); try lia; assumption.
  - apply (ema_ge1 33); try lia; try assumption.
    + destruct (of_Z_fin nm) as (F & E); [lia|]. split; [exact F|]. rewrite E.
      change 1%R with (IZR 1). split; [apply IZR_le; lia|exact Hn33].
    + apply (ok_beta _ _ CO).
Qed.

(** Accuracy is a number between DBL_EPSILON and 1. *)
Lemma cl_acc_in (c : cl B) : fin_in (bpow radix2 (-52)) 1 (cl_acc K c).
Proof.
  unfold cl_acc. pose proof eps_bounds as EB. destruct (fgt (c_err c) (E0 K)) eqn:G.
  - pose proof (acc_in (m_pow (lm K)) (ALPHA K) (c_err c) (E0 K) (NU K)
      (ok_pow _ _ CO) (ok_alpha _ _ CO) (ok_e0 _ _ CO) (ok_nu _ _ CO) G) as A.
    eapply fin_in_mono; [apply Rle_refl| |exact A]. apply Rmax_lub; [apply (ok_alpha _ _ CO)|lra].
  - destruct (of_Z_fin 1) as (F & E); [lia|]. split; [exact F|]. unfold f1. rewrite E. lra.
Qed.

Definition fit_step (fit acc : f64) (num : Z) (sum : f64) : f64 :=
  fadd fit (fmul (BETA K) (fsub (fdiv (fmul acc (of_Z num)) sum) fit)).

Lemma fit_step_ok fit acc num sum : fin_p (bpow radix2 kf) fit ->
  fin_in (bpow radix2 (-52)) 1 acc -> 1 <= num <= 2 ^ 53 -> fpos sum ->
  fle (fmul acc (of_Z num)) sum = true -> fin_p (bpow radix2 kf) (fit_step fit acc num sum).
Proof.
  intros Hf Ha Hn Hs L. unfold fit_step. pose proof (ok_kf _ _ CO) as KF.
  apply ema_p; [lia|exact Hf| |apply (ok_beta _ _ CO)].
  eapply fin_in_mono; [apply Rle_refl|apply (bpow_ge_1 kf); lia|].
  eapply share_in; [apply eps_bounds|apply term_in; eassumption|exact Hs|exact L].
Qed.

Lemma acc_sum_list (cs : list (cl B)) :
  acc_sum K cs = sum_list (map (fun c => fmul (cl_acc K c) (of_Z (c_num c))) cs).
Proof.
  unfold acc_sum, sum_list. generalize f0. induction cs as [|c cs IH]; intros a; cbn; [reflexivity|apply IH].
Qed.
Lemma acc_terms_fpos (cs : list (cl B)) : Forall (fun c => 1 <= c_num c <= 2 ^ 53) cs ->
  Forall fpos (map (fun c => fmul (cl_acc K c) (of_Z (c_num c))) cs).
Proof.
  intros F. apply Forall_forall. intros v Hv. apply in_map_iff in Hv. destruct Hv as (c & <- & I).
  rewrite Forall_forall in F. eapply fin_in_fpos; [|apply term_in; [apply cl_acc_in|apply F, I]].
  apply Rlt_le, eps_bounds.
Qed.

Definition fitted (sum : f64) (c c' : cl B) : Prop :=
  c' = set_fit (fit_step (c_fit c) (cl_acc K c) (c_num c) sum) c.

Lemma update_fits_spec ls cs sum s : NoDup ls -> map (s_heap s) ls = map Some cs ->
  hpost FO (update_fits K (combine ls cs) sum s) (fun _ s' => touches_all (fitted sum) ls s s').
Proof.
  intros ND. revert cs s. induction ls as [|l r IH]; intros [|c cs] s E; try discriminate; cbn [combine update_fits].
  - apply hp_ret. exists (s_heap s), (s_rng s). spl; [destruct s; reflexivity|intros l []|reflexivity].
  - cbn [map] in E. assert (E1 := f_equal (hd None) E). assert (E2 := f_equal (@tl _) E). cbn in E1, E2.
    inversion ND; subst. unfold mbind at 1. rewrite (modify_eq l c) by exact E1.
    set (c' := cl_update_fit K c sum (cl_acc K c)).
    eapply hp_mono; [apply (IH H2 cs)|].
    + sst. rewrite <- E2. apply map_ext_in. intros l' Hl'. apply upd_ne. intros ->. contradiction.
    + intros [] s' (h' & g & -> & A & O). exists h', g. sst. spl.
      * destruct s; reflexivity.
      * intros l' [<- |Hl'].
        { exists c, c'. spl; [exact E1| |reflexivity]. rewrite O by assumption. apply upd_eq. }
        destruct (A l' Hl') as (d & d' & D1 & D2 & D3). exists d, d'. spl; try assumption.
        rewrite upd_ne in D1; [exact D1|]. intros ->; contradiction.
      * intros l' Hl'. rewrite O by (intros X; apply Hl'; right; exact X).
        apply upd_ne. intros ->. apply Hl'. left; reflexivity.
Qed.

(** ** Set subsumption. *)
Definition gen (h : loc -> option (cl B)) (s l : loc) : bool :=
  negb (Nat.eqb s l) &&
  match h s, h l with Some cs, Some c => cl_general V cs c | _, _ => false end.

(** The subsumer [sub] absorbs the rules [D] of the set. *)
Record absorbs (sub : loc) (D : list loc) (s s' : st B) : Prop := {
  ab_next : s_next s' = s_next s;
  ab_misc : misc s' = misc s;
  ab_rng : s_rng s' = s_rng s;
  ab_sets : forall w, w <> KSET -> get_set w s' = get_set w s;
  ab_k : s_kset s' = mkSet (rev D ++ set_list (s_kset s)) (set_sz (s_kset s) + Z.of_nat (length D)) (set_nm (s_kset s));
  ab_heap : forall l, s_heap s' l = option_map (set_num (
     if Nat.eqb l sub then num_of (s_heap s) sub + sum_nums (s_heap s) D
     else if existsb (Nat.eqb l) D then 0 else num_of (s_heap s) l)) (s_heap s l)
}.

Lemma absorbs_refl sub s : absorbs sub [] s s.
Proof.
  constructor; try reflexivity.
  - cbn. destruct (s_kset s); cbn; f_equal; lia.
  - intros l. cbn. destruct (s_heap s l) as [c|] eqn:E; [|reflexivity]. cbn.
    destruct (Nat.eqb_spec l sub) as [-> |]; rewrite ?Z.add_0_r, (num_of_some _ _ _ E), set_num_id; reflexivity.
Qed.

Section Inv1.
Variable N : Z.
Notation rule_ok := (rule_ok K kf N wf).
Notation inv := (inv K kf N wf).
Notation Inv := (Inv K kf N wf).

Lemma existsb_eqb l D : existsb (Nat.eqb l) D = true <-> In l D.
Proof.
  rewrite existsb_exists. split.
  - intros (y & I & E). apply Nat.eqb_eq in E. subst. exact I.
  - intros I. exists l. split; [exact I|apply Nat.eqb_refl].
Qed.

Lemma in_remove_nth {T} i (l : list T) x y : nth_error l i = Some x -> In y l -> y <> x -> In y (remove_nth i l).
Proof.
  intros H I D. apply (Permutation_in y (remove_nth_perm i l x H)) in I. destruct I; [congruence|assumption].
Qed.

Lemma subsume_all_spec sub ls s Pv ex :
  inv (s_heap s) (s_next s) Pv (s_kset s) (s_prev_pset s) ex -> NoDup ls ->
  In sub (set_list Pv) -> incl ls (set_list Pv) ->
  hpost FO (subsume_all V sub ls s) (fun d s' =>
    let D := filter (gen (s_heap s) sub) ls in
    absorbs sub D s s' /\ (d = true <-> D <> []) /\ (D = [] -> s' = s) /\
    exists Pv', inv (s_heap s') (s_next s') Pv' (s_kset s') (s_prev_pset s') ex /\
      set_list Pv' = filter (fun l => negb (existsb (Nat.eqb l) D)) (set_list Pv) /\
      set_nm Pv' = set_nm Pv).
Proof.
  intros I ND Is. revert s Pv I Is. induction ls as [|l r IH]; intros s Pv I Is Il; cbn [subsume_all].
  - apply hp_ret. cbn [filter]. spl.
    + apply absorbs_refl.
    + split; [discriminate|congruence].
    + intros _; reflexivity.
    + exists Pv. spl; [exact I| |reflexivity]. symmetry. apply filter_all. intros; reflexivity.
  - inversion ND as [|? ? NI ND']; subst.
    assert (Ill : In l (set_list Pv)) by (apply Il; left; reflexivity).
    assert (Ilr : incl r (set_list Pv)) by (intros y Hy; apply Il; right; exact Hy).
    destruct (s_heap s sub) as [sc|] eqn:Es; [|exfalso; apply (inv_live_P I Is), Es].
    destruct (s_heap s l) as [c|] eqn:El; [|exfalso; apply (inv_live_P I Ill), El].
    eapply hp_bind with (P := fun d s1 => d = gen (s_heap s) sub l /\
       if gen (s_heap s) sub l then
         absorbs sub [l] s s1 /\ exists Pv1, inv (s_heap s1) (s_next s1) Pv1 (s_kset s1) (s_prev_pset s1) ex /\
           set_list Pv1 = filter (fun y => negb (Nat.eqb y l)) (set_list Pv) /\ set_nm Pv1 = set_nm Pv
       else s1 = s).
    { unfold gen. rewrite Es, El. destruct (Nat.eqb_spec sub l) as [-> |Ne]; cbn [negb andb].
      { apply hp_ret. split; reflexivity. }
      eapply hp_bind_heap; [exact Es|]. eapply hp_bind_heap; [exact El|].
      destruct (cl_general V sc c) eqn:G; [|apply hp_ret; split; reflexivity].
      eapply hp_bind_put; [exact Es|]. unfold mbind at 1. rewrite (modify_eq l c) by (sst; rewrite upd_ne by congruence; exact El).
      sst. set (h1 := upd (s_heap s) sub _). set (h2 := upd h1 l _).
      unfold clset_add. rewrite bind_assoc_m. eapply hp_bind_heap; [apply upd_eq|]. rewrite bind_assoc_m.
      apply hp_bind_get. apply hp_bind_mod. sst. cbn [c_num set_num].
      apply hp_ret. split; [reflexivity|].
      pose proof (inv_num_pos I Is) as NPs. rewrite (num_of_some _ _ _ Es) in NPs.
      pose proof (inv_num_pos I Ill) as NPl. rewrite (num_of_some _ _ _ El) in NPl.
      assert (I1 := inv_renum (set_num (c_num sc + c_num c) sc) I Is Es (rule_ok_num _ _ _ _ _ _ (i_ok I _ _ Es)) ltac:(cbn; lia)).
      cbn [c_num set_num] in I1. fold h1 in I1.
      destruct (In_nth_error _ _ Ill) as (i & Ni).
      assert (El1 : h1 l = Some c) by (unfold h1; rewrite upd_ne by congruence; exact El).
      assert (I2 := inv_kill1 I1 Ni El1). cbn [set_list set_sz set_nm] in I2.
      destruct (owned_disj _ _ _ _ (i_nodup I)) as (NP & _).
      split.
      - constructor; try reflexivity.
        + intros w D. destruct w; try reflexivity; congruence.
        + sst. cbn [rev app length]. f_equal; lia.
        + sst. intros l'. unfold h2, h1. cbn [existsb sum_nums]. rewrite (num_of_some _ _ _ Es), (num_of_some _ _ _ El).
          destruct (Nat.eqb_spec l' sub) as [-> |D1].
          * rewrite upd_ne by congruence. rewrite upd_eq, Es. cbn. rewrite Z.add_0_r. reflexivity.
          * destruct (Nat.eqb_spec l' l) as [-> |D2]; cbn [orb].
            { rewrite upd_eq, El. reflexivity. }
            rewrite !upd_ne by congruence. destruct (s_heap s l') as [c'|] eqn:E'; [|reflexivity].
            cbn. rewrite (num_of_some _ _ _ E'), set_num_id. reflexivity.
      - eexists. spl; [exact I2| |].
        + cbn [set_list]. apply remove_nth_filter; assumption.
        + cbn [set_nm]. lia. }
    intros d s1 (-> & H).
    destruct (gen (s_heap s) sub l) eqn:G.
    + destruct H as (A1 & Pv1 & I1 & EP & EN).
      assert (Ne : sub <> l). { intros ->. unfold gen in G. rewrite Nat.eqb_refl in G. discriminate. }
      assert (Hb : forall l', exists f, s_heap s1 l' = option_map (set_num f) (s_heap s l')) by (intros l'; eexists; apply (ab_heap _ _ _ _ A1)).
      assert (GE : forall l', gen (s_heap s1) sub l' = gen (s_heap s) sub l').
      { intros l'. unfold gen. destruct (Hb sub) as (f1 & ->). destruct (Hb l') as (f2 & ->).
        rewrite Es. destruct (s_heap s l'); reflexivity. }
      eapply hp_bind.
      { apply (IH ND' s1 Pv1 I1).
        - rewrite EP. apply filter_In. split; [exact Is|]. apply negb_true_iff, Nat.eqb_neq. exact Ne.
        - intros y Hy. rewrite EP. apply filter_In. split; [apply Ilr, Hy|]. apply negb_true_iff, Nat.eqb_neq.
          intros ->. contradiction. }
      intros d' s2 (A2 & Hd & _ & Pv2 & I2 & EP2 & EN2). apply hp_ret. cbv zeta.
      assert (FE : filter (gen (s_heap s1) sub) r = filter (gen (s_heap s) sub) r) by (apply filter_ext; exact GE).
      rewrite FE in *. cbn [filter]. rewrite G. set (D := filter (gen (s_heap s) sub) r) in *.
      assert (NID : ~ In l D) by (intros X; apply NI; unfold D in X; apply filter_In in X; apply X).
      assert (NSD : ~ In sub D).
      { intros X. unfold D in X. apply filter_In in X. destruct X as (_ & X). unfold gen in X.
        rewrite Nat.eqb_refl in X. discriminate. }
      spl.
      * destruct A1 as [a1 a2 a3 a4 a5 a6], A2 as [b1 b2 b3 b4 b5 b6]. constructor; try congruence.
        { intros w Dw. rewrite b4, a4 by exact Dw. reflexivity. }
        { rewrite b5, a5. cbn [set_list set_sz set_nm rev app length]. rewrite <- app_assoc. cbn [app]. f_equal. lia. }
        intros l'. rewrite b6, a6. cbn [sum_nums existsb].
        assert (N1 : num_of (s_heap s1) sub = num_of (s_heap s) sub + (num_of (s_heap s) l + 0)).
        { unfold num_of at 1. rewrite a6, Nat.eqb_refl, Es. reflexivity. }
        assert (SD : sum_nums (s_heap s1) D = sum_nums (s_heap s) D).
        { apply sum_nums_ext. intros y Hy. unfold num_of. rewrite a6.
          destruct (Nat.eqb_spec y sub) as [-> |]; [contradiction|]. cbn [existsb].
          destruct (Nat.eqb_spec y l) as [-> |]; [contradiction|]. cbn [orb].
          destruct (s_heap s y) as [cy|] eqn:Ey; [|reflexivity]. cbn. unfold num_of. rewrite Ey. reflexivity. }
        rewrite N1, SD.
        destruct (Nat.eqb_spec l' sub) as [-> |D1].
        { destruct (s_heap s sub); [|reflexivity]. cbn. rewrite set_num_num. do 2 f_equal. lia. }
        assert (NL : num_of (s_heap s1) l' = if Nat.eqb l' l then 0 else num_of (s_heap s) l').
        { unfold num_of at 1. rewrite a6. destruct (Nat.eqb_spec l' sub); [congruence|]. cbn [existsb]. rewrite orb_false_r.
          destruct (Nat.eqb_spec l' l) as [-> |].
          - destruct (s_heap s l); reflexivity.
          - unfold num_of. destruct (s_heap s l'); reflexivity. }
        rewrite NL. destruct (s_heap s l') as [c'|]; [|reflexivity]. cbn. rewrite set_num_num.
        destruct (Nat.eqb_spec l' l) as [-> |]; cbn [orb].
        { destruct (existsb (Nat.eqb l) D); reflexivity. }
        reflexivity.
      * split; [discriminate|reflexivity].
      * discriminate.
      * exists Pv2. spl; [exact I2| |congruence]. rewrite EP2, EP, filter_filter. apply filter_ext.
        intros y. cbn [existsb]. rewrite negb_orb. reflexivity.
    + subst s1. eapply hp_bind; [apply (IH ND' s Pv I Is Ilr)|].
      intros d' s2 H. apply hp_ret. cbv zeta in *. cbn [filter orb]. rewrite G. exact H.
Qed.

(** The subsumer chosen from a set: experienced and accurate, not generalised by any later
    candidate, and either the first candidate or a generalisation of an earlier one. *)
Definition chosen (h : loc -> option (cl B)) (ls : list loc) (sub : loc) (c : cl B) : Prop :=
  exists l1 l2, ls = l1 ++ sub :: l2 /\ h sub = Some c /\ cl_subsumer K c = true /\
    (forall y cy, In y l2 -> h y = Some cy -> cl_subsumer K cy = true -> cl_general V cy c = false) /\
    ((forall y cy, In y l1 -> h y = Some cy -> cl_subsumer K cy = false) \/
     exists y cy, In y l1 /\ h y = Some cy /\ cl_subsumer K cy = true /\ cl_general V c cy = true).

Lemma find_subsumer_gen (h : loc -> option (cl B)) (ls : list loc) (cs : list (cl B)) (l1 : list loc) best :
  map h ls = map Some cs ->
  match best with
  | None => forall y cy, In y l1 -> h y = Some cy -> cl_subsumer K cy = false
  | Some (sub, c) => chosen h l1 sub c
  end ->
  match find_subsumer V K (combine ls cs) best with
  | None => forall y cy, In y (l1 ++ ls) -> h y = Some cy -> cl_subsumer K cy = false
  | Some (sub, c) => chosen h (l1 ++ ls) sub c
  end.
Proof.
  revert cs l1 best. induction ls as [|l r IH]; intros [|c cs] l1 best E H; try discriminate.
  - cbn [combine find_subsumer]. rewrite app_nil_r. exact H.
  - cbn [combine find_subsumer]. cbn [map] in E.
    assert (E1 := f_equal (hd None) E). assert (E2 := f_equal (@tl _) E). cbn in E1, E2.
    replace (l1 ++ l :: r) with ((l1 ++ [l]) ++ r) by (rewrite <- app_assoc; reflexivity).
    destruct (cl_subsumer K c) eqn:CS; cbn [andb].
    + destruct best as [[s0 c0]|].
      * destruct (cl_general V c c0) eqn:G.
        { apply (IH cs (l1 ++ [l]) (Some (l, c)) E2). exists l1, []. spl; try assumption; try reflexivity.
          - intros y cy [].
          - right. destruct H as (m1 & m2 & -> & A1 & A2 & A3 & A4). exists s0, c0. spl; try assumption.
            apply in_app_iff. right; left; reflexivity. }
        { apply (IH cs (l1 ++ [l]) (Some (s0, c0)) E2). destruct H as (m1 & m2 & -> & A1 & A2 & A3 & A4).
          exists m1, (m2 ++ [l]). spl; try assumption.
          - rewrite <- app_assoc. reflexivity.
          - intros y cy Hy Ey Sy. apply in_app_iff in Hy. destruct Hy as [Hy|[<- |[]]]; [eapply A3; eassumption|congruence]. }
      * apply (IH cs (l1 ++ [l]) (Some (l, c)) E2). exists l1, []. spl; try assumption; try reflexivity.
        { intros y cy []. }
        left. exact H.
    + apply (IH cs (l1 ++ [l]) best E2). destruct best as [[s0 c0]|].
      * destruct H as (m1 & m2 & -> & A1 & A2 & A3 & A4). exists m1, (m2 ++ [l]). spl; try assumption.
        { rewrite <- app_assoc. reflexivity. }
        intros y cy Hy Ey Sy. apply in_app_iff in Hy. destruct Hy as [Hy|[<- |[]]]; [eapply A3; eassumption|congruence].
      * intros y cy Hy Ey. apply in_app_iff in Hy. destruct Hy as [Hy|[<- |[]]]; [eapply H; eassumption|congruence].
Qed.
Lemma find_subsumer_spec (h : loc -> option (cl B)) (ls : list loc) (cs : list (cl B)) : map h ls = map Some cs ->
  match find_subsumer V K (combine ls cs) None with
  | None => forall y cy, In y ls -> h y = Some cy -> cl_subsumer K cy = false
  | Some (sub, c) => chosen h ls sub c
  end.
Proof. intros E. apply (find_subsumer_gen h ls cs [] None E). intros y cy []. Qed.

(** Either there is no candidate, or the chosen one absorbs every rule of the set it
    generalises. *)
Inductive subsumption_rel (w : sel) (s s' : st B) : Prop :=
| sr_none : (forall y cy, In y (set_list (get_set w s)) -> s_heap s y = Some cy -> cl_subsumer K cy = false) ->
    s' = s -> subsumption_rel w s s'
| sr_alone sub c : chosen (s_heap s) (set_list (get_set w s)) sub c ->
    filter (gen (s_heap s) sub) (set_list (get_set w s)) = [] -> s' = s -> subsumption_rel w s s'
| sr_some sub c D s1 :
    chosen (s_heap s) (set_list (get_set w s)) sub c ->
    D = filter (gen (s_heap s) sub) (set_list (get_set w s)) -> D <> [] ->
    absorbs sub D s s1 ->
    s' = with_set PSET (exact_set (s_heap s1) (alive (s_heap s1) (set_list (s_pset s))))
          (with_set w (exact_set (s_heap s1) (alive (s_heap s1) (set_list (get_set w s)))) s1) ->
    subsumption_rel w s s'.

Lemma combine_heap (h : loc -> option (cl B)) ls cs l c :
  map h ls = map Some cs -> In (l, c) (combine ls cs) -> In l ls /\ h l = Some c.
Proof.
  revert cs. induction ls as [|y ls IH]; intros [|d cs] E I; try contradiction; try discriminate.
  cbn [map] in E. assert (E1 := f_equal (hd None) E). assert (E2 := f_equal (@tl _) E). cbn in E1, E2.
  destruct I as [I|I].
  - injection I as -> ->. split; [left; reflexivity|exact E1].
  - destruct (IH cs E2 I) as (A & A2). split; [right; exact A|exact A2].
Qed.

Lemma sum_nums_filter_pos (h : loc -> option (cl B)) ls : (forall l, In l ls -> 0 <= num_of h l) -> 0 <= sum_nums h ls.
Proof.
  induction ls as [|l ls IH]; intros H; cbn; [lia|]. pose proof (H l (or_introl eq_refl)).
  assert (0 <= sum_nums h ls) by (apply IH; intros; apply H; right; assumption). lia.
Qed.

Lemma absorbs_num sub D (s s' : st B) l : absorbs sub D s s' -> s_heap s l <> None ->
  num_of (s_heap s') l = if Nat.eqb l sub then num_of (s_heap s) sub + sum_nums (s_heap s) D
     else if existsb (Nat.eqb l) D then 0 else num_of (s_heap s) l.
Proof.
  intros A E. unfold num_of at 1. rewrite (ab_heap _ _ _ _ A). destruct (s_heap s l); [reflexivity|congruence].
Qed.

Lemma subsumption_spec w s ex : Inv s ex -> act_ok s (get_set w s) ->
  w <> PSET -> w <> KSET -> w <> PREV_PSET ->
  hpost FO (clset_subsumption V K w s) (fun _ s' => subsumption_rel w s s' /\ Inv s' ex /\
     act_ok s' (get_set w s') /\ set_nm (s_pset s') = set_nm (s_pset s)).
Proof.
  intros I (NDs & SZ & SUB) W1 W2 W3. unfold clset_subsumption. apply hp_bind_get.
  destruct (live_list (s_heap s) (set_list (get_set w s))) as (cs & E).
  { intros l Hl. apply (inv_live_P I). apply SUB, Hl. }
  unfold mbind at 1. rewrite (get_all_eq _ _ _ E).
  pose proof (find_subsumer_spec (s_heap s) _ _ E) as F.
  destruct (find_subsumer V K (combine (set_list (get_set w s)) cs) None) as [[sub c]|].
  2:{ apply hp_ret. spl; [apply sr_none; [exact F|reflexivity]|exact I|exact (conj NDs (conj SZ SUB))|reflexivity]. }
  pose proof F as (q1 & q2 & Eq & Es & _).
  assert (Is : In sub (set_list (get_set w s))) by (rewrite Eq; apply in_app_iff; right; left; reflexivity).
  eapply hp_bind; [apply (subsume_all_spec sub _ s (s_pset s) ex I NDs (SUB _ Is) SUB)|].
  intros d s1. cbv zeta. set (D := filter _ _). intros (A & Hd & D0 & Pv & I1 & EP & EN).
  destruct d.
  2:{ apply hp_ret. assert (D = []) as DE.
      { destruct D as [|y D']; [reflexivity|]. exfalso. assert (false = true) by (apply Hd; discriminate). discriminate. }
      rewrite (D0 DE). spl; [eapply sr_alone; [exact F|exact DE|reflexivity]|exact I|exact (conj NDs (conj SZ SUB))|reflexivity]. }
  assert (DN : D <> []) by (apply Hd; reflexivity).
  assert (HP : s_pset s1 = s_pset s) by apply (ab_sets _ _ _ _ A PSET ltac:(discriminate)).
  assert (HW : get_set w s1 = get_set w s) by apply (ab_sets _ _ _ _ A w W2).
  assert (AL : forall ls, incl ls (set_list (s_pset s)) ->
     alive (s_heap s1) ls = filter (fun l => negb (existsb (Nat.eqb l) D)) ls).
  { intros ls Hls. unfold alive. apply filter_ext_in. intros l Hl.
    pose proof (Hls _ Hl) as Hp. pose proof (inv_num_pos I Hp) as NP.
    rewrite (absorbs_num _ _ _ _ l A (inv_live_P I Hp)).
    assert (SP : 0 <= sum_nums (s_heap s) D).
    { apply sum_nums_filter_pos. intros y Hy. unfold D in Hy. apply filter_In in Hy.
      pose proof (inv_num_pos I (SUB _ (proj1 Hy))). lia. }
    destruct (Nat.eqb_spec l sub) as [-> |NE].
    - assert (existsb (Nat.eqb sub) D = false) as ->.
      { apply not_true_iff_false. rewrite existsb_eqb. unfold D. intros X. apply filter_In in X.
        destruct X as (_ & X). unfold gen in X. rewrite Nat.eqb_refl in X. discriminate. }
      pose proof (inv_num_pos I Hp). cbn. destruct (Z.eqb_spec (num_of (s_heap s) sub + sum_nums (s_heap s) D) 0); [lia|reflexivity].
    - destruct (existsb (Nat.eqb l) D); [reflexivity|].
      cbn. destruct (Z.eqb_spec (num_of (s_heap s) l) 0); [lia|reflexivity]. }
  assert (LP : forall l, In l (set_list (s_pset s)) -> s_heap s1 l <> None).
  { intros l Hl X. rewrite (ab_heap _ _ _ _ A) in X. apply (inv_live_P I Hl). destruct (s_heap s l); [discriminate|reflexivity]. }
  unfold mbind. rewrite (validate_eq w s1) by (intros l Hl; apply LP, SUB; rewrite <- HW; exact Hl).
  rewrite (validate_eq PSET).
  2:{ intros l Hl. rewrite get_with_ne in Hl by congruence. apply LP. rewrite <- HP. exact Hl. }
  assert (HH : forall X, s_heap (with_set w X s1) = s_heap s1) by (intros; destruct w; reflexivity).
  rewrite HH, HW. rewrite get_with_ne by congruence.
  change (get_set PSET s1) with (s_pset s1). rewrite HP.
  set (s2 := with_set PSET _ _).
  assert (Ep : s_pset s2 = Pv).
  { change (s_pset s2) with (exact_set (s_heap s1) (alive (s_heap s1) (set_list (s_pset s)))).
    rewrite AL by (intros y; auto). rewrite <- EP.
    pose proof (i_p I1) as [SZ1 NM1 _]. destruct Pv as [pl ps pn]. cbn [set_list set_sz set_nm] in *. unfold exact_set. f_equal; congruence. }
  split; [|spl].
  - eapply sr_some with (D := D); eauto. 
  - unfold PopSpec.Inv in *. rewrite Ep. destruct w; try congruence; exact I1.
  - assert (Ew : get_set w s2 = exact_set (s_heap s1) (alive (s_heap s1) (set_list (get_set w s)))).
    { destruct w; try congruence; reflexivity. }
    rewrite Ew. unfold act_ok. rewrite Ep, EP. cbn [exact_set set_list set_sz]. spl.
    + apply alive_nodup, NDs.
    + reflexivity.
    + rewrite AL by exact SUB. intros y Hy. apply filter_In in Hy. apply filter_In. split; [apply SUB|]; apply Hy.
  - rewrite Ep. exact EN.
Qed.
End Inv1.

(** ** The whole of clset_update. *)
Lemma touches_all_pset R ls (s s' : st B) : touches_all R ls s s' ->
  misc s' = misc s /\ s_next s' = s_next s /\ forall w, get_set w s' = get_set w s.
Proof. intros (h' & g & -> & _). spl; try reflexivity. Qed.

Definition update_steps (w : sel) (x y : list f64) (cur : bool) (s s1 : st B) (cs1 : list (cl B)) (s2 s' : st B) : Prop :=
  touches_all (updated x y (set_nm (get_set w s)) cur) (set_list (get_set w s)) s s1 /\
  map (s_heap s1) (set_list (get_set w s)) = map Some cs1 /\
  touches_all (fitted (fold_left (fun a c => fadd a (fmul (cl_acc K c) (of_Z (c_num c)))) cs1 f0))
    (set_list (get_set w s)) s1 s2 /\
  (if SET_SUBSUMPTION K then subsumption_rel w s2 s' else s' = s2).

Lemma clset_update_spec N w x y cur s ex : 0 <= N -> N + 1 <= 2 ^ 53 ->
  Inv K kf N wf s ex -> act_ok s (get_set w s) -> w <> PSET -> w <> KSET -> w <> PREV_PSET ->
  (set_list (get_set w s) <> [] -> 1 <= set_nm (get_set w s) <= 2 ^ 33) ->
  (vla0_is_ub K = true -> set_list (get_set w s) <> []) ->
  set_nm (s_pset s) <= 2 ^ 53 ->
  xok K dom x -> Z.of_nat (length y) = y_dim K ->
  hpost FO (clset_update V K w x y cur s) (fun _ s' =>
    (exists s1 cs1 s2, update_steps w x y cur s s1 cs1 s2 s' /\ Inv K kf (N + 1) wf s2 ex) /\
    Inv K kf (N + 1) wf s' ex /\ act_ok s' (get_set w s') /\
    set_nm (s_pset s') = set_nm (s_pset s)).
Proof.
  intros N0 N1 I AO W1 W2 W3 Hnm Hv PN Lx Ly. pose proof AO as (ND & SZ & SUB).
  unfold clset_update. apply hp_bind_get. set (S := get_set w s) in *.
  eapply hp_bind.
  { apply (miter_touch FO _ (updated x y (set_nm S) cur) (rule_ok K kf N wf)); [exact ND| |].
    - intros l Hl. destruct (s_heap s l) as [c|] eqn:E; [|exfalso; apply (inv_live_P I (SUB _ Hl)), E].
      exists c. split; [reflexivity|apply (i_ok I _ _ E)].
    - intros l c s0 E R. apply (modify_rand_touch FO _ _ l c s0 E). apply (update_spec N); assumption. }
  intros [] s1 T1. destruct (touches_all_pset _ _ _ _ T1) as (M1 & X1 & G1).
  assert (I1 : Inv K kf (N + 1) wf s1 ex).
  { eapply (touches_all_inv K kf N (N + 1) wf); [exact I|exact T1|lia| |].
    - intros c c' U. apply (ud_num _ _ _ _ _ _ U).
    - intros l c c' Hl E U R. eapply updated_ok; try eassumption. apply Hnm. intros X. rewrite X in Hl. contradiction. }
  assert (P1 : s_pset s1 = s_pset s) by apply (G1 PSET).
  assert (W1s : get_set w s1 = S) by apply G1.
  (* fitness *)
  destruct (live_list (s_heap s1) (set_list S)) as (cs1 & E1).
  { intros l Hl. apply (inv_live_P I1). rewrite P1. apply SUB, Hl. }
  eapply hp_bind with (P := fun _ s2 => touches_all (fitted (acc_sum K cs1)) (set_list S) s1 s2).
  { unfold clset_update_fit. apply hp_bind_get. rewrite W1s.
    destruct (vla0_is_ub K && (set_sz S <? 1)) eqn:VL.
    { exfalso. apply andb_true_iff in VL. destruct VL as (V1 & V2). apply Z.ltb_lt in V2.
      pose proof (Hv V1). destruct (set_list S); [congruence|]. cbn [length] in SZ. lia. }
    rewrite SZ, Nat2Z.id, firstn_all. unfold mbind at 1. rewrite (get_all_eq _ _ _ E1).
    apply update_fits_spec; assumption. }
  intros [] s2 T2. destruct (touches_all_pset _ _ _ _ T2) as (M2 & X2 & G2).
  assert (I2 : Inv K kf (N + 1) wf s2 ex).
  { eapply (touches_all_inv K kf (N + 1) (N + 1) wf); [exact I1|exact T2|lia| |].
    - intros c c' U. rewrite U. reflexivity.
    - intros l c c' Hl E U R. rewrite U. destruct R as [a b c0 d e f].
      assert (NB : forall l0 d0, In l0 (set_list S) -> s_heap s1 l0 = Some d0 -> 1 <= c_num d0 <= 2 ^ 53).
      { intros l0 d0 H0 Ed. rewrite <- (num_of_some _ _ _ Ed). assert (Hp : In l0 (set_list (s_pset s1))) by (rewrite P1; apply SUB, H0).
        split; [apply (inv_num_pos I1 Hp)|]. etransitivity; [|exact PN]. rewrite <- P1, (so_num (i_p I1)).
        apply sum_nums_ge; [|exact Hp]. intros z Hz. pose proof (inv_num_pos I1 Hz). lia. }
      assert (AT : Forall fpos (map (fun c => fmul (cl_acc K c) (of_Z (c_num c))) cs1)).
      { apply acc_terms_fpos. apply Forall_forall. intros d0 Hd. destruct (map_heap_in _ _ _ _ E1 Hd) as (l0 & H0 & Ed). eapply NB; eassumption. }
      constructor; cbn; try assumption. apply fit_step_ok; [exact a|apply cl_acc_in|eapply NB; eassumption| |].
      + rewrite acc_sum_list. apply fold_fpos; [reflexivity|exact AT].
      + rewrite acc_sum_list. apply fold_ge_elem; [reflexivity|exact AT|].
        apply in_map_iff. exists c. split; [reflexivity|]. destruct (map_heap_in' _ _ _ _ E1 Hl) as (d0 & Hd & Ed). congruence. }
  assert (P2 : s_pset s2 = s_pset s) by (change (get_set PSET s2 = s_pset s); rewrite G2; exact P1).
  assert (W2s : get_set w s2 = S) by (rewrite G2; exact W1s).
  assert (AO2 : act_ok s2 (get_set w s2)).
  { rewrite W2s. unfold act_ok. rewrite P2. exact AO. }
  assert (ST : forall s', (if SET_SUBSUMPTION K then subsumption_rel w s2 s' else s' = s2) -> update_steps w x y cur s s1 cs1 s2 s').
  { intros s' H. unfold update_steps. fold S. spl; try assumption. }
  destruct (SET_SUBSUMPTION K) eqn:SS.
  - eapply hp_mono; [apply (subsumption_spec (N + 1) w s2 ex I2 AO2 W1 W2 W3)|].
    intros [] s' (A1 & A2 & A3 & A4). spl; try assumption; [|congruence].
    exists s1, cs1, s2. auto.
  - apply hp_ret. spl; try assumption; [|congruence]. exists s1, cs1, s2. auto.
Qed.
End Update.
