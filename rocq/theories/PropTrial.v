(** * Properties of the steps of a trial, in the form the property theorems use. *)
From Coq Require Import ZArith Bool List Reals Lia Lra Permutation.
From Flocq Require Import Core BinarySingleNaN.
From Verif Require Import Outcome F64 F64Facts F64Bounds Rng RngFacts Pop PopSpec PopInv PopSel PopDel
  PopCover PopMatch PopMset PopUpdate PopEA PopPA PopTrial PopFit PopRL PopOps PopSeq.
Import ListNotations.
Open Scope Z_scope.

Section Steps.
Context {B : Type} (FO : Prop) (V : vtab B) (K : cfg) (kf : Z) (wf : B -> Prop) (mt : B -> list f64 -> Prop)
  {dom : list f64 -> Prop}.
Hypothesis CO : cfg_ok K kf.
Hypothesis VO : vt_ok (dom := dom) FO V K wf mt.

Lemma C04_lemma N x s ex : 0 <= N -> xok K dom x -> Inv K kf N wf s ex -> s_mset s = empty_set ->
  set_nm (s_pset s) <= POP_SIZE K ->
  hpost FO (clset_match V K x true s) (fun _ s' =>
    (forall a, 0 <= a < n_actions K ->
       exists l c, In l (set_list (s_mset s')) /\ s_heap s' l = Some c /\ c_action c = a) /\
    (forall l, In l (set_list (s_mset s')) ->
       In l (set_list (s_pset s')) /\ exists c, s_heap s' l = Some c /\ mt (c_body c) x) /\
    NoDup (set_list (s_mset s')) /\ set_sz (s_mset s') = Z.of_nat (length (set_list (s_mset s'))) /\
    set_nm (s_pset s') <= POP_SIZE K /\ Inv K kf N wf s' ex /\ matching V K wf mt x true s s').
Proof.
  intros N0 Lx I E0 PN. eapply hp_mono; [apply (matching_spec FO V K kf wf mt CO VO N x true s ex N0 Lx I E0 PN)|].
  intros [] s' (Mt & I' & PN' & (ND & SZ & SUB) & _ & NE & CV). pose proof Mt as (s1 & s2 & cs & _ & _ & _ & _ & Mo & _ & _ & E').
  assert (NA := ok_n_actions _ _ CO).
  assert (MM : forall l, In l (set_list (s_mset s')) -> exists c, s_heap s' l = Some c /\ mt (c_body c) x).
  { rewrite E'. exact (mo_mt _ _ _ Mo). }
  spl; try assumption.
  - intros a Ha. destruct (Z.eq_dec (n_actions K) 1) as [E1|E1]; [|apply CV; [lia|reflexivity|exact Ha]].
    destruct (set_list (s_mset s')) as [|l r] eqn:EL; [destruct (NE eq_refl eq_refl)|].
    destruct (MM l (or_introl eq_refl)) as (c & Ec & _). exists l, c. split; [left; reflexivity|split; [exact Ec|]].
    pose proof (ro_action (i_ok I' _ _ Ec)). lia.
  - intros l Hl. split; [apply SUB, Hl|apply MM, Hl].
Qed.

Lemma C05_lemma N x s ex : 0 <= N -> xok K dom x -> Inv K kf N wf s ex -> s_mset s = empty_set ->
  set_nm (s_pset s) <= POP_SIZE K ->
  hpost FO (clset_match V K x false s) (fun _ s' =>
    set_list (s_mset s') = rev (filter (flagged (s_heap s')) (set_list (s_pset s))) /\
    set_sz (s_mset s') = Z.of_nat (length (set_list (s_mset s'))) /\
    set_nm (s_mset s') = sum_nums (s_heap s') (set_list (s_mset s')) /\
    (forall l, In l (set_list (s_mset s')) <->
       In l (set_list (s_pset s)) /\ exists c, s_heap s' l = Some c /\ mt (c_body c) x) /\
    (forall l, In l (set_list (s_pset s)) -> exists c c', s_heap s l = Some c /\ s_heap s' l = Some c' /\ matched V K wf mt x c c') /\
    (forall l, ~ In l (set_list (s_pset s)) -> s_heap s' l = s_heap s l) /\
    (forall w, w <> MSET -> get_set w s' = get_set w s) /\ s_next s' = s_next s /\
    exists cs, map (s_heap s') (set_list (s_pset s)) = map Some cs /\
      misc s' = misc (match_stats K (set_sz (s_mset s')) cs s)).
Proof.
  intros N0 Lx I E0 PN. eapply hp_mono; [apply (match_spec FO V K kf N wf mt CO VO N0 x false s ex Lx I E0 PN)|].
  intros [] s' (s1 & s2 & cs & MR & I1 & Mo1 & Mn1 & _ & _ & _ & _ & _ & NC & _ & Ecs & ->).
  rewrite (NC eq_refl) in *. set (s' := match_stats K _ cs s1).
  change (s_heap s') with (s_heap s1). change (s_mset s') with (s_mset s1). change (s_next s') with (s_next s1).
  assert (EP : s_pset s1 = s_pset s) by (apply (mr_sets _ _ _ _ _ _ _ _ MR PSET); discriminate).
  pose proof (mr_m _ _ _ _ _ _ _ _ MR) as EM. rewrite E0 in EM. cbn [empty_set set_list set_sz set_nm] in EM.
  rewrite app_nil_r in EM.
  spl.
  - rewrite EM. reflexivity.
  - apply (mo_sz _ _ _ Mo1).
  - exact Mn1.
  - intros l. rewrite EM. cbn [set_list]. rewrite <- in_rev, filter_In. split.
    + intros (Hl & Fl). split; [exact Hl|]. destruct (mr_in _ _ _ _ _ _ _ _ MR l Hl) as (c & c' & _ & E' & Mc).
      exists c'. split; [exact E'|]. apply (ma_m _ _ _ _ _ _ _ Mc). unfold flagged in Fl. rewrite E' in Fl. exact Fl.
    + intros (Hl & c' & E' & Mx). split; [exact Hl|]. destruct (mr_in _ _ _ _ _ _ _ _ MR l Hl) as (c & c'' & _ & E'' & Mc).
      rewrite E' in E''. injection E'' as <-. unfold flagged. rewrite E'. apply (ma_m _ _ _ _ _ _ _ Mc), Mx.
  - apply (mr_in _ _ _ _ _ _ _ _ MR).
  - apply (mr_out _ _ _ _ _ _ _ _ MR).
  - intros w W. transitivity (get_set w s1); [destruct w; reflexivity|]. apply (mr_sets _ _ _ _ _ _ _ _ MR w W).
  - apply (mr_next _ _ _ _ _ _ _ _ MR).
  - exists cs. rewrite <- EP. split; [exact Ecs|]. unfold s'. pose proof (mr_misc _ _ _ _ _ _ _ _ MR) as MM.
    unfold misc in *. unfold match_stats. sst. injection MM as -> -> -> -> -> -> -> -> -> -> ->. reflexivity.
Qed.
Lemma C05_sets_lemma N x s ex : 0 <= N -> xok K dom x -> Inv K kf N wf s ex -> s_mset s = empty_set ->
  set_nm (s_pset s) <= POP_SIZE K -> hpost FO (clset_match V K x false s) (fun _ s' => Inv K kf N wf s' ex).
Proof.
  intros N0 Lx I E0 PN. eapply hp_mono; [apply (matching_spec FO V K kf wf mt CO VO N x false s ex N0 Lx I E0 PN)|].
  intros [] s' H. apply H.
Qed.

Lemma C07_lemma N s ex : Inv K kf N wf s ex -> set_list (s_pset s) <> [] ->
  hpost FO (clset_pset_del V K s) (fun _ s' => exists i l c, del_choice V K s i /\ del_rel i l c s s').
Proof. exact (pset_del_spec FO V K kf N wf CO s ex). Qed.
End Steps.

(** ** Subsumption conserves the numerosity of the set. *)
Lemma sum_nums_zeroed {B} (h h1 : loc -> option (cl B)) (g : loc -> bool) ls :
  (forall l, In l ls -> num_of h1 l = if g l then 0 else num_of h l) ->
  sum_nums h1 ls + sum_nums h (filter g ls) = sum_nums h ls.
Proof.
  induction ls as [|l r IH]; intros H; cbn [sum_nums filter]; [reflexivity|].
  pose proof (H l (or_introl eq_refl)) as Hl. specialize (IH (fun y Hy => H y (or_intror Hy))).
  destruct (g l); cbn [sum_nums]; lia.
Qed.
Lemma sum_nums_app {B} (h : loc -> option (cl B)) a b : sum_nums h (a ++ b) = sum_nums h a + sum_nums h b.
Proof. induction a as [|x a IH]; cbn [app sum_nums]; [reflexivity|rewrite IH; lia]. Qed.
Lemma absorbs_sum {B} (V : vtab B) sub D (s s' : st B) ls : NoDup ls -> In sub ls -> (forall l, In l ls -> s_heap s l <> None) ->
  D = filter (gen V (s_heap s) sub) ls -> absorbs sub D s s' -> sum_nums (s_heap s') ls = sum_nums (s_heap s) ls.
Proof.
  intros ND Is HL ED A. apply in_split in Is. destruct Is as (l1 & l2 & ->).
  assert (NI : ~ In sub (l1 ++ l2)) by (apply NoDup_remove_2, ND).
  assert (GS : gen V (s_heap s) sub sub = false) by (unfold gen; rewrite Nat.eqb_refl; reflexivity).
  assert (ED' : D = filter (gen V (s_heap s) sub) l1 ++ filter (gen V (s_heap s) sub) l2).
  { rewrite ED, filter_app. cbn [filter]. rewrite GS. reflexivity. }
  assert (Z : forall l, In l (l1 ++ l2) -> num_of (s_heap s') l = if gen V (s_heap s) sub l then 0 else num_of (s_heap s) l).
  { intros l Hl. assert (Hl' : In l (l1 ++ sub :: l2)) by (apply in_app_iff in Hl; apply in_app_iff; cbn; tauto).
    rewrite (absorbs_num sub D s s' l A (HL l Hl')).
    destruct (Nat.eqb_spec l sub) as [->|NE]; [contradiction|].
    destruct (existsb (Nat.eqb l) D) eqn:EX.
    - apply existsb_eqb in EX. rewrite ED in EX. apply filter_In in EX. destruct EX as (_ & ->). reflexivity.
    - destruct (gen V (s_heap s) sub l) eqn:G; [|reflexivity]. exfalso.
      assert (In l D) by (rewrite ED; apply filter_In; auto). apply existsb_eqb in H. congruence. }
  assert (ZS : num_of (s_heap s') sub = num_of (s_heap s) sub + sum_nums (s_heap s) D).
  { rewrite (absorbs_num sub D s s' sub A (HL sub (in_elt sub l1 l2))), Nat.eqb_refl. reflexivity. }
  rewrite !sum_nums_app. cbn [sum_nums]. rewrite ZS, ED', sum_nums_app.
  pose proof (sum_nums_zeroed (s_heap s) (s_heap s') _ l1 (fun l Hl => Z l (in_or_app _ _ _ (or_introl Hl)))).
  pose proof (sum_nums_zeroed (s_heap s) (s_heap s') _ l2 (fun l Hl => Z l (in_or_app _ _ _ (or_intror Hl)))).
  lia.
Qed.

Lemma fmax_mono_l x y z : fle x y = true -> nn z -> fle (fmax x z) (fmax y z) = true.
Proof.
  intros L Nz. destruct (fle_nn _ _ L) as (Nx & Ny). unfold fmax. rewrite Nx, Ny, Nz.
  apply fle_X in L; [|exact Nx|exact Ny].
  destruct (flt x z) eqn:A, (flt y z) eqn:C;
    repeat match goal with H : flt _ _ = true |- _ => apply flt_X in H; [|assumption|assumption]
      | H : flt _ _ = false |- _ => apply flt_X_false in H; [|assumption|assumption] end;
    apply fle_X; try assumption; lra.
Qed.

Section Steps2.
Context {B : Type} (FO : Prop) (V : vtab B) (K : cfg) (kf : Z) (wf : B -> Prop) (mt : B -> list f64 -> Prop)
  {dom : list f64 -> Prop}.
Hypothesis CO : cfg_ok K kf.
Hypothesis VO : vt_ok (dom := dom) FO V K wf mt.

Lemma C10_lemma (c : cl B) :
  (fgt (c_err c) (E0 K) = false -> cl_acc K c = f1) /\
  (fgt (c_err c) (E0 K) = true ->
     cl_acc K c = fmax (fmul (ALPHA K) (m_pow (lm K) (fdiv (c_err c) (E0 K)) (fneg (NU K)))) dbl_epsilon /\
     fin_in (bpow radix2 (-52)) (Rmax (B2R (ALPHA K)) (bpow radix2 (-52))) (cl_acc K c)) /\
  fin_in (bpow radix2 (-52)) 1 (cl_acc K c).
Proof.
  split; [|split]; [| |exact (cl_acc_in K kf CO c)]; unfold cl_acc; intros G; rewrite G; [reflexivity|].
  split; [reflexivity|].
  exact (acc_in (m_pow (lm K)) (ALPHA K) (c_err c) (E0 K) (NU K)
      (ok_pow _ _ CO) (ok_alpha _ _ CO) (ok_e0 _ _ CO) (ok_nu _ _ CO) G).
Qed.
Lemma C10_share_lemma (cs : list (cl B)) (c : cl B) : In c cs -> Forall (fun d => 1 <= c_num d <= 2 ^ 53) cs ->
  flt f0 (acc_sum K cs) = true /\ fin_in 0 1 (fdiv (fmul (cl_acc K c) (of_Z (c_num c))) (acc_sum K cs)).
Proof.
  intros Ic F. pose proof F as F'. rewrite Forall_forall in F'.
  pose proof (acc_terms_fpos K kf CO cs F) as AT. rewrite acc_sum_list.
  assert (P : fpos (sum_list (map (fun d => fmul (cl_acc K d) (of_Z (c_num d))) cs))) by (apply fold_fpos; [reflexivity|exact AT]).
  assert (L : fle (fmul (cl_acc K c) (of_Z (c_num c))) (sum_list (map (fun d => fmul (cl_acc K d) (of_Z (c_num d))) cs)) = true).
  { apply fold_ge_elem; [reflexivity|exact AT|]. apply in_map_iff. exists c. auto. }
  pose proof (term_in _ _ (cl_acc_in K kf CO c) (F' _ Ic)) as T. pose proof eps_bounds as EB. split.
  - eapply flt_fle_trans; [|exact L]. destruct T as (Ft & Ht). apply flt_X; [reflexivity|apply fin_nn, Ft|].
    rewrite X_f0, X_finite by exact Ft. lra.
  - eapply share_in; [apply EB|exact T|exact P|exact L].
Qed.

Lemma C10_order_lemma (c1 c2 : cl B) :
  (forall a b y, fle f1 a = true -> fle a b = true -> fle y f0 = true -> fle (m_pow (lm K) b y) (m_pow (lm K) a y) = true) ->
  is_finite (E0 K) = true -> flt f0 (E0 K) = true -> is_finite (c_err c1) = true -> is_finite (c_err c2) = true ->
  fle (c_err c1) (c_err c2) = true -> fle (cl_acc K c2) (cl_acc K c1) = true.
Proof.
  intros PM FE PE F1 F2 L. pose proof (cl_acc_in K kf CO c2) as (FA & HA).
  destruct (fgt (c_err c1) (E0 K)) eqn:G1.
  2:{ rewrite (proj1 (C10_lemma c1) G1). apply fle_X; [apply fin_nn, FA|apply nn_f1|].
      rewrite X_f1, X_finite by exact FA. lra. }
  assert (G2 : fgt (c_err c2) (E0 K) = true) by (unfold fgt in *; eapply flt_fle_trans; eassumption).
  unfold cl_acc. rewrite G1, G2.
  assert (E0p : (0 < B2R (E0 K))%R).
  { apply flt_X in PE; [|reflexivity|apply fin_nn, FE]. rewrite X_f0, X_finite in PE by exact FE. exact PE. }
  assert (E0n : B2R (E0 K) <> 0%R) by lra.
  destruct (fdiv_fin (c_err c1) (E0 K) F1 FE E0n) as (N1 & X1). destruct (fdiv_fin (c_err c2) (E0 K) F2 FE E0n) as (N2 & X2).
  assert (D : fle (fdiv (c_err c1) (E0 K)) (fdiv (c_err c2) (E0 K)) = true).
  { apply fle_X; [exact N1|exact N2|]. rewrite X1, X2. apply sat_le, rnd_le. apply fle_X in L; [|apply fin_nn, F1|apply fin_nn, F2].
    rewrite !X_finite in L by assumption. unfold Rdiv. apply Rmult_le_compat_r; [|exact L]. left. apply Rinv_0_lt_compat, E0p. }
  assert (R1 : fle f1 (fdiv (c_err c1) (E0 K)) = true).
  { apply fle_X; [apply nn_f1|exact N1|]. rewrite X1, X_f1. apply flt_X in G1; [|apply fin_nn, FE|apply fin_nn, F1].
    rewrite !X_finite in G1 by assumption. rewrite <- (sat_id 1) by (pose proof one_lt_bnd; pose proof bnd_pos; lra). apply sat_le.
    rewrite <- f1_R, <- (rnd_B2R f1). apply rnd_le. rewrite f1_R.
    apply (Rmult_le_reg_r (B2R (E0 K))); [exact E0p|]. unfold Rdiv. rewrite Rmult_assoc, Rinv_l by exact E0n. lra. }
  pose proof (fneg_le0 _ (ok_nu _ _ CO)) as NU0.
  pose proof (PM _ _ _ R1 D NU0) as P.
  destruct (ok_pow _ _ CO _ _ (or_introl R1) NU0) as (A1 & A2). destruct (ok_pow _ _ CO _ _ (or_introl (fle_trans _ _ _ R1 D)) NU0) as (B1 & B2).
  destruct (fle_01_in _ A1 A2) as (FP1 & HP1). destruct (fle_01_in _ B1 B2) as (FP2 & HP2).
  destruct (ok_alpha _ _ CO) as (Fal & Hal).
  destruct (fmul_fin (ALPHA K) _ Fal FP1) as (M1 & Y1). destruct (fmul_fin (ALPHA K) _ Fal FP2) as (M2 & Y2).
  apply fle_X in P; [|apply fin_nn, FP2|apply fin_nn, FP1]. rewrite !X_finite in P by assumption.
  assert (Q : fle (fmul (ALPHA K) (m_pow (lm K) (fdiv (c_err c2) (E0 K)) (fneg (NU K))))
                  (fmul (ALPHA K) (m_pow (lm K) (fdiv (c_err c1) (E0 K)) (fneg (NU K)))) = true).
  { apply fle_X; [exact M2|exact M1|]. rewrite Y1, Y2. apply sat_le, rnd_le. apply Rmult_le_compat_l; [lra|exact P]. }
  apply fmax_mono_l; [exact Q|reflexivity].
Qed.

(** ** C11. *)
Definition outside (D ls : list loc) : list loc := filter (fun l => negb (existsb (Nat.eqb l) D)) ls.
Lemma C11_lemma N w s ex : Inv K kf N wf s ex -> act_ok s (get_set w s) -> w <> PSET -> w <> KSET -> w <> PREV_PSET ->
  hpost FO (clset_subsumption V K w s) (fun _ s' => exists D,
    (* the rules removed, and from which sets *)
    set_list (s_pset s') = outside D (set_list (s_pset s)) /\
    set_list (get_set w s') = outside D (set_list (get_set w s)) /\
    (* the numerosities *)
    sum_nums (s_heap s') (set_list (s_pset s')) = sum_nums (s_heap s) (set_list (s_pset s)) /\
    sum_nums (s_heap s') (set_list (get_set w s')) = sum_nums (s_heap s) (set_list (get_set w s)) /\
    (D = [] -> s' = s) /\
    (D <> [] -> exists sub c0,
       chosen V K (s_heap s) (set_list (get_set w s)) sub c0 /\
       (* an experienced and accurate member of the set *)
       In sub (set_list (get_set w s)) /\ s_heap s sub = Some c0 /\ THETA_SUB K < c_exp c0 /\ flt (c_err c0) (E0 K) = true /\
       (* takes exactly what it generalises *)
       (forall l, In l D <-> In l (set_list (get_set w s)) /\ l <> sub /\
          exists c, s_heap s l = Some c /\ v_cond_general V (c_body c0) (c_body c) = true /\ v_act_general V (c_body c0) (c_body c) = true) /\
       s_heap s' sub = Some (set_num (c_num c0 + sum_nums (s_heap s) D) c0) /\
       (forall l, l <> sub -> ~ In l D -> s_heap s' l = s_heap s l) /\
       (forall v, v <> PSET -> v <> KSET -> v <> w -> get_set v s' = get_set v s) /\
       s_next s' = s_next s /\ misc s' = misc s) /\
    subsumption_rel V K w s s' /\ Inv K kf N wf s' ex).
Proof.
  intros I AO W1 W2 W3. eapply hp_mono; [apply (subsumption_spec FO V K kf wf N w s ex I AO W1 W2 W3)|].
  intros [] s' (SR & I' & AO' & EN). destruct AO as (ND & SZ & SUB).
  assert (ID : forall ls, outside [] ls = ls) by (intros ls; unfold outside; induction ls as [|a r IH]; [reflexivity|cbn [filter existsb negb]; f_equal; exact IH]).
  assert (SP : sum_nums (s_heap s') (set_list (s_pset s')) = sum_nums (s_heap s) (set_list (s_pset s))).
  { rewrite <- (so_num (i_p I')), <- (so_num (i_p I)). exact EN. }
  destruct SR as [H E|sub c Ch H E|sub c D s1 Ch ED DN A E].
  - exists []. subst s'. rewrite !ID. spl; try reflexivity; try assumption; [intros []; reflexivity|apply sr_none; auto].
  - exists []. subst s'. rewrite !ID. spl; try reflexivity; try assumption; [intros []; reflexivity|eapply sr_alone; eauto].
  - exists D. pose proof Ch as (q1 & q2 & Eq & Es & Sub & _).
    assert (Is : In sub (set_list (get_set w s))) by (rewrite Eq; apply in_elt).
    assert (Hs' : s_heap s' = s_heap s1) by (subst s'; destruct w; reflexivity).
    assert (InD : forall l, In l D -> In l (set_list (get_set w s)) /\ gen V (s_heap s) sub l = true) by (intros l; rewrite ED; apply filter_In).
    assert (ND' : ~ In sub D).
    { intros X. apply InD in X. destruct X as (_ & X). unfold gen in X. rewrite Nat.eqb_refl in X. discriminate. }
    assert (AL : forall ls, incl ls (set_list (s_pset s)) -> alive (s_heap s1) ls = outside D ls).
    { intros ls Hls. unfold alive, outside. apply filter_ext_in. intros l Hl.
      pose proof (Hls _ Hl) as Hp. pose proof (inv_num_pos I Hp) as NP.
      rewrite (absorbs_num _ _ _ _ l A (inv_live_P I Hp)).
      assert (0 <= sum_nums (s_heap s) D).
      { apply sum_nums_filter_pos. intros y Hy. apply InD in Hy. pose proof (inv_num_pos I (SUB _ (proj1 Hy))). lia. }
      destruct (Nat.eqb_spec l sub) as [-> |NE].
      - destruct (existsb (Nat.eqb sub) D) eqn:X; [apply existsb_eqb in X; contradiction|].
        destruct (Z.eqb_spec (num_of (s_heap s) sub + sum_nums (s_heap s) D) 0); [lia|reflexivity].
      - destruct (existsb (Nat.eqb l) D); [reflexivity|]. destruct (Z.eqb_spec (num_of (s_heap s) l) 0); [lia|reflexivity]. }
    assert (Ep : set_list (s_pset s') = outside D (set_list (s_pset s))) by (subst s'; rewrite <- AL by (intros y; auto); destruct w; reflexivity).
    assert (Ew : set_list (get_set w s') = alive (s_heap s1) (set_list (get_set w s))) by (subst s'; destruct w; try congruence; reflexivity).
    spl; try assumption.
    + rewrite Ew. apply AL. exact SUB.
    + rewrite Hs', Ew, sum_nums_alive. eapply absorbs_sum; try eassumption. intros l Hl. apply (inv_live_P I), SUB, Hl.
    + intros X. contradiction.
    + intros _. exists sub, c. unfold cl_subsumer in Sub. apply andb_true_iff in Sub. destruct Sub as (S1 & S2). apply Z.ltb_lt in S1.
      spl; try assumption.
      * intros l. rewrite ED, filter_In. split.
        -- intros (Hl & G). split; [exact Hl|]. unfold gen in G. apply andb_true_iff in G. destruct G as (G1 & G2).
           split; [intros ->; rewrite Nat.eqb_refl in G1; discriminate|]. rewrite Es in G2.
           destruct (s_heap s l) as [cl|]; [|discriminate]. exists cl. unfold cl_general in G2.
           destruct (v_cond_general V (c_body c) (c_body cl)); [|discriminate]. auto.
        -- intros (Hl & NE & cl & Ecl & G1 & G2). split; [exact Hl|]. unfold gen. rewrite Es, Ecl. unfold cl_general. rewrite G1, G2.
           destruct (Nat.eqb_spec sub l); [congruence|reflexivity].
      * rewrite Hs', (ab_heap _ _ _ _ A), Nat.eqb_refl, Es. cbn [option_map]. unfold num_of at 1. rewrite Es. reflexivity.
      * intros l NE NI. rewrite Hs', (ab_heap _ _ _ _ A). destruct (Nat.eqb_spec l sub); [contradiction|].
        destruct (existsb (Nat.eqb l) D) eqn:X; [apply existsb_eqb in X; contradiction|].
        unfold num_of. destruct (s_heap s l) as [cl|]; [|reflexivity]. cbn. rewrite set_num_id. reflexivity.
      * intros v V1 V2 V3. subst s'. rewrite get_with_ne by congruence. rewrite get_with_ne by congruence. apply (ab_sets _ _ _ _ A v V2).
      * subst s'. rewrite <- (ab_next _ _ _ _ A). destruct w; reflexivity.
      * subst s'. rewrite <- (ab_misc _ _ _ _ A). destruct w; reflexivity.
    + eapply sr_some; eassumption.
Qed.

(** ** C12 - C14. *)
Lemma breeding_next w p q n s s' : breeding V K wf w p q n s s' -> s_next s' = (s_next s + 2 * n)%nat.
Proof.
  induction 1 as [s|n s g c1 c2 d1 d2 cmod m1 m2 s1 s2 s3 s' _ _ _ _ _ E1 P1 P2 _ IH]; [lia|].
  assert (PN : forall w p q l d ch (s s' : st B), placed V K w p q l d ch s s' -> s_next s' = s_next s).
  { clear. intros w p q l d ch s s' [t ct g _ _ _ _ -> |_ _ ->]; reflexivity. }
  rewrite IH, (PN _ _ _ _ _ _ _ _ P2), (PN _ _ _ _ _ _ _ _ P1), E1. sst. lia.
Qed.

Definition due (w : sel) (s : st B) : Prop := exists cs, set_list (get_set w s) <> [] /\
  map (s_heap s) (set_list (get_set w s)) = map Some cs /\
  flt (fsub (of_Z (s_time s + 1))
     (fdiv (fold_left (fun a c => fadd a (of_Z (c_time c * c_num c))) cs f0) (of_Z (set_nm (get_set w s))))) (ea_theta K) = false.

Lemma C12_lemma N w s ex : 0 <= N -> (ea_tournament K = true -> FO) -> Inv K kf N wf s ex -> act_ok s (get_set w s) ->
  w <> PSET -> set_sz (get_set w s) <= int_max ->
  hpost FO (ea V K w s) (fun _ s' => due w s -> exists p q s1 s2,
    (* [s2]: all offspring created and placed *)
    breeding V K wf w p q (Z.to_nat ((ea_lambda K + 1) / 2)) s1 s2 /\
    In p (set_list (get_set w s)) /\ In q (set_list (get_set w s)) /\ s_next s1 = s_next s /\
    sum_nums (s_heap s2) (set_list (s_pset s2)) =
      sum_nums (s_heap s) (set_list (s_pset s)) + (Z.of_nat (s_next s2) - Z.of_nat (s_next s)) /\
    set_nm (s_pset s2) = sum_nums (s_heap s2) (set_list (s_pset s2)) /\
    (* then the limit is enforced *)
    deletes V K (Z.to_nat (set_nm (s_pset s2) - POP_SIZE K)) s2 s').
Proof.
  intros N0 HT I AO W SZ. eapply hp_mono; [apply (ea_spec FO V K kf N wf mt CO VO N0 w s ex HT I AO W SZ)|].
  intros [] s' (R & I') (cs0 & NE & E0 & F0).
  destruct R as [E _|cs _ E F _|cs cs1 p q g s1 s2 _ E F T E1 P Q Br G NM NS SH DL LIM]; [contradiction| |].
  - unfold mean_stamp in F. rewrite E in E0. assert (cs = cs0) by (clear -E0; revert cs0 E0; induction cs as [|c cs IH]; intros [|d ds] E; cbn in E; try discriminate; [reflexivity|injection E as -> E; f_equal; apply IH, E]).
    subst cs0. congruence.
  - destruct (touches_all_pset _ _ _ _ T) as (M1 & X1 & G1).
    exists p, q, (with_rng g s1), s2. spl; try assumption.
    + eapply parent_in, P.
    + eapply parent_in, Q.
    + rewrite <- NS, NM, (so_num (i_p I)), (breeding_next _ _ _ _ _ _ Br). change (s_next (with_rng g s1)) with (s_next s1). rewrite X1.
      change (s_next (tick s)) with (s_next s). rewrite Nat2Z.inj_add, Nat2Z.inj_mul. lia.
Qed.

Lemma C13_lemma N w s ex : 0 <= N -> (ea_tournament K = true -> FO) -> Inv K kf N wf s ex -> act_ok s (get_set w s) ->
  w <> PSET -> set_sz (get_set w s) <= int_max -> 0 <= ea_lambda K -> due w s ->
  hpost FO (ea V K w s) (fun _ s' => Z.of_nat (s_next s') - Z.of_nat (s_next s) =
    if Z.even (ea_lambda K) then ea_lambda K else ea_lambda K + 1).
Proof.
  intros N0 HT I AO W SZ L D. eapply hp_mono; [apply (C12_lemma N w s ex N0 HT I AO W SZ)|].
  intros [] s' H. destruct (H D) as (p & q & s1 & s2 & Br & _ & _ & X1 & _ & _ & DL).
  assert (DN : forall n (a b : st B), deletes V K n a b -> s_next b = s_next a).
  { clear. induction n as [|n IH]; cbn [deletes]; intros a b; [intros ->; reflexivity|].
    intros (i & l & c & m & _ & R & D). rewrite (IH _ _ D). apply (dr_next _ _ _ _ _ R). }
  rewrite (DN _ _ _ DL), (breeding_next _ _ _ _ _ _ Br), X1, Nat2Z.inj_add, Nat2Z.inj_mul, ZifyInst.of_nat_to_nat_eq.
  assert (0 <= (ea_lambda K + 1) / 2) by (apply Z.div_pos; lia).
  pose proof (Z.div_mod (ea_lambda K + 1) 2 ltac:(lia)) as DM. pose proof (Zmod_even (ea_lambda K + 1)) as ME.
  rewrite Z.add_1_r, Z.even_succ, <- Z.negb_even in ME. rewrite <- Z.add_1_r in ME.
  destruct (Z.even (ea_lambda K)); cbn [negb] in ME; lia.
Qed.

Lemma C14_lemma N w s ex : 0 <= N -> (ea_tournament K = true -> FO) -> Inv K kf N wf s ex -> act_ok s (get_set w s) ->
  w <> PSET -> set_sz (get_set w s) <= int_max ->
  hpost FO (ea V K w s) (fun _ s' =>
    (~ due w s -> s' = with_time (s_time s + 1) s) /\
    (due w s -> s_time s' = s_time s + 1 /\
       forall l, In l (set_list (get_set w s)) -> exists c c', s_heap s l = Some c /\ s_heap s' l = Some c' /\
         c' = set_num (c_num c') (set_time (s_time s + 1) c))).
Proof.
  intros N0 HT I AO W SZ. eapply hp_mono; [apply (ea_spec FO V K kf N wf mt CO VO N0 w s ex HT I AO W SZ)|].
  intros [] s' (R & I').
  assert (ALT : (~ due w s /\ s' = tick s) \/ (due w s /\ s_time s' = s_time s + 1 /\
       forall l, In l (set_list (get_set w s)) -> exists c c', s_heap s l = Some c /\ s_heap s' l = Some c' /\
         c' = set_num (c_num c') (set_time (s_time s + 1) c))).
  { destruct R as [E X|cs _ E F X|cs cs1 p q g s1 s2 NE E F T E1 P Q Br G NM NS SH DL LIM].
    - left. split; [|exact X]. intros (cs0 & NE & _). contradiction.
    - left. split; [|exact X]. intros (cs0 & NE & E0 & F0). rewrite E in E0. unfold mean_stamp in F.
      assert (cs = cs0) by (clear -E0; revert cs0 E0; induction cs as [|c cs IH]; intros [|d ds] E; cbn in E; try discriminate; [reflexivity|injection E as -> E; f_equal; apply IH, E]).
      subst cs0. congruence.
    - right. destruct (touches_all_pset _ _ _ _ T) as (M1 & X1 & G1).
      split; [exists cs; auto|]. split.
      + pose proof (sh_misc _ _ SH) as M3. rewrite (gr_misc _ _ G) in M3. change (misc (with_rng g s1)) with (misc s1) in M3.
        rewrite M1 in M3. unfold misc in M3. injection M3. intros. cbn in *. congruence.
      + intros l Hl. destruct AO as (ND & _ & SUB). destruct T as (h' & g' & -> & A & C).
        destruct (A l Hl) as (c & c' & Ec & Ec' & ->). change (s_heap (tick s) l) with (s_heap s l) in Ec.
        assert (Pl : In l (set_list (s_pset (with_rng g (with_rng g' (with_heap h' (s_next (tick s)) (tick s))))))) by (apply SUB, Hl).
        destruct (gr_old _ _ G l Pl) as (H2 & _). pose proof (sh_heap _ _ SH l) as H3.
        change (s_heap (with_rng g (with_rng g' (with_heap h' (s_next (tick s)) (tick s)))) l) with (h' l) in H2.
        rewrite Ec' in H2. cbn [option_map] in H2. rewrite H2 in H3. cbn [option_map] in H3.
        eexists c, _. split; [exact Ec|]. split; [exact H3|]. destruct c; reflexivity. }
  destruct ALT as [(H & ->)|(H & H1)]; split; intros X; try contradiction; [reflexivity|exact H1].
Qed.
End Steps2.
