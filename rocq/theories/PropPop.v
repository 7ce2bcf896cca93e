(** * Consequences of the population lemmas, in the form the property theorems use. *)
From Coq Require Import ZArith Bool List Reals Lia Lra Permutation.
From Flocq Require Import Core BinarySingleNaN.
From Verif Require Import Outcome F64 F64Facts F64Bounds Rng RngFacts Pop PopSpec PopInv PopSel PopDel
  PopCover PopMatch PopMset PopUpdate PopEA PopPA PopTrial PopFit PopRL PopOps PopSeq.
Import ListNotations.
Open Scope Z_scope.

Section Life.
Context {B : Type} (FO : Prop) (V : vtab B) (K : cfg) (kf : Z) (wf : B -> Prop) (mt : B -> list f64 -> Prop)
  {dom : list f64 -> Prop} {E : Type} (VE : env E) (einv : E -> Prop).
Hypothesis CO : cfg_ok K kf.
Hypothesis VO : vt_ok (dom := dom) FO V K wf mt.
Hypothesis HT : ea_tournament K = true -> FO.
Hypothesis EO : env_ok (dom := dom) FO K VE einv.

Lemma life_use os s (Q : st B -> Prop) : (forall l, s_heap s l = None) ->
  Forall (op_ok (dom := dom) FO K kf wf einv) os -> costs K os <= 2 ^ 53 ->
  (forall s', Good K kf (costs K os) wf s' -> Q s') ->
  hpost FO ((xcsf_init V K ;;; run_ops V K VE os)%m s) (fun _ s' => Q s').
Proof.
  intros HE F LE H. eapply hp_mono; [apply (life_spec FO V K kf wf mt CO VO HT VE einv EO os s HE F LE)|].
  intros [] s' G. apply H, G.
Qed.

Lemma Good_nodup N s : Good K kf N wf s -> NoDup (set_list (s_pset s)) /\ NoDup (set_list (s_prev_pset s)).
Proof.
  intros G. pose proof (i_nodup (g_inv G)) as ND. unfold owned in ND. cbn [empty_set set_list app] in ND.
  apply NoDup_app_iff in ND. destruct ND as (A & Bq & _). apply NoDup_app_iff in Bq. tauto.
Qed.

Lemma C01_lemma os s : (forall l, s_heap s l = None) -> Forall (op_ok (dom := dom) FO K kf wf einv) os ->
  costs K os <= 2 ^ 53 ->
  hpost FO ((xcsf_init V K ;;; run_ops V K VE os)%m s) (fun _ s' =>
    set_sz (s_pset s') = Z.of_nat (length (set_list (s_pset s'))) /\
    set_nm (s_pset s') = sum_nums (s_heap s') (set_list (s_pset s')) /\
    NoDup (set_list (s_pset s')) /\
    (forall l, In l (set_list (s_pset s')) -> exists c, s_heap s' l = Some c /\ 1 <= c_num c)).
Proof.
  intros HE F LE. apply life_use; try assumption. intros s' G. destruct (Good_nodup _ _ G) as (ND & _).
  pose proof (i_p (g_inv G)) as P. split; [apply (so_size P)|split; [apply (so_num P)|split; [exact ND|]]].
  intros l Hl. pose proof (so_pos P l Hl) as N1. unfold num_of in N1. destruct (s_heap s' l) as [c|]; [eauto|lia].
Qed.

Lemma C02_lemma os s : (forall l, s_heap s l = None) -> Forall (op_ok (dom := dom) FO K kf wf einv) os ->
  costs K os <= 2 ^ 53 ->
  hpost FO ((xcsf_init V K ;;; run_ops V K VE os)%m s) (fun _ s' =>
    sum_nums (s_heap s') (set_list (s_pset s')) <= POP_SIZE K).
Proof.
  intros HE F LE. apply life_use; try assumption. intros s' G. rewrite <- (so_num (i_p (g_inv G))). apply (g_lim G).
Qed.

Lemma C03_lemma os s : (forall l, s_heap s l = None) -> Forall (op_ok (dom := dom) FO K kf wf einv) os ->
  costs K os <= 2 ^ 53 ->
  hpost FO ((xcsf_init V K ;;; run_ops V K VE os)%m s) (fun _ s' =>
    (forall l, s_heap s' l <> None <-> In l (set_list (s_pset s')) \/ In l (set_list (s_prev_pset s'))) /\
    NoDup (set_list (s_pset s') ++ set_list (s_prev_pset s'))).
Proof.
  intros HE F LE. apply life_use; try assumption. intros s' G. pose proof (g_inv G) as I. split.
  - intros l. rewrite (i_live I l). unfold owned. cbn [empty_set set_list app]. rewrite app_nil_r, in_app_iff. reflexivity.
  - pose proof (i_nodup I) as ND. unfold owned in ND. cbn [empty_set set_list app] in ND. rewrite app_nil_r in ND. exact ND.
Qed.

Lemma C09_lemma os s : (forall l, s_heap s l = None) -> Forall (op_ok (dom := dom) FO K kf wf einv) os ->
  costs K os <= 2 ^ 53 ->
  hpost FO ((xcsf_init V K ;;; run_ops V K VE os)%m s) (fun _ s' =>
    forall l c, In l (set_list (s_pset s')) -> s_heap s' l = Some c -> fin_in 0 (bpow radix2 kf) (c_fit c)).
Proof.
  intros HE F LE. apply life_use; try assumption. intros s' G l c _ El. apply fin_p_in. apply (ro_fit (i_ok (g_inv G) _ _ El)).
Qed.

Lemma C03_free_lemma os s : (forall l, s_heap s l = None) -> Forall (op_ok (dom := dom) FO K kf wf einv) os ->
  costs K os <= 2 ^ 53 ->
  hpost FO ((xcsf_init V K ;;; run_ops V K VE os ;;; xcsf_free K)%m s) (fun _ s' => forall l, s_heap s' l = None).
Proof. exact (life_free_spec FO V K kf wf mt CO VO HT VE einv EO os s). Qed.
End Life.

Lemma C09_lemma01 {B : Type} (FO : Prop) (V : vtab B) (K : cfg) (wf : B -> Prop) (mt : B -> list f64 -> Prop)
    (dom : list f64 -> Prop) (E : Type) (VE : env E) (einv : E -> Prop) :
  cfg_ok K 0 -> vt_ok (dom := dom) FO V K wf mt -> (ea_tournament K = true -> FO) -> env_ok (dom := dom) FO K VE einv ->
  forall os (s : st B), (forall l, s_heap s l = None) -> Forall (op_ok (dom := dom) FO K 0 wf einv) os ->
  costs K os <= 2 ^ 53 ->
  hpost FO ((xcsf_init V K ;;; run_ops V K VE os)%m s) (fun _ s' =>
    forall l c, In l (set_list (s_pset s')) -> s_heap s' l = Some c -> fin_in 0 1 (c_fit c)).
Proof. intros CO VO HT EO os s HE F LE. exact (C09_lemma FO V K 0 wf mt VE einv CO VO HT EO os s HE F LE). Qed.

Lemma C09_step_lemma {B : Type} (K : cfg) (kf : Z) : cfg_ok K kf ->
  forall (cs : list (cl B)) (c : cl B), In c cs -> Forall (fun d => 1 <= c_num d <= 2 ^ 53) cs ->
  fin_p (bpow radix2 kf) (c_fit c) ->
  fin_p (bpow radix2 kf) (c_fit (cl_update_fit K c (acc_sum K cs) (cl_acc K c))) /\
  c_fit (cl_update_fit K c (acc_sum K cs) (cl_acc K c)) =
    fadd (c_fit c) (fmul (BETA K)
      (fsub (fdiv (fmul (cl_acc K c) (of_Z (c_num c))) (fold_left fadd (map (fun d => fmul (cl_acc K d) (of_Z (c_num d))) cs) f0))
            (c_fit c))).
Proof.
  intros CO cs c Ic F Hf. split.
  - pose proof F as F'. rewrite Forall_forall in F'.
    change (fin_p (bpow radix2 kf) (fit_step K (c_fit c) (cl_acc K c) (c_num c) (acc_sum K cs))).
    assert (AT := acc_terms_fpos K kf CO cs F). apply (fit_step_ok K kf CO); try assumption.
    + apply (cl_acc_in K kf CO).
    + apply F', Ic.
    + rewrite acc_sum_list. apply fold_fpos; [reflexivity|exact AT].
    + rewrite acc_sum_list. apply fold_ge_elem; [reflexivity|exact AT|]. apply in_map_iff. exists c. auto.
  - unfold cl_update_fit. cbn [set_fit c_fit]. rewrite (acc_sum_list K cs). reflexivity.
Qed.
