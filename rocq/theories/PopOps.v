(** * Creating, storing, retrieving and freeing the population, inserting rules, and
      arbitrary sequences of public operations. *)
From Coq Require Import ZArith Bool List Reals Lia Lra Permutation.
From Flocq Require Import Core BinarySingleNaN.
From Verif Require Import Outcome F64 F64Facts F64Bounds Rng RngFacts Pop PopSpec PopInv PopSel PopDel
  PopCover PopMatch PopMset PopUpdate PopEA PopPA PopTrial PopFit PopRL.
Import ListNotations.
Open Scope Z_scope.

Section Ops.
Context {B : Type} (FO : Prop) (V : vtab B) (K : cfg) (kf : Z) (wf : B -> Prop) (mt : B -> list f64 -> Prop).
Hypothesis CO : cfg_ok K kf.
Context {dom : list f64 -> Prop}.
Hypothesis VO : vt_ok (dom := dom) FO V K wf mt.
Hypothesis HT : ea_tournament K = true -> FO.
Notation Inv N := (Inv K kf N wf).
Notation inv N := (inv K kf N wf).
Notation Good N := (Good K kf N wf).
Notation rule_ok N := (rule_ok K kf N wf).

Definition cons_set (l : loc) (z : Z) (C : cset) : cset := mkSet (l :: set_list C) (set_sz C + 1) (set_nm C + z).

(** Allocating a rule of any positive numerosity and linking it. *)
Lemma inv_new N h n P Kl Q (c : cl B) (toP : bool) : inv N h n P Kl Q [] -> rule_ok N c -> 1 <= c_num c ->
  inv N (upd h n (Some c)) (S n) (if toP then cons_set n (c_num c) P else P) Kl (if toP then Q else cons_set n (c_num c) Q) [].
Proof.
  intros [i_nodup i_live i_next i_ok i_p i_k i_q i_ex] R EN.
  assert (Fr : ~ In n (owned P Kl Q [])).
  { intros H. apply i_live in H. apply i_next in H. lia. }
  assert (Num : forall l', In l' (owned P Kl Q []) -> num_of (upd h n (Some c)) l' = num_of h l').
  { intros l' H. apply num_upd_ne. intros ->. contradiction. }
  assert (Pm : Permutation (n :: owned P Kl Q [])
    (owned (if toP then cons_set n (c_num c) P else P) Kl (if toP then Q else cons_set n (c_num c) Q) [])).
  { destruct toP; unfold cons_set; perm. }
  assert (SC : forall C, set_ok h C -> (forall l, In l (set_list C) -> In l (owned P Kl Q [])) ->
    set_ok (upd h n (Some c)) C /\ set_ok (upd h n (Some c)) (cons_set n (c_num c) C)).
  { intros C SO SUB. assert (S1 : set_ok (upd h n (Some c)) C) by (apply (set_ok_ext h); [intros l' I; apply Num, SUB, I|exact SO]).
    split; [exact S1|]. destruct S1 as [a1 a2 a3]. unfold cons_set. constructor; cbn [set_sz set_nm set_list length sum_nums].
    - lia.
    - rewrite num_upd_eq. lia.
    - intros l' [<- |H]; [rewrite num_upd_eq; lia|apply a3, H]. }
  destruct (SC P i_p ltac:(intros; apply in_owned; tauto)) as (SP1 & SP2).
  destruct (SC Q i_q ltac:(intros; apply in_owned; tauto)) as (SQ1 & SQ2).
  constructor.
  - apply (Permutation_NoDup Pm). constructor; assumption.
  - intros l'. rewrite <- (Permutation_in' (eq_refl l') Pm). simpl. rewrite <- i_live.
    destruct (Nat.eq_dec l' n) as [-> |D].
    + rewrite upd_eq. split; [intros _; left; reflexivity|discriminate].
    + rewrite upd_ne by exact D. split; [intros; right; assumption|intros [?|?]; congruence].
  - intros l' H. destruct (Nat.eq_dec l' n) as [-> |D]; [lia|].
    rewrite upd_ne in H by exact D. apply i_next in H. lia.
  - intros l' c0 H. destruct (Nat.eq_dec l' n) as [-> |D].
    + rewrite upd_eq in H. assert (c = c0) by congruence. subst. exact R.
    + rewrite upd_ne in H by exact D. apply (i_ok _ _ H).
  - destruct toP; assumption.
  - destruct i_k as (A1 & A2 & A3). repeat split; try assumption. intros l' I.
    rewrite Num by (apply in_owned; tauto). apply A3, I.
  - destruct toP; assumption.
  - intros l' [].
Qed.

(** ** xcsf_store_pset *)
(** What a stored copy keeps: everything but the cached prediction; the payload is what the
    copying functions make of it. *)
Definition stored (c d : cl B) : Prop := exists b1 b2 b3,
  rout (v_act_copy V (v_blank V) (c_body c)) b1 /\ rout (v_cond_copy V b1 (c_body c)) b2 /\ rout (v_pred_copy V b2 (c_body c)) b3 /\
  d = mkCl (c_err c) (c_fit c) (c_num c) (c_exp c) (c_size c) (c_time c) (c_m c) (repeat f0 (Z.to_nat (y_dim K)))
           (c_action c) (c_age c) (c_mtotal c) b3.

Lemma init_copy_spec N c : rule_ok N c -> rpost FO (cl_init_copy V K c) (fun d => stored c d /\ rule_ok N d /\ c_num d = c_num c).
Proof.
  intros R g. pose proof (vo_copy _ _ _ _ _ VO (c_body c) (ro_body R) g) as H. unfold cl_init_copy.
  unfold bind in *. destruct (v_act_copy V (v_blank V) (c_body c) g) as [[b1 g1]| |w|] eqn:E1; auto.
  destruct (v_cond_copy V b1 (c_body c) g1) as [[b2 g2]| |w|] eqn:E2; auto.
  destruct (v_pred_copy V b2 (c_body c) g2) as [[b3 g3]| |w|] eqn:E3; auto. simpl. spl.
  - exists b1, b2, b3. unfold rout. spl; eauto.
  - destruct R as [R1 R2 R3 R4 R5 R6]. constructor; cbn; try assumption. apply zeros_len. pose proof (ok_y_dim _ _ CO). lia.
  - reflexivity.
Qed.

Record stores (ls : list loc) (s s' : st B) : Prop := {
  st_next : s_next s' = (s_next s + length ls)%nat;
  st_misc : misc s' = misc s;
  st_sets : forall v, v <> PREV_PSET -> get_set v s' = get_set v s;
  st_old : forall l, (l < s_next s)%nat -> s_heap s' l = s_heap s l;
  st_list : set_list (s_prev_pset s') = rev (seq (s_next s) (length ls)) ++ set_list (s_prev_pset s);
  st_num : set_nm (s_prev_pset s') = set_nm (s_prev_pset s) + sum_nums (s_heap s) ls;
  st_new : forall i l, nth_error ls i = Some l -> exists c d, s_heap s l = Some c /\ s_heap s' (s_next s + i)%nat = Some d /\ stored c d
}.

(** The invariant with an empty kill set, as between operations. *)
Definition InvE (N : Z) (s : st B) : Prop := inv N (s_heap s) (s_next s) (s_pset s) empty_set (s_prev_pset s) [].

Lemma store_one N l c s : InvE N s -> s_heap s l = Some c ->
  hpost FO ((src <~ get l ;; c <~ mrand (cl_init_copy V K src) ;; l' <~ alloc c ;; clset_add PREV_PSET l') s)
    (fun _ s1 => exists d g, stored c d /\ rule_ok N d /\ c_num d = c_num c /\
       s1 = with_set PREV_PSET (cons_set (s_next s) (c_num d) (s_prev_pset s)) (with_heap (upd (s_heap s) (s_next s) (Some d)) (S (s_next s)) (with_rng g s))).
Proof.
  intros I E. eapply hp_bind_heap; [exact E|].
  eapply hp_bind with (P := fun d s' => (stored c d /\ rule_ok N d /\ c_num d = c_num c) /\ exists g, s' = with_rng g s).
  - eapply hp_rand; [apply (init_copy_spec N c), (i_ok I _ _ E)|]. intros d g D. split; [exact D|exists g; reflexivity].
  - intros d s' ((D1 & D2 & D3) & g & ->). unfold mbind at 1. unfold alloc. unfold clset_add.
    eapply hp_bind_heap; [sst; apply upd_eq|]. apply hp_bind_get. apply hp_mod. exists d, g. spl; try assumption. reflexivity.
Qed.

Lemma store_loop_spec N ls : forall s, InvE N s -> (forall l, In l ls -> In l (set_list (s_pset s))) ->
  hpost FO (miter (fun l => src <~ get l ;; c <~ mrand (cl_init_copy V K src) ;; l' <~ alloc c ;; clset_add PREV_PSET l') ls s)
    (fun _ s' => stores ls s s' /\ InvE N s').
Proof.
  induction ls as [|l r IH]; intros s I SUB; cbn [miter].
  - apply hp_ret. split; [|exact I]. constructor; try reflexivity; try (intros; reflexivity); cbn [length sum_nums]; try lia.
    intros [|i] l H; discriminate.
  - assert (Hl : In l (set_list (s_pset s))) by (apply SUB; left; reflexivity).
    destruct (s_heap s l) as [c|] eqn:E; [|exfalso; apply (inv_live_P I Hl), E].
    pose proof (inv_num_pos I Hl) as NP. rewrite (num_of_some _ _ _ E) in NP.
    eapply hp_bind; [apply (store_one N l c s I E)|].
    intros [] s1 (d & g & D1 & D2 & D3 & Es1).
    assert (I1 : InvE N s1).
    { subst s1. unfold InvE. sst. apply (inv_new N _ _ _ _ _ d false); [exact I|exact D2|lia]. }
    assert (OLD : forall l', (l' < s_next s)%nat -> s_heap s1 l' = s_heap s l').
    { intros l' H. subst s1. sst. apply upd_ne. lia. }
    assert (LT : forall l', In l' (set_list (s_pset s)) -> (l' < s_next s)%nat).
    { intros l' H. apply (i_next I), (inv_live_P I H). }
    eapply hp_mono; [apply IH; [exact I1|]|].
    + intros l' H. subst s1. apply SUB. right; exact H.
    + intros [] s' (ST & I'). split; [|exact I']. destruct ST as [a1 a2 a3 a4 a5 a6 a7].
      assert (NX : s_next s1 = S (s_next s)) by (subst s1; reflexivity). rewrite NX in *.
      constructor.
      * rewrite a1. cbn [length]. lia.
      * rewrite a2. subst s1. reflexivity.
      * intros v D. rewrite (a3 v D). subst s1. destruct v; congruence || reflexivity.
      * intros l' H. rewrite a4 by lia. apply OLD, H.
      * rewrite a5. subst s1. sst. cbn [length seq rev cons_set set_list]. rewrite <- app_assoc. reflexivity.
      * rewrite a6. replace (sum_nums (s_heap s1) r) with (sum_nums (s_heap s) r).
        -- cbn [sum_nums]. rewrite (num_of_some _ _ _ E). subst s1. sst. unfold cons_set. cbn [set_nm]. lia.
        -- apply sum_nums_ext. intros l' H. unfold num_of. rewrite OLD; [reflexivity|]. apply LT, SUB. right; exact H.
      * intros [|i] l' H; cbn [nth_error] in H.
        -- injection H as <-. exists c, d. split; [exact E|]. split; [|exact D1]. rewrite Nat.add_0_r, a4 by lia. subst s1. sst. apply upd_eq.
        -- destruct (a7 i l' H) as (c' & d' & E1 & E2 & S').
           exists c', d'. split; [|split; [|exact S']].
           ++ rewrite <- OLD; [exact E1|]. apply LT, SUB. right. eapply nth_error_In, H.
           ++ replace (s_next s + S i)%nat with (S (s_next s) + i)%nat by lia. exact E2.
Qed.

(** The old stored population is freed, then the current one is copied in reverse order. *)
Definition store_rel (s s' : st B) : Prop := exists h',
  freed (set_list (s_prev_pset s)) (s_heap s) h' /\
  stores (set_list (s_pset s)) (with_set PREV_PSET empty_set (with_heap h' (s_next s) s)) s'.
Lemma store_spec N s : Good N s -> hpost FO (store_pset V K s) (fun _ s' => store_rel s s' /\ Good N s').
Proof.
  intros G. pose proof (g_inv G) as I0.
  unfold store_pset. destruct (owned_disj _ _ _ _ (i_nodup I0)) as (NDP & _ & NDQ & _ & D1 & _).
  destruct (kill_spec PREV_PSET s NDQ) as (h' & EK & FK); [intros l Hl; apply (inv_live_Q I0 Hl)|].
  unfold mbind at 1. rewrite EK. apply hp_bind_get. set (s1 := with_set PREV_PSET empty_set (with_heap h' (s_next s) s)).
  change (s_pset s1) with (s_pset s).
  assert (I1 : InvE N s1).
  { unfold InvE. eapply freed_gen; [exact I0|exact FK| |left; reflexivity|left; reflexivity|right; reflexivity].
    cbn [get_set]. perm. }
  assert (SN : sum_nums h' (set_list (s_pset s)) = set_nm (s_pset s)).
  { symmetry. apply (so_num (i_p I1)). }
  eapply hp_mono; [apply (store_loop_spec N _ s1 I1); auto|].
  intros [] s' (ST & I'). split; [exists h'; auto|]. constructor; [exact I'| |].
  - pose proof (st_sets _ _ _ ST PSET ltac:(discriminate)) as E. cbn [get_set] in E. rewrite E. apply (g_lim G).
  - rewrite (st_num _ _ _ ST). unfold s1. sst. cbn [empty_set set_nm]. rewrite SN. rewrite Z.add_0_l. apply (g_lim G).
Qed.

(** ** xcsf_retrieve_pset *)
Definition retrieve_rel (s s' : st B) : Prop :=
  (set_list (s_prev_pset s) = [] -> s' = s) /\
  (set_list (s_prev_pset s) <> [] -> exists h', freed (set_list (s_pset s)) (s_heap s) h' /\
     s' = with_set PREV_PSET empty_set (with_set PSET (s_prev_pset s) (with_heap h' (s_next s) s))).
Lemma retrieve_spec N s : Good N s -> exists s', retrieve_pset s = Ok (tt, s') /\ retrieve_rel s s' /\ Good N s'.
Proof.
  intros G. pose proof (g_inv G) as I0. unfold retrieve_pset, retrieve_rel.
  unfold mbind at 1. unfold mget at 1. cbv beta iota.
  pose proof (so_size (i_q I0)) as SZ. destruct (Z.ltb_spec (set_sz (s_prev_pset s)) 1) as [L|L].
  - exists s. split; [reflexivity|]. split; [split; [reflexivity|]|exact G].
    intros NE. destruct (set_list (s_prev_pset s)); [congruence|cbn [length] in SZ; lia].
  - destruct (owned_disj _ _ _ _ (i_nodup I0)) as (NDP & _ & NDQ & _ & D1 & _).
    destruct (kill_spec PSET s NDP) as (h' & EK & FK); [intros l Hl; apply (inv_live_P I0 Hl)|].
    unfold mbind at 1. rewrite EK. unfold mbind, mget, mmod, clset_init. eexists. split; [reflexivity|]. split.
    + split.
      * intros E. rewrite E in SZ. cbn in SZ. lia.
      * intros _. exists h'. split; [exact FK|reflexivity].
    + assert (I1 : inv N h' (s_next s) empty_set empty_set (s_prev_pset s) []).
      { eapply freed_gen; [exact I0|exact FK| |right; reflexivity|left; reflexivity|left; reflexivity]. cbn [get_set]. perm. }
      constructor; sst; [|apply (g_lim_prev G)|cbn [empty_set set_nm]; pose proof (ok_pop _ _ CO); lia].
      destruct I1 as [a b c d e f g i]. constructor; try assumption.
Qed.

(** ** xcsf_free: nothing is left. *)
Lemma free_spec N s : Good N s -> exists s', xcsf_free K s = Ok (tt, s') /\ (forall l, s_heap s' l = None) /\
  s_pset s' = empty_set /\ s_prev_pset s' = empty_set.
Proof.
  intros G. pose proof (g_inv G) as I0. unfold xcsf_free. unfold mbind at 1. unfold mmod at 1.
  set (s0 := with_explore _ _). destruct (owned_disj _ _ _ _ (i_nodup I0)) as (NDP & _ & NDQ & _ & D1 & _).
  destruct (kill_spec PSET s0 NDP) as (h' & EK & FK); [intros l Hl; apply (inv_live_P I0 Hl)|].
  assert (I1 : inv N h' (s_next s) empty_set empty_set (s_prev_pset s) []).
  { eapply freed_gen; [exact I0|exact FK| |right; reflexivity|left; reflexivity|left; reflexivity]. cbn [get_set]. perm. }
  unfold mbind at 1. rewrite EK.
  destruct (kill_spec PREV_PSET (with_set PSET empty_set (with_heap h' (s_next s0) s0)) NDQ) as (h2 & EK2 & FK2).
  { intros l Hl. apply (inv_live_Q I1 Hl). }
  rewrite EK2. eexists. split; [reflexivity|]. split; [|split; reflexivity].
  intros l. sst. change (get_set PREV_PSET (with_set PSET empty_set (with_heap h' (s_next s0) s0))) with (s_prev_pset s) in FK2.
  destruct (in_dec Nat.eq_dec l (set_list (s_prev_pset s))) as [H|H]; [apply (freed_in _ _ _ _ FK2 H)|].
  rewrite (freed_out _ _ _ _ FK2 H). sst. destruct (h' l) as [c|] eqn:E; [|reflexivity]. exfalso.
  assert (L : h' l <> None) by congruence. apply (i_live I1) in L. unfold owned in L. cbn [empty_set set_list app] in L.
  rewrite app_nil_r in L. contradiction.
Qed.

(** ** Inserting a decoded rule. *)
Definition insert_rel (c : cl B) (s s' : st B) : Prop := exists s0 s1 h',
  s0 = with_set KSET empty_set (with_set PSET (cons_set (s_next s) (c_num c) (s_pset s))
     (with_heap (upd (s_heap s) (s_next s) (Some c)) (S (s_next s)) s)) /\
  deletes V K (Z.to_nat (set_nm (s_pset s) + c_num c - POP_SIZE K)) s0 s1 /\ shrinks s0 s1 /\
  set_nm (s_pset s1) = Z.min (set_nm (s_pset s) + c_num c) (POP_SIZE K) /\
  freed (set_list (s_kset s1)) (s_heap s1) h' /\
  s' = with_set KSET empty_set (with_heap h' (s_next s1) s1).
Lemma insert_spec N c s : Good N s -> rule_ok N c -> 1 <= c_num c -> 
  hpost FO (insert_cl V K c s) (fun _ s' => insert_rel c s s' /\ Good N s').
Proof.
  intros G R NP. pose proof (g_inv G) as I0. unfold insert_cl. unfold mbind at 1. unfold alloc.
  unfold mbind at 1. unfold clset_add. unfold mbind at 1. erewrite get_eq by (sst; apply upd_eq).
  unfold mbind at 1. unfold mget at 1. unfold mmod at 1. cbv beta iota.
  unfold mbind at 1. unfold clset_init at 1. unfold mmod at 1. cbv beta iota.
  set (s0 := with_set KSET _ _).
  assert (I : Inv N s0 []).
  { unfold PopSpec.Inv, s0. sst. apply (inv_new N _ _ _ _ _ c true I0 R NP). }
  eapply hp_bind; [apply (enforce_spec FO V K kf N wf CO s0 [] I)|].
  intros [] s1 (SH & I1 & NM & _ & DL).
  destruct (owned_disj _ _ _ _ (i_nodup I1)) as (_ & NDK & _).
  destruct (kill_spec KSET s1 NDK) as (h' & EK & FK); [intros l Hl; apply (inv_live_K I1 Hl)|].
  rewrite EK. split.
  - exists s0, s1, h'. spl; try assumption; reflexivity.
  - constructor; sst.
    + apply (inv_kill_K K kf wf N s1 [] h' I1 FK).
    + rewrite NM. lia.
    + pose proof (sh_sets _ _ SH PREV_PSET ltac:(discriminate) ltac:(discriminate)) as E. cbn [get_set] in E. rewrite E. apply (g_lim_prev G).
Qed.

(** ** xcsf_init *)
(** A rule of the initial population. *)
Definition seeded_rule (c : cl B) : Prop := exists b1 b2 b,
  rout (v_cond_init V (v_blank V)) b1 /\ rout (v_pred_init V b1) b2 /\ rout (v_act_init V b2) b /\
  c = mkCl (INIT_ERROR K) (INIT_FITNESS K) 1 0 (of_Z (POP_SIZE K)) 0 false (repeat f0 (Z.to_nat (y_dim K))) 0 0 0 b.
Definition init_rel (s s' : st B) : Prop :=
  s_prev_pset s' = empty_set /\ s_time s' = 0 /\ s_error s' = E0 K /\ s_explore s' = false /\
  s_mset_size s' = f0 /\ s_aset_size s' = f0 /\ s_mfrac s' = f0 /\
  s_pa s' = repeat f0 (Z.to_nat (n_actions K * y_dim K)) /\ s_nr s' = repeat f0 (Z.to_nat (n_actions K * y_dim K)) /\
  (POP_INIT K = false -> s_pset s' = empty_set) /\
  (POP_INIT K = true -> set_nm (s_pset s') = POP_SIZE K /\ set_sz (s_pset s') = POP_SIZE K) /\
  forall l c, s_heap s' l = Some c -> seeded_rule c.

Lemma seeded_ok c b : wf b -> c = set_body b (cl_init V K (of_Z (POP_SIZE K)) 0) -> rule_ok 0 c.
Proof.
  intros W ->. assert (PK := ok_pop _ _ CO). assert (NA := ok_n_actions _ _ CO). unfold int_max in PK.
  constructor; cbn; try assumption; try lia.
  - apply (ok_init_fitness _ _ CO).
  - apply of_Z_size. lia.
  - apply zeros_len. pose proof (ok_y_dim _ _ CO). lia.
Qed.

Lemma init_loop_spec n : forall s, InvE 0 s -> s_prev_pset s = empty_set -> set_sz (s_pset s) = set_nm (s_pset s) ->
  set_nm (s_pset s) + Z.of_nat n = POP_SIZE K -> (forall l c, s_heap s l = Some c -> seeded_rule c) ->
  hpost FO (pset_init_loop V K n s) (fun _ s' => InvE 0 s' /\ s_prev_pset s' = empty_set /\ set_nm (s_pset s') = POP_SIZE K /\
    set_sz (s_pset s') = POP_SIZE K /\ misc s' = misc s /\ forall l c, s_heap s' l = Some c -> seeded_rule c).
Proof.
  induction n as [|n IH]; intros s I EQ SZ NM HS; cbn [pset_init_loop]; apply hp_bind_get.
  - destruct (Z.ltb_spec (set_nm (s_pset s)) (POP_SIZE K)); [lia|]. apply hp_ret. spl; try assumption; try reflexivity; lia.
  - destruct (Z.ltb_spec (set_nm (s_pset s)) (POP_SIZE K)); [|lia].
    eapply hp_bind with (P := fun c s' => (exists g, s' = with_rng g s) /\ seeded_rule c /\ rule_ok 0 c /\ c_num c = 1).
    { eapply hp_rand; [apply (cl_rand_spec FO V K wf mt VO); reflexivity|].
      intros c g (b1 & b2 & b & W & -> & R1 & R2 & R3). spl; [exists g; reflexivity| |apply (seeded_ok _ b W eq_refl)|reflexivity].
      exists b1, b2, b. spl; try assumption. reflexivity. }
    intros c s0 ((g & ->) & SR & R & N1). unfold mbind at 1. unfold alloc. unfold mbind at 1. unfold clset_add.
    unfold mbind at 1. erewrite get_eq by (sst; apply upd_eq). unfold mbind at 1. unfold mget at 1. unfold mmod at 1. cbv beta iota.
    set (s1 := with_set PSET _ _). eapply hp_mono; [apply (IH s1)|].
    + unfold InvE, s1. sst. apply (inv_new 0 _ _ _ _ _ c true I R). lia.
    + exact EQ.
    + unfold s1. sst. lia.
    + unfold s1. sst. lia.
    + intros l c' E. unfold s1 in E. sst. destruct (Nat.eq_dec l (s_next s)) as [-> |D].
      * rewrite upd_eq in E. injection E as <-. exact SR.
      * rewrite upd_ne in E by exact D. apply (HS _ _ E).
    + intros [] s' H'. exact H'.
Qed.

(** From an empty heap. *)
Lemma init_spec s : (forall l, s_heap s l = None) -> hpost FO (xcsf_init V K s) (fun _ s' => init_rel s s' /\ Good 0 s').
Proof.
  intros HE. assert (PK := ok_pop _ _ CO). unfold xcsf_init. apply hp_bind_mod. unfold clset_init. apply hp_bind_mod. apply hp_bind_mod. apply hp_bind_mod.
  match goal with |- hpost _ (clset_pset_init V K ?t) _ => set (s0 := t) end.
  assert (I : InvE 0 s0).
  { unfold InvE, s0. sst. constructor.
    - constructor.
    - intros l. rewrite HE. split; [congruence|intros []].
    - intros l H. rewrite HE in H. congruence.
    - intros l c E. rewrite HE in E. discriminate.
    - apply set_ok_empty.
    - cbn. spl; auto. intros l [].
    - apply set_ok_empty.
    - intros l []. }
  unfold clset_pset_init. destruct (POP_INIT K) eqn:PI.
  - apply hp_bind_get. change (set_nm (s_pset s0)) with 0. rewrite Z.sub_0_r.
    eapply hp_mono; [apply (init_loop_spec _ s0 I); try reflexivity|].
    + change (set_nm (s_pset s0)) with 0. lia.
    + intros l c E. unfold s0 in E. sst. rewrite HE in E. discriminate.
    + intros [] s' (I' & Q' & NM & SZ & MI & HS). unfold misc, s0 in MI. sst. split.
      * unfold init_rel. rewrite PI. spl; try assumption; try congruence.
        all: try (intros _; split; assumption).
        all: unfold zeros, pa_size in MI; congruence.
      * constructor; [exact I'|lia|rewrite Q'; cbn; lia].
  - apply hp_ret. split.
    + unfold init_rel. rewrite PI. spl; try reflexivity; try congruence.
      intros l c E. unfold s0 in E. sst. rewrite HE in E. discriminate.
    + constructor; [exact I|cbn; lia|cbn; lia].
Qed.
End Ops.
