(** * The evolutionary algorithm. *)
From Coq Require Import ZArith Bool List Reals Lia Lra Permutation.
From Flocq Require Import Core BinarySingleNaN.
From Verif Require Import Outcome F64 F64Facts F64Bounds Rng RngFacts Pop PopSpec PopInv PopSel PopDel PopCover PopMatch PopUpdate.
Import ListNotations.
Open Scope Z_scope.

Lemma inv_ex_perm {B} K kf N wf (h : loc -> option (cl B)) n P Kl Q ex ex' :
  Permutation ex ex' -> inv K kf N wf h n P Kl Q ex -> inv K kf N wf h n P Kl Q ex'.
Proof.
  intros Pm [a b c d e f g i].
  assert (PO : Permutation (owned P Kl Q ex) (owned P Kl Q ex')).
  { unfold owned. do 3 apply Permutation_app_head. exact Pm. }
  constructor; try assumption.
  - apply (Permutation_NoDup PO a).
  - intros l. rewrite b. apply (Permutation_in' (eq_refl l) PO).
  - intros l H. apply i. apply (Permutation_in l (Permutation_sym Pm)), H.
Qed.

Section EA.
Context {B : Type} (FO : Prop) (V : vtab B) (K : cfg) (kf N : Z) (wf : B -> Prop)
  (mt : B -> list f64 -> Prop) (CO : cfg_ok K kf) {dom : list f64 -> Prop} (VO : vt_ok (dom := dom) FO V K wf mt) (HN : 0 <= N).
Notation rule_ok := (rule_ok K kf N wf).
Notation inv := (inv K kf N wf).
Notation Inv := (Inv K kf N wf).

(** ** Creating two offspring. *)

(** An offspring of [own]; [p1], [p2] are the parents in the order selected. *)
Record offspring (own p1 p2 : cl B) (crossed : bool) (d : cl B) : Prop := {
  of_num : c_num d = 1; of_exp : c_exp d = 0; of_size : c_size d = c_size own;
  of_time : c_time d = c_time own; of_m : c_m d = false; of_age : c_age d = 0;
  of_mtotal : c_mtotal d = 0; of_action : c_action d = 0; of_pred : c_prediction d = zeros (y_dim K);
  of_err : c_err d = fmul (ea_err_reduc K)
     (if crossed then fmul (fadd (c_err p1) (c_err p2)) fhalf else c_err own);
  of_fit : c_fit d = fmul (ea_fit_reduc K)
     (if crossed then fmul (fadd (fdiv (c_fit p1) (of_Z (c_num p1))) (fdiv (c_fit p2) (of_Z (c_num p2)))) fhalf
      else fdiv (c_fit own) (of_Z (c_num own)));
  of_wf : wf (c_body d)
}.

Lemma offspring_ok own p1 p2 crossed d : offspring own p1 p2 crossed d ->
  rule_ok own -> rule_ok p1 -> rule_ok p2 -> 1 <= c_num own -> 1 <= c_num p1 -> 1 <= c_num p2 -> rule_ok d.
Proof.
  intros [] Ro R1 R2 No N1 N2. constructor.
  - rewrite of_fit0. apply fmul_frac_p; [apply (ok_fit_reduc _ _ CO)|].
    assert (D : forall p, rule_ok p -> 1 <= c_num p -> fin_p (bpow radix2 kf) (fdiv (c_fit p) (of_Z (c_num p)))).
    { intros p Rp Np. destruct (of_Z_ge1 (c_num p) Np) as (A1 & A2). apply fdiv_ge1_p; [apply (ro_fit Rp)|exact A1|exact A2]. }
    destruct crossed; [|apply D; assumption]. pose proof (ok_kf _ _ CO). apply mean2_p; [lia|apply D; assumption|apply D; assumption].
  - rewrite of_size0. apply (ro_size Ro).
  - rewrite of_action0. pose proof (ok_n_actions _ _ CO). lia.
  - rewrite of_pred0. apply zeros_len. pose proof (ok_y_dim _ _ CO). lia.
  - rewrite of_exp0. lia.
  - exact of_wf0.
Qed.

(** How the offspring's payloads come about: copy the parents (or copy the action and the
    condition and start a new predictor), cross over, then mutate each; [cmod], [m1], [m2]
    tell whether crossover and the two mutations changed anything. *)
Definition copied (src b : B) : Prop := exists b1 b2,
  rout (v_act_copy V (v_blank V) src) b1 /\ rout (v_cond_copy V b1 src) b2 /\
  (if ea_pred_reset K then rout (v_pred_init V b2) b else rout (v_pred_copy V b2 src) b).
Definition crossed (a1 a2 b1 b2 : B) (cmod : bool) : Prop := exists c1 c2 f1 d1 d2 f2 f3,
  rout (v_cond_crossover V a1 a2) (c1, c2, f1) /\ rout (v_pred_crossover V c1 c2) (d1, d2, f2) /\
  rout (v_act_crossover V d1 d2) (b1, b2, f3) /\ cmod = f1 || f2 || f3.
Definition mutated (a b : B) (m : bool) : Prop := exists c f1 d f2 f3,
  rout (v_cond_mutate V a) (c, f1) /\ rout (v_pred_mutate V c) (d, f2) /\
  (if 1 <? n_actions K then rout (v_act_mutate V d) (b, f3) else b = d /\ f3 = false) /\ m = f1 || f2 || f3.
Definition bred (p1 p2 : B) (cmod m1 m2 : bool) (o1 o2 : B) : Prop := exists a1 a2 b1 b2,
  copied p1 a1 /\ copied p2 a2 /\ crossed a1 a2 b1 b2 cmod /\ mutated b1 o1 m1 /\ mutated b2 o2 m2.

Lemma rp_bind3 {A C D E} (m : RM A) (k : A -> RM C) (g : A -> C -> RM D) (r : A -> C -> D -> RM E) P Q :
  rpost FO (bind m (fun a => bind (k a) (g a))) P ->
  (forall a c d, rout m a -> rout (k a) c -> rout (g a c) d -> P d -> rpost FO (r a c d) Q) ->
  rpost FO (bind m (fun a => bind (k a) (fun c => bind (g a c) (r a c)))) Q.
Proof.
  intros H1 H2 s. specialize (H1 s). unfold bind in *. destruct (m s) as [[a s1]| |u|] eqn:E1; auto.
  destruct (k a s1) as [[c s2]| |u|] eqn:E2; auto. destruct (g a c s2) as [[d s3]| |u|] eqn:E3; auto.
  apply (H2 a c d); try assumption; unfold rout; eauto.
Qed.

Lemma cl_copy_spec (size : f64) (time : Z) (src : cl B) : wf (c_body src) ->
  rpost FO (cl_copy V K (cl_init V K size time) src)
    (fun d => exists b, wf b /\ copied (c_body src) b /\ d = set_body b (cl_init V K size time)).
Proof.
  intros W. unfold cl_copy. cbn [c_body cl_init]. unfold copied. destruct (ea_pred_reset K).
  - eapply rp_bind3; [apply (vo_copy_reset _ _ _ _ _ VO _ W)|]. intros b1 b2 b R1 R2 R3 Wb. apply rp_ret. exists b.
    spl; [exact Wb|exists b1, b2; auto|reflexivity].
  - eapply rp_bind3; [apply (vo_copy _ _ _ _ _ VO _ W)|]. intros b1 b2 b R1 R2 R3 Wb. apply rp_ret. exists b.
    spl; [exact Wb|exists b1, b2; auto|reflexivity].
Qed.
Lemma cl_crossover_spec (c1 c2 : cl B) : wf (c_body c1) -> wf (c_body c2) ->
  rpost FO (cl_crossover V c1 c2) (fun r => exists b1 b2 f, wf b1 /\ wf b2 /\ crossed (c_body c1) (c_body c2) b1 b2 f /\ r = (set_body b1 c1, set_body b2 c2, f)).
Proof.
  intros W1 W2. unfold cl_crossover.
  eapply rp_bind; [apply rp_rout, (vo_cond_crossover _ _ _ _ _ VO); assumption|]. intros [[b1 b2] f1] ((A1 & A2) & R1). cbn [fst snd] in *.
  eapply rp_bind; [apply rp_rout, (vo_pred_crossover _ _ _ _ _ VO); assumption|]. intros [[b3 b4] f2] ((A3 & A4) & R2). cbn [fst snd] in *.
  eapply rp_bind; [apply rp_rout, (vo_act_crossover _ _ _ _ _ VO); assumption|]. intros [[b5 b6] f3] ((A5 & A6) & R3). cbn [fst snd] in *.
  apply rp_ret. exists b5, b6, (f1 || f2 || f3). spl; try assumption; [|reflexivity].
  exists b1, b2, f1, b3, b4, f2, f3. auto.
Qed.
Lemma cl_mutate_spec (c : cl B) : wf (c_body c) ->
  rpost FO (cl_mutate V K c) (fun r => exists b f, wf b /\ mutated (c_body c) b f /\ r = (set_body b c, f)).
Proof.
  intros W. unfold cl_mutate.
  eapply rp_bind; [apply rp_rout, (vo_cond_mutate _ _ _ _ _ VO); assumption|]. intros [b1 f1] (A1 & R1). cbn [fst snd] in *.
  eapply rp_bind; [apply rp_rout, (vo_pred_mutate _ _ _ _ _ VO); assumption|]. intros [b2 f2] (A2 & R2). cbn [fst snd] in *.
  eapply rp_bind with (P := fun r => wf (fst r) /\ if 1 <? n_actions K then rout (v_act_mutate V b2) r else r = (b2, false)).
  { destruct (1 <? n_actions K); [apply rp_rout, (vo_act_mutate _ _ _ _ _ VO); assumption|apply rp_ret; split; [exact A2|reflexivity]]. }
  intros [b3 f3] (A3 & R3). cbn [fst snd] in *. apply rp_ret. exists b3, (f1 || f2 || f3). spl; [exact A3| |reflexivity].
  exists b1, f1, b2, f2, f3. spl; try assumption; [|reflexivity].
  destruct (1 <? n_actions K); [exact R3|]. injection R3 as -> ->. split; reflexivity.
Qed.

Definition breed (p1 p2 : cl B) : RM (cl B * cl B * bool * bool * bool) :=
  (d1 <- cl_copy V K (cl_init V K (c_size p1) (c_time p1)) p1 ;;
   d2 <- cl_copy V K (cl_init V K (c_size p2) (c_time p2)) p2 ;;
   '(d3, d4, cmod) <- cl_crossover V d1 d2 ;;
   '(d5, m1mod) <- cl_mutate V K d3 ;;
   '(d6, m2mod) <- cl_mutate V K d4 ;;
   (let '(d7, d8) := ea_init_offspring K p1 p2 d5 d6 cmod in
    ret (d7, d8, cmod, m1mod, m2mod)))%rng.

Lemma breed_spec p1 p2 : wf (c_body p1) -> wf (c_body p2) ->
  rpost FO (breed p1 p2) (fun r => let '(d1, d2, cmod, m1, m2) := r in
    offspring p1 p1 p2 cmod d1 /\ offspring p2 p1 p2 cmod d2 /\
    bred (c_body p1) (c_body p2) cmod m1 m2 (c_body d1) (c_body d2)).
Proof.
  intros W1 W2. unfold breed.
  eapply rp_bind; [apply cl_copy_spec, W1|]. intros d1 (b1 & A1 & R1 & ->).
  eapply rp_bind; [apply cl_copy_spec, W2|]. intros d2 (b2 & A2 & R2 & ->).
  eapply rp_bind; [apply cl_crossover_spec; assumption|]. intros r (b3 & b4 & f & A3 & A4 & R3 & ->).
  eapply rp_bind; [apply cl_mutate_spec; assumption|]. intros r (b5 & m1 & A5 & R4 & ->).
  eapply rp_bind; [apply cl_mutate_spec; assumption|]. intros r (b6 & m2 & A6 & R5 & ->).
  unfold ea_init_offspring. assert (BR : bred (c_body p1) (c_body p2) f m1 m2 b5 b6) by (exists b1, b2, b3, b4; auto).
  destruct f; apply rp_ret; spl; try exact BR; constructor; cbn; try reflexivity; assumption.
Qed.

(** ** Placing an offspring. *)
Definition can_subsume (h : loc -> option (cl B)) (t : loc) (d : cl B) : bool :=
  match h t with Some c => cl_subsumer K c && cl_general V c d | None => false end.

(** The offspring [d] at [l] with parent [p] and other parent [q] either disappears,
    adding one to the numerosity of one existing rule, or becomes a new rule. *)
Inductive placed (w : sel) (p q l : loc) (d : cl B) (changed : bool) (s s' : st B) : Prop :=
| pl_absorb t ct g :
    s_heap s t = Some ct -> In t (set_list (s_pset s)) ->
    (changed = false -> t = p) ->
    (changed = true -> ea_subsumption K = true /\ can_subsume (s_heap s) t d = true /\
       (t = p \/
        (t = q /\ can_subsume (s_heap s) p d = false) \/
        (In t (set_list (get_set w s)) /\ can_subsume (s_heap s) p d = false /\
         can_subsume (s_heap s) q d = false))) ->
    s' = with_rng g (with_set PSET (mkSet (set_list (s_pset s)) (set_sz (s_pset s)) (set_nm (s_pset s) + 1))
           (with_heap (upd (upd (s_heap s) t (Some (set_num (c_num ct + 1) ct))) l None) (s_next s) s)) ->
    placed w p q l d changed s s'
| pl_insert :
    changed = true ->
    (ea_subsumption K = true -> forall t, t = p \/ t = q \/ In t (set_list (get_set w s)) ->
       can_subsume (s_heap s) t d = false) ->
    s' = with_set PSET (mkSet (l :: set_list (s_pset s)) (set_sz (s_pset s) + 1) (set_nm (s_pset s) + 1)) s ->
    placed w p q l d changed s s'.

Lemma absorb_eq t l ct d (s : st B) : s_heap s t = Some ct -> s_heap s l = Some d -> t <> l ->
  absorb t l s = Ok (tt, with_set PSET (mkSet (set_list (s_pset s)) (set_sz (s_pset s)) (set_nm (s_pset s) + 1))
           (with_heap (upd (upd (s_heap s) t (Some (set_num (c_num ct + 1) ct))) l None) (s_next s) s)).
Proof.
  intros E1 E2 D. unfold absorb. unfold mbind at 1. rewrite (modify_eq _ _ _ _ E1).
  unfold mbind, mmod. unfold cl_free. sst. rewrite upd_ne by congruence. rewrite E2. reflexivity.
Qed.

Lemma with_rng_id (s : st B) : with_rng (s_rng s) s = s.
Proof. destruct s; reflexivity. Qed.

(** Members of the population only gain numerosity; newcomers are put in front. *)
Record grows (s s' : st B) : Prop := {
  gr_next : (s_next s <= s_next s')%nat;
  gr_misc : misc s' = misc s;
  gr_sets : forall v, v <> PSET -> get_set v s' = get_set v s;
  gr_old : forall l, In l (set_list (s_pset s)) ->
     s_heap s' l = option_map (set_num (num_of (s_heap s') l)) (s_heap s l) /\
     num_of (s_heap s) l <= num_of (s_heap s') l;
  gr_out : forall l, (l < s_next s)%nat -> In l (set_list (s_kset s)) \/ In l (set_list (s_prev_pset s)) -> s_heap s' l = s_heap s l;
  gr_p : exists news, set_list (s_pset s') = news ++ set_list (s_pset s) /\ forall l, In l news -> ~ In l (set_list (s_prev_pset s))
}.
Lemma grows_refl s : grows s s.
Proof.
  constructor; try reflexivity; auto.
  - intros l _. split; [|lia]. unfold num_of. destruct (s_heap s l) as [c|] eqn:E; [|reflexivity]. cbn. rewrite set_num_id. reflexivity.
  - exists []. split; [reflexivity|intros l []].
Qed.
Lemma grows_trans s1 s2 s3 : grows s1 s2 -> grows s2 s3 -> grows s1 s3.
Proof.
  intros [a1 a2 a3 a4 a5 a6] [b1 b2 b3 b4 b5 b6]. destruct a6 as (n1 & N1 & A1). destruct b6 as (n2 & N2 & A2). constructor.
  - lia.
  - congruence.
  - intros v D. rewrite b3, a3 by exact D. reflexivity.
  - intros l H. destruct (a4 l H) as (A & A'). destruct (b4 l) as (Bb & B').
    { rewrite N1. apply in_app_iff. right; exact H. }
    split; [|lia]. rewrite Bb at 1. rewrite A at 1. destruct (s_heap s1 l); reflexivity.
  - intros l H1 H2. rewrite b5, a5; auto; [lia|].
    pose proof (a3 KSET ltac:(discriminate)) as X1. pose proof (a3 PREV_PSET ltac:(discriminate)) as X2. cbn [get_set] in *. rewrite X1, X2. exact H2.
  - exists (n2 ++ n1). rewrite N2, N1, app_assoc. split; [reflexivity|]. intros l H. apply in_app_iff in H.
    destruct H as [H|H]; [|apply A1, H]. pose proof (a3 PREV_PSET ltac:(discriminate)) as X. cbn [get_set] in X. rewrite <- X. apply A2, H.
Qed.

Lemma placed_spec w p q l d changed s s' ex : placed w p q l d changed s s' ->
  Inv s (l :: ex) -> In p (set_list (s_pset s)) -> s_heap s l = Some d ->
  Inv s' ex /\ grows s s' /\ set_nm (s_pset s') = set_nm (s_pset s) + 1 /\ s_next s' = s_next s /\
  (forall e, In e ex -> s_heap s' e = s_heap s e).
Proof.
  intros Pl I Ip El. destruct (owned_disj _ _ _ _ (i_nodup I)) as (N1 & N2 & N3 & N4 & D1 & D2 & D3).
  assert (LO : forall y, In y (set_list (s_pset s)) \/ In y (set_list (s_kset s)) \/ In y (set_list (s_prev_pset s)) -> y <> l).
  { intros y H ->. destruct H as [H|[H|H]]; [destruct (D1 _ H) as (_ & _ & X)|destruct (D2 _ H) as (_ & X)|pose proof (D3 _ H) as X]; apply X; left; reflexivity. }
  destruct Pl as [t ct g Et It _ _ ->| _ _ ->].
  - pose proof (inv_num_pos I It) as NP. rewrite (num_of_some _ _ _ Et) in NP.
    assert (I1 := inv_renum (set_num (c_num ct + 1) ct) I It Et (rule_ok_num _ _ _ _ _ _ (i_ok I _ _ Et)) ltac:(cbn; lia)).
    assert (I2 := inv_free_ex I1). cbn [c_num set_num] in I2.
    replace (set_nm (s_pset s) + (c_num ct + 1) - c_num ct) with (set_nm (s_pset s) + 1) in I2 by lia.
    spl; try reflexivity; [exact I2| |].
    + constructor; sst; try reflexivity.
      * intros v D. destruct v; try reflexivity; congruence.
      * intros y Hy. unfold num_of. rewrite upd_ne by (apply LO; left; exact Hy).
        destruct (Nat.eq_dec y t) as [-> |Dn].
        { rewrite upd_eq, Et. cbn. split; [reflexivity|lia]. }
        rewrite upd_ne by exact Dn. destruct (s_heap s y); cbn; [rewrite set_num_id|]; split; try reflexivity; lia.
      * intros y _ Hy. rewrite upd_ne by (apply LO; tauto). apply upd_ne. intros ->.
        destruct (D1 _ It) as (A1 & A2 & _). tauto.
      * exists []. split; [reflexivity|intros y []].
    + sst. intros e He. inversion N4; subst. rewrite upd_ne by (intros ->; contradiction). apply upd_ne.
      intros ->. destruct (D1 _ It) as (_ & _ & X). apply X. right; exact He.
  - assert (I1 := inv_add I). rewrite (i_ex I l (or_introl eq_refl)) in I1.
    spl; try reflexivity; [exact I1|]. constructor; sst; try reflexivity; auto.
    + intros v D. destruct v; try reflexivity; congruence.
    + intros y _. unfold num_of. destruct (s_heap s y); cbn; [rewrite set_num_id|]; split; try reflexivity; lia.
    + exists [l]. split; [reflexivity|]. intros y [<-|[]] H. apply (D3 _ H). left; reflexivity.
Qed.

Lemma filter_combine_in (f : loc * cl B -> bool) (h : loc -> option (cl B)) ls cs i t ct :
  map h ls = map Some cs -> nth_error (filter f (combine ls cs)) i = Some (t, ct) ->
  In t ls /\ h t = Some ct /\ f (t, ct) = true.
Proof.
  intros E Hn. apply nth_error_In in Hn. apply filter_In in Hn. destruct Hn as (Hn & F).
  destruct (combine_heap _ _ _ _ _ E Hn) as (A & A2). auto.
Qed.
Lemma combine_in (h : loc -> option (cl B)) ls cs l : map h ls = map Some cs -> In l ls ->
  exists c, In (l, c) (combine ls cs) /\ h l = Some c.
Proof.
  revert cs. induction ls as [|y ls IH]; intros [|d cs] E I; try contradiction; try discriminate.
  cbn [map] in E. assert (E1 := f_equal (hd None) E). assert (E2 := f_equal (@tl _) E). cbn in E1, E2.
  destruct I as [-> |I]; [exists d; split; [left; reflexivity|exact E1]|].
  destruct (IH cs E2 I) as (c & A & A2). exists c. split; [right; exact A|exact A2].
Qed.

Lemma ea_subsume_spec w p q l d s ex : Inv s (l :: ex) -> act_ok s (get_set w s) ->
  In p (set_list (s_pset s)) -> In q (set_list (s_pset s)) -> s_heap s l = Some d -> ea_subsumption K = true ->
  set_sz (get_set w s) <= int_max ->
  hpost FO (ea_subsume V K l p q w s) (fun _ s' => placed w p q l d true s s').
Proof.
  intros I (ND & SZ & SUB) Ip Iq El ES LM. destruct (owned_disj _ _ _ _ (i_nodup I)) as (N1 & N2 & N3 & N4 & D1 & D2 & D3).
  assert (LO : forall y, In y (set_list (s_pset s)) -> y <> l).
  { intros y H ->. destruct (D1 _ H) as (_ & _ & X). apply X. left; reflexivity. }
  destruct (s_heap s p) as [cp|] eqn:Ep; [|exfalso; apply (inv_live_P I Ip), Ep].
  destruct (s_heap s q) as [cq|] eqn:Eq; [|exfalso; apply (inv_live_P I Iq), Eq].
  unfold ea_subsume. eapply hp_bind_heap; [exact El|]. eapply hp_bind_heap; [exact Ep|]. eapply hp_bind_heap; [exact Eq|].
  assert (CP : can_subsume (s_heap s) p d = cl_subsumer K cp && cl_general V cp d) by (unfold can_subsume; rewrite Ep; reflexivity).
  assert (CQ : can_subsume (s_heap s) q d = cl_subsumer K cq && cl_general V cq d) by (unfold can_subsume; rewrite Eq; reflexivity).
  rewrite <- CP, <- CQ.
  destruct (can_subsume (s_heap s) p d) eqn:C1.
  { rewrite (absorb_eq p l cp d s Ep El (LO _ Ip)). unfold hpost.
    apply (pl_absorb _ _ _ _ _ _ _ _ p cp (s_rng s)); try assumption; try discriminate.
    - intros _. spl; try assumption. left; reflexivity.
    - destruct s; reflexivity. }
  destruct (can_subsume (s_heap s) q d) eqn:C2.
  { rewrite (absorb_eq q l cq d s Eq El (LO _ Iq)). unfold hpost.
    apply (pl_absorb _ _ _ _ _ _ _ _ q cq (s_rng s)); try assumption; try discriminate.
    - intros _. spl; try assumption. right; left; auto.
    - destruct s; reflexivity. }
  apply hp_bind_get. destruct (live_list (s_heap s) (set_list (get_set w s))) as (cs & E).
  { intros y Hy. apply (inv_live_P I). apply SUB, Hy. }
  unfold mbind at 1. rewrite (get_all_eq _ _ _ E). cbv zeta.
  set (f := fun lc : loc * cl B => cl_subsumer K (snd lc) && cl_general V (snd lc) d).
  set (cands := filter f (combine (set_list (get_set w s)) cs)).
  assert (LC : (length cands <= length (set_list (get_set w s)))%nat).
  { unfold cands. etransitivity; [apply filter_length_le|]. rewrite combine_length. lia. }
  destruct (Z.ltb_spec (set_sz (get_set w s)) (Z.of_nat (length cands))); [lia|].
  destruct (Z.ltb_spec 0 (Z.of_nat (length cands))) as [P0|P0].
  - eapply hp_bind; [eapply hp_rand with (Q := fun i s1 => 0 <= i < Z.of_nat (length cands) /\ exists g, s1 = with_rng g s)|].
    { apply rp_uniform_int. lia. }
    { intros i g Hi. eauto. }
    intros i s1 (Hi & g & ->).
    destruct (nth_error cands (Z.to_nat i)) as [[t ct]|] eqn:Nt.
    2:{ apply nth_error_None in Nt. lia. }
    destruct (Z.ltb_spec i 0); [lia|].
    destruct (filter_combine_in f _ _ _ _ _ _ E Nt) as (It & Et & Ft).
    rewrite (absorb_eq t l ct d (with_rng g s) Et El (LO _ (SUB _ It))). unfold hpost.
    apply (pl_absorb _ _ _ _ _ _ _ _ t ct g); try assumption; try discriminate.
    + apply SUB, It.
    + intros _. spl; try assumption; [unfold can_subsume; rewrite Et; exact Ft|]. right; right; auto.
    + reflexivity.
  - unfold clset_add. eapply hp_bind_heap; [exact El|]. apply hp_bind_get. apply hp_mod.
    apply pl_insert; [reflexivity| |].
    + intros _ t [-> |[-> |It]]; try assumption.
      destruct (combine_in _ _ _ _ E It) as (ct & Ic & Et). unfold can_subsume. rewrite Et.
      destruct (cl_subsumer K ct && cl_general V ct d) eqn:F; [|reflexivity]. exfalso.
      assert (In (t, ct) cands) by (apply filter_In; split; [exact Ic|exact F]).
      destruct cands; [contradiction|cbn [length] in P0; lia].
    + assert (c_num d = 1) as -> by (rewrite <- (num_of_some _ _ _ El); apply (i_ex I); left; reflexivity). reflexivity.
Qed.

Lemma ea_add_spec w p q l d cmod m s ex : Inv s (l :: ex) -> act_ok s (get_set w s) ->
  In p (set_list (s_pset s)) -> In q (set_list (s_pset s)) -> s_heap s l = Some d ->
  set_sz (get_set w s) <= int_max ->
  hpost FO (ea_add V K w p q l cmod m s) (fun _ s' => placed w p q l d (cmod || m) s s').
Proof.
  intros I AO Ip Iq El LM. unfold ea_add. rewrite <- negb_orb.
  destruct (cmod || m) eqn:CM; cbn [negb].
  - destruct (ea_subsumption K) eqn:ES.
    + apply (ea_subsume_spec w p q l d s ex); assumption.
    + unfold clset_add. eapply hp_bind_heap; [exact El|]. apply hp_bind_get. apply hp_mod.
      apply pl_insert; [reflexivity|congruence|].
      assert (c_num d = 1) as -> by (rewrite <- (num_of_some _ _ _ El); apply (i_ex I); left; reflexivity). reflexivity.
  - destruct (s_heap s p) as [cp|] eqn:Ep; [|exfalso; apply (inv_live_P I Ip), Ep].
    assert (p <> l).
    { intros ->. destruct (owned_disj _ _ _ _ (i_nodup I)) as (_ & _ & _ & _ & D1 & _). destruct (D1 _ Ip) as (_ & _ & X). apply X. left; reflexivity. }
    rewrite (absorb_eq p l cp d s Ep El H). unfold hpost.
    apply (pl_absorb _ _ _ _ _ _ _ _ p cp (s_rng s)); try assumption; try discriminate; auto.
Qed.

(** ** The offspring loop. *)
Inductive breeding (w : sel) (p q : loc) : nat -> st B -> st B -> Prop :=
| br_O s : breeding w p q 0 s s
| br_S n s g c1 c2 d1 d2 cmod m1 m2 s1 s2 s3 s' :
    s_heap s p = Some c1 -> s_heap s q = Some c2 ->
    offspring c1 c1 c2 cmod d1 -> offspring c2 c1 c2 cmod d2 ->
    bred (c_body c1) (c_body c2) cmod m1 m2 (c_body d1) (c_body d2) ->
    s1 = with_rng g (with_heap (upd (upd (s_heap s) (s_next s) (Some d1)) (S (s_next s)) (Some d2)) (S (S (s_next s))) s) ->
    placed w p q (s_next s) d1 (cmod || m1) s1 s2 ->
    placed w q p (S (s_next s)) d2 (cmod || m2) s2 s3 ->
    breeding w p q n s3 s' ->
    breeding w p q (S n) s s'.

Lemma act_ok_grows s s' S : grows s s' -> act_ok s S -> act_ok s' S.
Proof.
  intros G (A1 & A2 & A3). unfold act_ok. spl; try assumption. intros l Hl. destruct (gr_p _ _ G) as (news & -> & _).
  apply in_app_iff. right. apply A3, Hl.
Qed.
Lemma grows_in s s' l : grows s s' -> In l (set_list (s_pset s)) -> In l (set_list (s_pset s')).
Proof. intros G H. destruct (gr_p _ _ G) as (news & -> & _). apply in_app_iff. right; exact H. Qed.

Lemma ea_loop_spec n w p q s ex : Inv s ex -> act_ok s (get_set w s) -> w <> PSET ->
  In p (set_list (s_pset s)) -> In q (set_list (s_pset s)) ->
  set_sz (get_set w s) <= int_max ->
  hpost FO (ea_loop V K n w p q s) (fun _ s' => breeding w p q n s s' /\ Inv s' ex /\ grows s s' /\
     set_nm (s_pset s') = set_nm (s_pset s) + 2 * Z.of_nat n).
Proof.
  intros I AO W Ip Iq LM. revert s I AO Ip Iq LM. induction n as [|n IH]; intros s I AO Ip Iq LM; cbn [ea_loop].
  - apply hp_ret. spl; [constructor|exact I|apply grows_refl|lia].
  - destruct (s_heap s p) as [c1|] eqn:Ep; [|exfalso; apply (inv_live_P I Ip), Ep].
    destruct (s_heap s q) as [c2|] eqn:Eq; [|exfalso; apply (inv_live_P I Iq), Eq].
    eapply hp_bind with (P := fun _ s3 => exists g d1 d2 cmod m1 m2 s1 s2,
      offspring c1 c1 c2 cmod d1 /\ offspring c2 c1 c2 cmod d2 /\
      bred (c_body c1) (c_body c2) cmod m1 m2 (c_body d1) (c_body d2) /\
      s1 = with_rng g (with_heap (upd (upd (s_heap s) (s_next s) (Some d1)) (S (s_next s)) (Some d2)) (S (S (s_next s))) s) /\
      placed w p q (s_next s) d1 (cmod || m1) s1 s2 /\ placed w q p (S (s_next s)) d2 (cmod || m2) s2 s3 /\
      Inv s3 ex /\ grows s s3 /\ set_nm (s_pset s3) = set_nm (s_pset s) + 2).
    { unfold ea_offspring. eapply hp_bind_heap; [exact Ep|]. eapply hp_bind_heap; [exact Eq|].
      assert (R1 := i_ok I _ _ Ep). assert (R2 := i_ok I _ _ Eq).
      assert (NP1 := inv_num_pos I Ip). rewrite (num_of_some _ _ _ Ep) in NP1.
      assert (NP2 := inv_num_pos I Iq). rewrite (num_of_some _ _ _ Eq) in NP2.
      fold (breed c1 c2).
      eapply hp_bind; [eapply hp_rand with (Q := fun r s1 => (let '(d1, d2, cmod, m1, m2) := r in
         offspring c1 c1 c2 cmod d1 /\ offspring c2 c1 c2 cmod d2 /\
         bred (c_body c1) (c_body c2) cmod m1 m2 (c_body d1) (c_body d2)) /\ exists g, s1 = with_rng g s);
         [apply breed_spec; [apply (ro_body R1)|apply (ro_body R2)]|intros r g Hr; eauto]|].
      intros [[[[d1 d2] cmod] m1] m2] s0 ((O1 & O2 & BR) & g & ->).
      unfold mbind at 1. unfold alloc at 1. unfold mbind at 1. unfold alloc at 1. sst.
      set (s1 := with_heap _ _ _).
      assert (E1 : s1 = with_rng g (with_heap (upd (upd (s_heap s) (s_next s) (Some d1)) (S (s_next s)) (Some d2)) (S (S (s_next s))) s)) by (destruct s; reflexivity).
      assert (K1 := offspring_ok _ _ _ _ _ O1 R1 R1 R2 NP1 NP1 NP2). assert (K2 := offspring_ok _ _ _ _ _ O2 R2 R1 R2 NP2 NP1 NP2).
      assert (Ia := inv_alloc d1 I K1 (of_num _ _ _ _ _ O1)). assert (Ib := inv_alloc d2 Ia K2 (of_num _ _ _ _ _ O2)).
      assert (I1 : Inv s1 (s_next s :: S (s_next s) :: ex)).
      { unfold PopSpec.Inv. rewrite E1. sst. eapply inv_ex_perm; [apply perm_swap|exact Ib]. }
      assert (AO1 : act_ok s1 (get_set w s1)) by (rewrite E1; exact AO).
      assert (EH1 : s_heap s1 (s_next s) = Some d1) by (rewrite E1; sst; rewrite upd_ne by lia; apply upd_eq).
      assert (EH2 : s_heap s1 (S (s_next s)) = Some d2) by (rewrite E1; sst; apply upd_eq).
      assert (EP1 : s_pset s1 = s_pset s) by (rewrite E1; reflexivity).
      assert (GW1 : get_set w s1 = get_set w s) by (rewrite E1; reflexivity).
      eapply hp_bind; [apply (ea_add_spec w p q (s_next s) d1 cmod m1 s1 (S (s_next s) :: ex) I1 AO1)|].
      { rewrite EP1; exact Ip. } { rewrite EP1; exact Iq. } { exact EH1. } { rewrite GW1; exact LM. }
      intros [] s2 Pl1. destruct (placed_spec _ _ _ _ _ _ _ _ _ Pl1 I1 ltac:(rewrite EP1; exact Ip) EH1) as (I2 & G2 & NM2 & NX2 & EX2).
      assert (EH2' : s_heap s2 (S (s_next s)) = Some d2) by (rewrite EX2 by (left; reflexivity); exact EH2).
      assert (GW2 : get_set w s2 = get_set w s1) by (apply (gr_sets _ _ G2 w W)).
      assert (Ip2 : In p (set_list (s_pset s2))) by (apply (grows_in _ _ _ G2); rewrite EP1; exact Ip).
      assert (Iq2 : In q (set_list (s_pset s2))) by (apply (grows_in _ _ _ G2); rewrite EP1; exact Iq).
      eapply hp_mono; [apply (ea_add_spec w q p (S (s_next s)) d2 cmod m2 s2 ex I2)|]; try assumption.
      { rewrite GW2. eapply act_ok_grows; eassumption. } { rewrite GW2, GW1; exact LM. }
      intros [] s3 Pl2. destruct (placed_spec _ _ _ _ _ _ _ _ _ Pl2 I2 Iq2 EH2') as (I3 & G3 & NM3 & NX3 & EX3).
      exists g, d1, d2, cmod, m1, m2, s1, s2. spl; try assumption.
      + assert (G1 : grows s s1).
        { rewrite E1. constructor; sst; try reflexivity.
          - lia.
          - intros l Hl. pose proof (inv_P_lt _ _ _ _ _ _ _ I Hl) as Lt.
            unfold num_of. rewrite !upd_ne by lia. split; [|lia]. destruct (s_heap s l); cbn; [rewrite set_num_id|]; reflexivity.
          - intros l Lt _. rewrite !upd_ne by lia. reflexivity.
          - exists []. split; [reflexivity|intros l []]. }
        eapply grows_trans; [exact G1|]. eapply grows_trans; eassumption.
      + rewrite NM3, NM2, EP1. lia. }
    intros [] s3 (g & d1 & d2 & cmod & m1 & m2 & s1 & s2 & O1 & O2 & BR & E1 & Pl1 & Pl2 & I3 & G3 & NM3).
    assert (GW3 : get_set w s3 = get_set w s) by apply (gr_sets _ _ G3 w W).
    eapply hp_mono; [apply (IH s3 I3)|].
    + rewrite GW3. eapply act_ok_grows; eassumption.
    + eapply grows_in; eassumption.
    + eapply grows_in; eassumption.
    + rewrite GW3. exact LM.
    + intros [] s' (Br & I' & G' & NM'). spl; try assumption.
      * eapply br_S; eassumption.
      * eapply grows_trans; eassumption.
      * rewrite NM', NM3. lia.
Qed.

(** ** ea *)
Definition tick (s : st B) : st B := with_time (s_time s + 1) s.
(** The mean time stamp of a set's micro-rules, as the code computes it. *)
Definition mean_stamp (cs : list (cl B)) (num : Z) : f64 :=
  fdiv (fold_left (fun a c => fadd a (of_Z (c_time c * c_num c))) cs f0) (of_Z num).

Inductive ea_rel (w : sel) (s s' : st B) : Prop :=
| ea_empty : set_list (get_set w s) = [] -> s' = tick s -> ea_rel w s s'
| ea_wait cs : set_list (get_set w s) <> [] ->
    map (s_heap s) (set_list (get_set w s)) = map Some cs ->
    flt (fsub (of_Z (s_time s + 1)) (mean_stamp cs (set_nm (get_set w s)))) (ea_theta K) = true ->
    s' = tick s -> ea_rel w s s'
| ea_run cs cs1 p q g s1 s2 : set_list (get_set w s) <> [] ->
    map (s_heap s) (set_list (get_set w s)) = map Some cs ->
    flt (fsub (of_Z (s_time s + 1)) (mean_stamp cs (set_nm (get_set w s)))) (ea_theta K) = false ->
    touches_all (fun c c' => c' = set_time (s_time s + 1) c) (set_list (get_set w s)) (tick s) s1 ->
    map (s_heap s1) (set_list (get_set w s)) = map Some cs1 ->
    parent K (set_list (get_set w s)) cs1 p -> parent K (set_list (get_set w s)) cs1 q ->
    breeding w p q (Z.to_nat ((ea_lambda K + 1) / 2)) (with_rng g s1) s2 ->
    grows (with_rng g s1) s2 ->
    set_nm (s_pset s2) = set_nm (s_pset s) + 2 * Z.max 0 ((ea_lambda K + 1) / 2) ->
    set_nm (s_pset s2) = sum_nums (s_heap s2) (set_list (s_pset s2)) ->
    shrinks s2 s' -> deletes V K (Z.to_nat (set_nm (s_pset s2) - POP_SIZE K)) s2 s' ->
    set_nm (s_pset s') = Z.min (set_nm (s_pset s2)) (POP_SIZE K) ->
    ea_rel w s s'.

Lemma ea_spec w s ex : (ea_tournament K = true -> FO) -> Inv s ex -> act_ok s (get_set w s) ->
  w <> PSET -> set_sz (get_set w s) <= int_max ->
  hpost FO (ea V K w s) (fun _ s' => ea_rel w s s' /\ Inv s' ex).
Proof.
  intros HF I AO W LM. pose proof AO as (ND & SZ & SUB). unfold ea. apply hp_bind_mod. apply hp_bind_get. apply hp_bind_get.
  change (with_time (s_time s + 1) s) with (tick s).
  assert (GW : get_set w (tick s) = get_set w s) by (destruct w; reflexivity). rewrite GW.
  change (s_time (tick s)) with (s_time s + 1).
  assert (I0 : Inv (tick s) ex) by exact I.
  destruct (Z.eqb_spec (set_sz (get_set w s)) 0) as [Z0|Z0].
  { apply hp_ret. split; [|exact I0]. apply ea_empty; [|reflexivity].
    destruct (set_list (get_set w s)); [reflexivity|cbn [length] in SZ; lia]. }
  assert (NE : set_list (get_set w s) <> []) by (intros X; rewrite X in SZ; cbn [length] in SZ; lia).
  destruct (live_list (s_heap s) (set_list (get_set w s))) as (cs & E).
  { intros y Hy. apply (inv_live_P I). apply SUB, Hy. }
  unfold mbind at 1. rewrite (get_all_eq _ (tick s) _ E).
  change (mean_time cs (set_nm (get_set w s))) with (mean_stamp cs (set_nm (get_set w s))).
  destruct (flt _ (ea_theta K)) eqn:FT.
  { apply hp_ret. split; [|exact I0]. eapply ea_wait; eauto. }
  eapply hp_bind.
  { unfold clset_set_times. apply hp_bind_get. rewrite GW. apply hp_bind_get. change (s_time (tick s)) with (s_time s + 1).
    apply (miter_touch FO _ (fun c c' => c' = set_time (s_time s + 1) c) (fun _ => True)); [exact ND| |].
    - intros y Hy. destruct (s_heap (tick s) y) as [c|] eqn:Ey; [eauto|]. exfalso. apply (inv_live_P I0 (SUB _ Hy)), Ey.
    - intros y c s0 Ey _. apply (modify_touch FO _ y c s0 Ey). }
  intros [] s1 T1. destruct (touches_all_pset _ _ _ _ T1) as (M1 & X1 & G1).
  assert (I1 : Inv s1 ex).
  { eapply (touches_all_inv K kf N N wf); [exact I0|exact T1|lia| |].
    - intros c c' ->. reflexivity.
    - intros l c c' _ _ -> []. constructor; assumption. }
  assert (P1 : s_pset s1 = s_pset s) by apply (G1 PSET).
  destruct (live_list (s_heap s1) (set_list (get_set w s))) as (cs1 & E1).
  { intros y Hy. apply (inv_live_P I1). rewrite P1. apply SUB, Hy. }
  unfold mbind at 1. rewrite (get_all_eq _ s1 _ E1).
  eapply hp_bind; [eapply hp_rand with (Q := fun r s' => parent K (set_list (get_set w s)) cs1 (fst r) /\ parent K (set_list (get_set w s)) cs1 (snd r) /\ exists g, s' = with_rng g s1)|].
  { apply (ea_select_rpost K kf N wf FO (set_list (get_set w s)) cs1 HF NE (map_heap_len _ _ _ E1)).
    apply Forall_forall. intros c Hc. destruct (map_heap_in _ _ _ _ E1 Hc) as (y & Hy & Ey). apply (i_ok I1 _ _ Ey). }
  { intros [p q] g (A1 & A2). eauto. }
  intros [p q] s1' (Wp & Wq & g & ->). cbn [fst snd] in *.
  pose proof (parent_in _ _ _ _ Wp) as Hp. pose proof (parent_in _ _ _ _ Wq) as Hq.
  set (s1' := with_rng g s1).
  assert (GW1 : get_set w s1' = get_set w s) by (unfold s1'; transitivity (get_set w s1); [destruct w; reflexivity|rewrite G1; exact GW]).
  eapply hp_bind.
  { apply (ea_loop_spec (ea_iterations K) w p q s1' ex I1); try assumption.
    - rewrite GW1. unfold act_ok. change (s_pset s1') with (s_pset s1). rewrite P1. exact AO.
    - change (s_pset s1') with (s_pset s1). rewrite P1. apply SUB, Hp.
    - change (s_pset s1') with (s_pset s1). rewrite P1. apply SUB, Hq.
    - rewrite GW1. exact LM. }
  intros [] s2 (Br & I2 & G2 & NM2).
  eapply hp_mono; [apply (enforce_spec FO V K kf N wf CO s2 ex I2)|].
  intros [] s' (SH & I' & NM' & _ & DL). split; [|exact I'].
  apply (ea_run w s s' cs cs1 p q g s1 s2); try assumption; [|apply (so_num (i_p I2))].
  rewrite NM2. change (s_pset s1') with (s_pset s1). rewrite P1. unfold ea_iterations. lia.
Qed.
End EA.
