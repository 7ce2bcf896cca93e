(** * Deletion and the population size limit. *)
From Coq Require Import ZArith Bool List Reals Lia Lra Permutation.
From Flocq Require Import Core BinarySingleNaN.
From Verif Require Import Outcome F64 F64Facts F64Bounds Rng RngFacts Pop PopSpec PopInv PopSel.
Import ListNotations.
Open Scope Z_scope.

Ltac sst := cbn [s_heap s_next s_pset s_prev_pset s_mset s_aset s_kset s_prev_aset s_time s_error
  s_mset_size s_aset_size s_mfrac s_prev_reward s_prev_pred s_pa s_nr s_prev_state s_explore s_rng
  with_heap with_rng with_stats with_time with_pa with_prev with_explore with_set get_set
  set_list set_sz set_nm] in *.

Ltac spl := repeat match goal with |- _ /\ _ => split end.

(** Everything in the state that is not a rule set, the heap or the generator. *)
Definition misc {B} (s : st B) :=
  (s_time s, (s_error s, s_mset_size s, s_aset_size s, s_mfrac s),
   (s_prev_reward s, s_prev_pred s, s_prev_state s), (s_pa s, s_nr s), s_explore s).

Lemma map_some_inj {A} (l1 l2 : list A) : map Some l1 = map Some l2 -> l1 = l2.
Proof.
  revert l2. induction l1 as [|x l1 IH]; intros [|y l2] H; try discriminate; [reflexivity|].
  simpl in H. injection H as -> H. f_equal. apply IH, H.
Qed.
Lemma map_heap_nth {B} (h : loc -> option (cl B)) ls cs i l :
  map h ls = map Some cs -> nth_error ls i = Some l -> exists c, nth_error cs i = Some c /\ h l = Some c.
Proof.
  revert cs i. induction ls as [|x ls IH]; intros [|c cs] i H N; try (destruct i; discriminate); try discriminate.
  simpl in H. assert (H1 := f_equal (hd None) H). assert (H2 := f_equal (@tl _) H). simpl in H1, H2.
  destruct i as [|i]; simpl in N.
  - injection N as ->. exists c. auto.
  - destruct (IH cs i H2 N) as (c' & E1 & E2). exists c'. auto.
Qed.
Lemma map_heap_in {B} (h : loc -> option (cl B)) ls cs c :
  map h ls = map Some cs -> In c cs -> exists l, In l ls /\ h l = Some c.
Proof.
  intros H I. assert (I2 : In (Some c) (map h ls)) by (rewrite H; apply in_map, I).
  apply in_map_iff in I2. destruct I2 as (l & E & I3). exists l. auto.
Qed.
Lemma map_heap_in' {B} (h : loc -> option (cl B)) ls cs l :
  map h ls = map Some cs -> In l ls -> exists c, In c cs /\ h l = Some c.
Proof.
  intros H I. assert (I2 : In (h l) (map Some cs)) by (rewrite <- H; apply in_map, I).
  apply in_map_iff in I2. destruct I2 as (c & E & I3). exists c. auto.
Qed.
Lemma map_heap_len {B} (h : loc -> option (cl B)) ls cs : map h ls = map Some cs -> length ls = length cs.
Proof. intros H. rewrite <- (map_length h), H, map_length. reflexivity. Qed.

Lemma remove_nth_filter (l : list loc) i x : NoDup l -> nth_error l i = Some x ->
  remove_nth i l = filter (fun y => negb (Nat.eqb y x)) l.
Proof.
  revert i. induction l as [|y l IH]; intros [|i] N H; try discriminate; inversion N; subst; simpl in *.
  - injection H as ->. rewrite Nat.eqb_refl. simpl. symmetry.
    clear -H2. induction l as [|z l IH]; [reflexivity|]. simpl.
    destruct (Nat.eqb_spec z x); [subst; exfalso; apply H2; left; reflexivity|]. simpl. f_equal. apply IH.
    intros I; apply H2; right; exact I.
  - destruct (Nat.eqb_spec y x) as [-> |D]; simpl.
    + exfalso. apply H2. eapply nth_error_In, H.
    + f_equal. apply IH; assumption.
Qed.

Section Del.
Context {B : Type} (FO : Prop) (V : vtab B) (K : cfg) (kf Nx : Z) (wf : B -> Prop) (CO : cfg_ok K kf).
Notation rule_ok := (rule_ok K kf Nx wf).
Notation inv := (inv K kf Nx wf).
Notation Inv := (Inv K kf Nx wf).

(** What one deletion does: exactly one micro-rule of one member of the population goes;
    a rule whose numerosity reaches zero moves to the kill set. *)
Record del_rel (i : nat) (l : loc) (c : cl B) (s s' : st B) : Prop := {
  dr_nth : nth_error (set_list (s_pset s)) i = Some l;
  dr_rule : s_heap s l = Some c;
  dr_heap : s_heap s' = upd (s_heap s) l (Some (set_num (c_num c - 1) c));
  dr_next : s_next s' = s_next s;
  dr_misc : misc s' = misc s;
  dr_sets : forall w, w <> PSET -> w <> KSET -> get_set w s' = get_set w s;
  dr_p : s_pset s' = if c_num c =? 1
                     then mkSet (remove_nth i (set_list (s_pset s))) (set_sz (s_pset s) - 1) (set_nm (s_pset s) - 1)
                     else mkSet (set_list (s_pset s)) (set_sz (s_pset s)) (set_nm (s_pset s) - 1);
  dr_k : s_kset s' = if c_num c =? 1
                     then mkSet (l :: set_list (s_kset s)) (set_sz (s_kset s) + 1) (set_nm (s_kset s))
                     else s_kset s
}.

Lemma rule_ok_num c z : rule_ok c -> rule_ok (set_num z c).
Proof. intros []. constructor; assumption. Qed.

Lemma del_rel_inv i l c s s' ex : Inv s ex -> del_rel i l c s s' -> Inv s' ex.
Proof.
  intros I D. destruct D as [en er eh enx em es ep ek]. unfold PopSpec.Inv in *.
  pose proof (es PREV_PSET ltac:(discriminate) ltac:(discriminate)) as EQ. simpl in EQ.
  rewrite eh, enx, EQ, ep, ek.
  assert (IP : In l (set_list (s_pset s))) by (eapply nth_error_In; exact en).
  pose proof (inv_num_pos I IP) as NP. rewrite (num_of_some _ _ _ er) in NP.
  destruct (Z.eqb_spec (c_num c) 1) as [E|E].
  - pose proof (inv_kill1 I en er) as J.
    rewrite E in *. rewrite Z.add_0_r in J. exact J.
  - pose proof (inv_renum (set_num (c_num c - 1) c) I IP er) as J.
    cbn [c_num set_num] in J.
    replace (set_nm (s_pset s) - 1) with (set_nm (s_pset s) + (c_num c - 1) - c_num c) by lia.
    apply J; [apply rule_ok_num, (i_ok I _ _ er)|lia].
Qed.

Arguments del_rel_inv {i l c s s' ex} _ _.

(** Which rule is chosen: the first never-matching one, or the winner of the roulette. *)
Definition del_choice (s : st B) (i : nat) : Prop :=
  exists cs, map (s_heap s) (set_list (s_pset s)) = map Some cs /\
  ((exists c, nth_error cs i = Some c /\ unmatched K c = true /\
      forall j c', (j < i)%nat -> nth_error cs j = Some c' -> unmatched K c' = false) \/
   (Forall (fun c => unmatched K c = false) cs /\ wheel_choice V K (s_error s) (set_nm (s_pset s)) cs i)).

Lemma pset_cs s ex : Inv s ex -> exists cs, map (s_heap s) (set_list (s_pset s)) = map Some cs /\
  Forall rule_ok cs /\ Forall (fun c => 1 <= c_num c) cs.
Proof.
  intros I. destruct (live_list (s_heap s) (set_list (s_pset s))) as (cs & E).
  { intros l Hl. eapply inv_live_P; [exact I|exact Hl]. }
  exists cs. split; [exact E|]. split; apply Forall_forall; intros c Hc.
  - destruct (map_heap_in _ _ _ _ E Hc) as (l & Il & El). eapply (i_ok I), El.
  - destruct (map_heap_in _ _ _ _ E Hc) as (l & Il & El).
    pose proof (inv_num_pos I Il) as NP. rewrite (num_of_some _ _ _ El) in NP. exact NP.
Qed.

Lemma pset_del_spec s ex : Inv s ex -> set_list (s_pset s) <> [] ->
  hpost FO (clset_pset_del V K s)
    (fun _ s' => exists i l c, del_choice s i /\ del_rel i l c s s').
Proof.
  intros I NE. destruct (pset_cs s ex I) as (cs & E & R & N).
  pose proof (map_heap_len _ _ _ E) as LEN.
  unfold clset_pset_del. apply hp_bind_get.
  assert (G : get_all (set_list (s_pset s)) s = Ok (cs, s)) by (apply get_all_eq, E).
  eapply hp_bind with (P := fun a s' => a = cs /\ s' = s); [rewrite G; split; reflexivity|].
  intros ? ? (-> & ->). apply hp_bind_get.
  eapply hp_bind with (P := fun oi s' => exists i g, oi = Some i /\ s' = with_rng g s /\
    (i < length cs)%nat /\ del_choice s i).
  { destruct (never_match K cs 0) as [i|] eqn:NM.
    - apply hp_ret. exists i, (s_rng s). repeat split.
      + destruct s; reflexivity.
      + eapply never_match_lt, NM.
      + exists cs. split; [exact E|]. left. apply never_match_some in NM. destruct NM as (k & c & -> & H1 & H2 & H3). eauto.
    - unfold mrand, hpost.
      pose proof (pset_roulette_rpost V K kf Nx wf CO FO (s_error s) (set_nm (s_pset s)) cs) as RP.
      specialize (RP ltac:(intros ->; destruct (set_list (s_pset s)); [congruence|discriminate]) R N (s_rng s)).
      destruct (pset_roulette V K (s_error s) (set_nm (s_pset s)) cs (s_rng s)) as [[oi g]| |w|] eqn:ER; auto.
      destruct RP as (i & -> & W). exists i, g. repeat split; [apply (wheel_choice_lt _ _ _ _ _ _ W)|].
      exists cs. split; [exact E|]. right. split; [apply never_match_none in NM; exact NM|exact W]. }
  intros oi s1 (i & g & -> & -> & L & CH).
  destruct (nth_error (set_list (s_pset s)) i) as [l|] eqn:NL; [|apply nth_error_None in NL; lia].
  destruct (map_heap_nth _ _ _ _ _ E NL) as (c & _ & HL).
  assert (IP : In l (set_list (s_pset s))) by (eapply nth_error_In; exact NL).
  pose proof (inv_num_pos I IP) as NP. rewrite (num_of_some _ _ _ HL) in NP.
  unfold mbind at 1. rewrite (modify_eq l c) by exact HL. sst.
  apply hp_bind_mod. sst.
  eapply hp_bind_heap; [apply upd_eq|]. cbn [c_num set_num].
  destruct (Z.eqb_spec (c_num c - 1) 0) as [E0|E0].
  - unfold clset_add. rewrite bind_assoc_m. eapply hp_bind_heap; [apply upd_eq|].
    rewrite bind_assoc_m. apply hp_bind_get. apply hp_bind_mod. apply hp_mod.
    exists i, l, c. split; [exact CH|]. sst. cbn [c_num set_num].
    assert (E1 : (c_num c =? 1) = true) by (apply Z.eqb_eq; lia).
    constructor; try assumption; try reflexivity; rewrite ?E1; sst; try reflexivity.
    + intros [] H1 H2; try reflexivity; congruence.
    + f_equal. lia.
  - apply hp_ret. exists i, l, c. split; [exact CH|].
    assert (E1 : (c_num c =? 1) = false) by (apply Z.eqb_neq; lia).
    constructor; try assumption; try reflexivity; rewrite ?E1; sst; try reflexivity.
    intros [] H1 H2; try reflexivity; congruence.
Qed.

(** [n] deletions one after the other. *)
Fixpoint deletes (n : nat) (s s' : st B) : Prop :=
  match n with
  | O => s' = s
  | S n' => exists i l c s1, del_choice s i /\ del_rel i l c s s1 /\ deletes n' s1 s'
  end.

(** ** The cumulative effect of any number of deletions. *)
Record shrinks (s s' : st B) : Prop := {
  sh_next : s_next s' = s_next s;
  sh_misc : misc s' = misc s;
  sh_sets : forall w, w <> PSET -> w <> KSET -> get_set w s' = get_set w s;
  sh_heap : forall l, s_heap s' l = option_map (set_num (num_of (s_heap s') l)) (s_heap s l);
  sh_le : forall l, num_of (s_heap s') l <= num_of (s_heap s) l;
  sh_out : forall l, ~ In l (set_list (s_pset s)) -> s_heap s' l = s_heap s l;
  sh_p : set_list (s_pset s') = filter (fun l => 0 <? num_of (s_heap s') l) (set_list (s_pset s));
  sh_k : forall l, In l (set_list (s_kset s')) <->
           In l (set_list (s_kset s)) \/ (In l (set_list (s_pset s)) /\ num_of (s_heap s') l = 0);
  sh_sz : set_sz (s_pset s') <= set_sz (s_pset s)
}.

Lemma set_num_id (c : cl B) : set_num (c_num c) c = c.
Proof. destruct c; reflexivity. Qed.
Lemma set_num_num z y (c : cl B) : set_num z (set_num y c) = set_num z c.
Proof. reflexivity. Qed.

Lemma filter_all {A} f (l : list A) : (forall x, In x l -> f x = true) -> filter f l = l.
Proof.
  induction l as [|x l IH]; intros H; [reflexivity|]. simpl. rewrite H by (left; reflexivity).
  f_equal. apply IH. intros; apply H; right; assumption.
Qed.
Lemma filter_filter {A} f g (l : list A) : filter f (filter g l) = filter (fun x => g x && f x) l.
Proof.
  induction l as [|x l IH]; [reflexivity|]. simpl. destruct (g x); simpl; [|exact IH].
  destruct (f x); rewrite IH; reflexivity.
Qed.
Lemma filter_ext_in {A} f g (l : list A) : (forall x, In x l -> f x = g x) -> filter f l = filter g l.
Proof.
  induction l as [|x l IH]; intros H; [reflexivity|]. simpl. rewrite H by (left; reflexivity).
  rewrite IH by (intros; apply H; right; assumption). reflexivity.
Qed.

Lemma shrinks_refl s ex : Inv s ex -> shrinks s s.
Proof.
  intros I. constructor; try reflexivity.
  - intros l. destruct (s_heap s l) as [c|] eqn:E; [|reflexivity]. simpl.
    rewrite (num_of_some _ _ _ E), set_num_id. reflexivity.
  - symmetry. apply filter_all. intros l H. apply Z.ltb_lt. pose proof (inv_num_pos I H). lia.
  - intros l. split; [auto|]. intros [H|(H & E)]; [exact H|].
    pose proof (inv_num_pos I H). lia.
Qed.

Lemma del_rel_shrinks i l c s s' ex : Inv s ex -> del_rel i l c s s' -> shrinks s s'.
Proof.
  intros I D. pose proof (del_rel_inv I D) as I'. destruct D as [en er eh enx em es ep ek].
  assert (IP : In l (set_list (s_pset s))) by (eapply nth_error_In; exact en).
  pose proof (inv_num_pos I IP) as NP. rewrite (num_of_some _ _ _ er) in NP.
  destruct (owned_disj _ _ _ _ (i_nodup I)) as (N1 & _).
  constructor; try assumption.
  - intros l'. rewrite eh. destruct (Nat.eq_dec l' l) as [-> |Ne].
    + rewrite upd_eq, num_upd_eq, er. reflexivity.
    + rewrite upd_ne, num_upd_ne by exact Ne. destruct (s_heap s l') as [c'|] eqn:E; [|reflexivity]. simpl.
      rewrite (num_of_some _ _ _ E), set_num_id. reflexivity.
  - intros l'. rewrite eh. destruct (Nat.eq_dec l' l) as [-> |Ne].
    + rewrite num_upd_eq, (num_of_some _ _ _ er). simpl. lia.
    + rewrite num_upd_ne by exact Ne. lia.
  - intros l' H. rewrite eh. apply upd_ne. intros ->. contradiction.
  - rewrite eh, ep. destruct (Z.eqb_spec (c_num c) 1) as [E|E]; sst.
    + rewrite (remove_nth_filter _ _ _ N1 en). apply filter_ext_in. intros l' H'.
      destruct (Nat.eqb_spec l' l) as [-> |Ne]; simpl.
      * rewrite num_upd_eq. symmetry. apply Z.ltb_ge. simpl. lia.
      * rewrite num_upd_ne by exact Ne. symmetry. apply Z.ltb_lt.
        pose proof (inv_num_pos I H'). lia.
    + symmetry. apply filter_all. intros l' H'. apply Z.ltb_lt.
      destruct (Nat.eq_dec l' l) as [-> |Ne].
      * rewrite num_upd_eq. simpl. lia.
      * rewrite num_upd_ne by exact Ne. pose proof (inv_num_pos I H'). lia.
  - intros l'. rewrite eh, ek. destruct (Z.eqb_spec (c_num c) 1) as [E|E]; sst; simpl In.
    + split.
      * intros [<- |H]; [right; split; [exact IP|rewrite num_upd_eq; simpl; lia]|left; exact H].
      * intros [H|(H & Z0)]; [right; exact H|]. destruct (Nat.eq_dec l' l) as [-> |Ne]; [left; reflexivity|].
        rewrite num_upd_ne in Z0 by exact Ne. pose proof (inv_num_pos I H). lia.
    + split; [auto|]. intros [H|(H & Z0)]; [exact H|]. exfalso. destruct (Nat.eq_dec l' l) as [-> |Ne].
      * rewrite num_upd_eq in Z0. simpl in Z0. lia.
      * rewrite num_upd_ne in Z0 by exact Ne. pose proof (inv_num_pos I H). lia.
  - rewrite ep. destruct (c_num c =? 1); sst; lia.
Qed.

Lemma shrinks_trans s1 s2 s3 : shrinks s1 s2 -> shrinks s2 s3 -> 
  (forall l, 0 <= num_of (s_heap s3) l) -> shrinks s1 s3.
Proof.
  intros H1 H2 NN. destruct H1 as [a1 a2 a3 a4 a5 a6 a7 a8 a9], H2 as [b1 b2 b3 b4 b5 b6 b7 b8 b9].
  constructor.
  - congruence.
  - congruence.
  - intros w D1 D2. rewrite b3, a3 by assumption. reflexivity.
  - intros l. rewrite b4, a4. destruct (s_heap s1 l); reflexivity.
  - intros l. eapply Z.le_trans; [apply b5|apply a5].
  - intros l H. rewrite b6; [apply a6, H|]. rewrite a7. intros I. apply filter_In in I. apply H, I.
  - rewrite b7, a7, filter_filter. apply filter_ext_in. intros l _.
    destruct (Z.ltb_spec 0 (num_of (s_heap s3) l)) as [H|H]; [|apply andb_false_r].
    rewrite andb_true_r. apply Z.ltb_lt. specialize (b5 l). lia.
  - intros l. rewrite b8, a8, a7. rewrite filter_In. split.
    + intros [[H|(H & E)]|((H & _) & E)]; [left; exact H| |right; auto].
      right. split; [exact H|]. specialize (b5 l). specialize (NN l). lia.
    + intros [H|(H & E)]; [tauto|]. destruct (Z.ltb_spec 0 (num_of (s_heap s2) l)) as [G|G].
      * right. tauto.
      * left. right. split; [exact H|]. specialize (b5 l). lia.
  - lia.
Qed.

Lemma inv_num_nonneg h n P Kl Q ex l : inv h n P Kl Q ex -> 0 <= num_of h l.
Proof.
  intros I. destruct (h l) as [c|] eqn:E; [|unfold num_of; rewrite E; lia].
  assert (L : In l (owned P Kl Q ex)) by (apply (i_live I); congruence).
  apply in_owned in L. destruct L as [H|[H|[H|H]]].
  - pose proof (so_pos (i_p I) l H). lia.
  - destruct (i_k I) as (_ & _ & Z0). rewrite Z0 by exact H. lia.
  - pose proof (so_pos (i_q I) l H). lia.
  - rewrite (i_ex I l H). lia.
Qed.

Lemma enforce_loop_spec fuel s ex : Inv s ex ->
  (Z.to_nat (set_nm (s_pset s) - POP_SIZE K) <= fuel)%nat ->
  hpost FO (enforce_loop V K fuel s)
    (fun _ s' => shrinks s s' /\ Inv s' ex /\
       set_nm (s_pset s') = Z.min (set_nm (s_pset s)) (POP_SIZE K) /\
       (set_nm (s_pset s) <= POP_SIZE K -> s' = s) /\
       deletes (Z.to_nat (set_nm (s_pset s) - POP_SIZE K)) s s').
Proof.
  revert s. induction fuel as [|f IH]; intros s I Hf; cbn [enforce_loop]; apply hp_bind_get.
  - destruct (Z.ltb_spec (POP_SIZE K) (set_nm (s_pset s))) as [L|L]; [lia|].
    apply hp_ret. spl; [eapply shrinks_refl, I|exact I|lia|reflexivity|].
    replace (Z.to_nat (set_nm (s_pset s) - POP_SIZE K)) with O by lia. reflexivity.
  - destruct (Z.ltb_spec (POP_SIZE K) (set_nm (s_pset s))) as [L|L].
    2:{ apply hp_ret. spl; [eapply shrinks_refl, I|exact I|lia|reflexivity|].
        replace (Z.to_nat (set_nm (s_pset s) - POP_SIZE K)) with O by lia. reflexivity. }
    eapply hp_bind.
    { apply (pset_del_spec s ex I). intros E. pose proof (so_num (i_p I)) as N.
      rewrite E in N. simpl in N. pose proof (ok_pop _ _ CO). lia. }
    intros [] s1 (i & l & c & CH & D). pose proof (del_rel_inv I D) as I1.
    assert (NM : set_nm (s_pset s1) = set_nm (s_pset s) - 1).
    { rewrite (dr_p _ _ _ _ _ D). destruct (c_num c =? 1); reflexivity. }
    eapply hp_mono; [apply (IH s1 I1); lia|]. intros _ s2 (S2 & I2 & E2 & Id & DL).
    spl; try assumption.
    + eapply shrinks_trans; [eapply del_rel_shrinks; eassumption|exact S2|].
      intros l'. eapply inv_num_nonneg, I2.
    + lia.
    + lia.
    + replace (Z.to_nat (set_nm (s_pset s) - POP_SIZE K)) with (S (Z.to_nat (set_nm (s_pset s1) - POP_SIZE K))) by lia.
      exists i, l, c, s1. auto.
Qed.

Lemma enforce_spec s ex : Inv s ex ->
  hpost FO (clset_pset_enforce_limit V K s)
    (fun _ s' => shrinks s s' /\ Inv s' ex /\
       set_nm (s_pset s') = Z.min (set_nm (s_pset s)) (POP_SIZE K) /\
       (set_nm (s_pset s) <= POP_SIZE K -> s' = s) /\
       deletes (Z.to_nat (set_nm (s_pset s) - POP_SIZE K)) s s').
Proof.
  intros I. unfold clset_pset_enforce_limit. apply hp_bind_get. apply enforce_loop_spec; [exact I|lia].
Qed.
End Del.
