(** * The list of layers stays a list. *)
From Coq Require Import ZArith Bool List Lia.
From Verif Require Import Outcome Arr Llist.
Import ListNotations.
Open Scope Z_scope.

Section Facts.
Context {L : Type} (nin nout : L -> Z).
Notation cell := (nat * L)%type.
Notation heap := (@heap L).

(** The layers from the tail (the first layer) to the head (the output layer). *)
Definition first (ls : list cell) (fin : option nat) : option nat := match ls with [] => fin | (a, _) :: _ => Some a end.
Definition lastloc (ls : list cell) (nxt : option nat) : option nat := last (map (fun c => Some (fst c)) ls) nxt.
(** The cells of [ls] are linked to each other: [next] of the first is [nxt], [prev] of the last is [fin]. *)
Fixpoint seg (h : heap) (nxt : option nat) (ls : list cell) (fin : option nat) : Prop :=
  match ls with
  | [] => True
  | (a, l) :: r => cells h a = Some (mkNode l (first r fin) nxt) /\ seg h (Some a) r fin
  end.
Definition locs (ls : list cell) : list nat := map fst ls.

Record represents (h : heap) (nt : net) (ls : list cell) : Prop := {
  rp_seg : seg h None ls None;
  rp_nodup : NoDup (locs ls);
  rp_fresh : forall a, In a (locs ls) -> (a < fresh h)%nat;
  rp_tail : n_tail nt = first ls None;
  rp_head : n_head nt = lastloc ls None;
  rp_len : n_layers nt = Z.of_nat (length ls);
  rp_in : forall a l r, ls = (a, l) :: r -> n_inputs nt = nin l;
  rp_out : forall a l r, ls = r ++ [(a, l)] -> n_outputs nt = nout l /\ n_output nt = Some a
}.
(** Cells of no interest to the list are as before. *)
Definition same_else (ls : list nat) (h h' : heap) : Prop := forall a, ~ In a ls -> cells h' a = cells h a.

Lemma lastloc_snoc ls a l nxt : lastloc (ls ++ [(a, l)]) nxt = Some a.
Proof. unfold lastloc. rewrite map_app. cbn [map]. apply last_last. Qed.
Lemma lastloc_cons c ls nxt : lastloc (c :: ls) nxt = lastloc ls (Some (fst c)).
Proof.
  unfold lastloc. cbn [map]. generalize (map (fun c : cell => Some (fst c)) ls) (Some (fst c)). clear. intros m. revert nxt.
  induction m as [|y m IH]; intros nxt x; [reflexivity|]. change (last (x :: y :: m) nxt) with (last (y :: m) nxt). rewrite !IH. reflexivity.
Qed.
Lemma lastloc_app xs ys nxt : lastloc (xs ++ ys) nxt = lastloc ys (lastloc xs nxt).
Proof. revert nxt. induction xs as [|c xs IH]; intros nxt; [reflexivity|]. cbn [app]. rewrite !lastloc_cons. apply IH. Qed.
Lemma first_app xs ys fin : first (xs ++ ys) fin = first xs (first ys fin).
Proof. destruct xs as [|(a, l) xs]; reflexivity. Qed.
Lemma seg_app h nxt xs ys fin : seg h nxt (xs ++ ys) fin <-> seg h nxt xs (first ys fin) /\ seg h (lastloc xs nxt) ys fin.
Proof.
  revert nxt. induction xs as [|(a, l) xs IH]; intros nxt; cbn [app seg]; [tauto|].
  rewrite IH, first_app, lastloc_cons. cbn [fst]. tauto.
Qed.
Lemma seg_frame h h' nxt ls fin : (forall a, In a (locs ls) -> cells h' a = cells h a) -> seg h nxt ls fin -> seg h' nxt ls fin.
Proof.
  revert nxt. induction ls as [|(a, l) ls IH]; intros nxt F S; [exact I|]. destruct S as (S1 & S2). split; [rewrite F by (left; reflexivity); exact S1|].
  apply IH; [|exact S2]. intros b B. apply F. right. exact B.
Qed.
Lemma seg_cell h nxt xs a l ys fin : seg h nxt (xs ++ (a, l) :: ys) fin -> cells h a = Some (mkNode l (first ys fin) (lastloc xs nxt)).
Proof. intros S. apply seg_app in S. apply S. Qed.
Lemma seg_in h nxt ls fin a : seg h nxt ls fin -> In a (locs ls) -> exists n, cells h a = Some n.
Proof.
  intros S A. apply in_map_iff in A. destruct A as ((a', l) & E & A). cbn in E. subst a'. apply in_split in A. destruct A as (xs & ys & ->). apply seg_cell in S. eauto.
Qed.

Lemma walk_seg k : forall h nxt ls, seg h nxt ls None -> walk k h (first ls None) = Ok (first (skipn k ls) None).
Proof.
  induction k as [|k IH]; intros h nxt ls S; [reflexivity|]. destruct ls as [|(a, l) ls]; [reflexivity|].
  destruct S as (S1 & S2). cbn [walk first skipn]. unfold load. rewrite S1. cbn [obind nd_prev]. apply (IH _ (Some a)). exact S2.
Qed.

Lemma put_same (h : heap) a v : cells (put h a v) a = v.
Proof. unfold put. cbn. now rewrite Nat.eqb_refl. Qed.
Lemma put_other (h : heap) a v b : b <> a -> cells (put h a v) b = cells h b.
Proof. intros H. unfold put. cbn. destruct (Nat.eqb_spec a b); congruence. Qed.
Lemma put_seg h a v nxt ls fin : ~ In a (locs ls) -> seg h nxt ls fin -> seg (put h a v) nxt ls fin.
Proof. intros A. apply seg_frame. intros b B. apply put_other. congruence. Qed.
Lemma locs_app xs ys : locs (xs ++ ys) = locs xs ++ locs ys.
Proof. apply map_app. Qed.
Lemma nodup_mid xs a l ys : NoDup (locs (xs ++ (a, l) :: ys)) -> ~ In a (locs xs) /\ ~ In a (locs ys) /\ NoDup (locs (xs ++ ys)).
Proof.
  rewrite locs_app. cbn [locs map fst]. intros N. pose proof (NoDup_remove_2 _ _ _ N) as H. pose proof (NoDup_remove_1 _ _ _ N) as H1. rewrite in_app_iff in H. fold (locs ys) in *. rewrite locs_app. tauto.
Qed.

(** Relinking the last cell of a segment, and the first. *)
Lemma relink_last h nxt xs b lb p q : NoDup (locs (xs ++ [(b, lb)])) -> seg h nxt (xs ++ [(b, lb)]) p ->
  exists h', store h (Some b) (with_prev q) = Ok h' /\ seg h' nxt (xs ++ [(b, lb)]) q /\ fresh h' = fresh h /\ (forall a, a <> b -> cells h' a = cells h a).
Proof.
  intros N S. pose proof (seg_cell _ _ _ _ _ _ _ S) as C. cbn [store]. rewrite C. eexists. split; [reflexivity|]. split; [|split; [reflexivity|intros a A; now apply put_other]].
  destruct (nodup_mid _ _ _ _ N) as (N1 & _). apply seg_app in S. destruct S as (S1 & _). apply seg_app. split; [apply put_seg; assumption|]. split; [|exact I].
  rewrite put_same. reflexivity.
Qed.
Lemma relink_first h nxt a la ys fin q : NoDup (locs ((a, la) :: ys)) -> seg h nxt ((a, la) :: ys) fin ->
  exists h', store h (Some a) (with_next q) = Ok h' /\ seg h' q ((a, la) :: ys) fin /\ fresh h' = fresh h /\ (forall b, b <> a -> cells h' b = cells h b).
Proof.
  intros N S. destruct S as (C & S). cbn [store]. rewrite C. eexists. split; [reflexivity|]. split; [|split; [reflexivity|intros b B; now apply put_other]].
  inversion N; subst. split; [rewrite put_same; reflexivity|]. apply put_seg; assumption.
Qed.

(** ** Insertion *)
Definition insert_at (k : nat) (c : cell) (ls : list cell) : list cell := firstn k ls ++ c :: skipn k ls.

Lemma alloc_seg h n nxt ls fin : (forall a, In a (locs ls) -> (a < fresh h)%nat) -> seg h nxt ls fin -> seg (fst (alloc h n)) nxt ls fin.
Proof.
  intros F. apply seg_frame. intros a A. cbn. specialize (F a A). destruct (Nat.eqb_spec (fresh h) a); [lia|reflexivity].
Qed.

Lemma ends_in (ls : list cell) : ls <> [] -> exists r c, ls = r ++ [c].
Proof. intros H. destruct (exists_last H) as (r & c & E). eauto. Qed.
Lemma NoDup_app_l {A} (xs ys : list A) : NoDup (xs ++ ys) -> NoDup xs.
Proof. induction xs as [|x xs IH]; intros H; [constructor|]. inversion H; subst. constructor; [rewrite in_app_iff in *; tauto|auto]. Qed.
Lemma NoDup_app_r {A} (xs ys : list A) : NoDup (xs ++ ys) -> NoDup ys.
Proof. induction xs as [|x xs IH]; intros H; [exact H|]. inversion H; auto. Qed.

Lemma insert_ok h nt ls l pos : represents h nt ls -> ls = [] \/ 1 <= pos ->
  exists h' nt', neural_insert nin nout h nt l pos = Ok (h', nt') /\
    represents h' nt' (insert_at (Z.to_nat pos) (fresh h, l) ls) /\ n_train nt' = n_train nt /\ fresh h' = S (fresh h) /\ same_else (fresh h :: locs ls) h h'.
Proof.
  intros R POS. destruct R as [SG N F T H LE RI RO]. unfold neural_insert.
  destruct ls as [|c0 ls0] eqn:ELS.
  { cbn in H, T. rewrite H. cbn [alloc fst]. eexists _, _. split; [reflexivity|]. unfold insert_at. rewrite firstn_nil, skipn_nil. cbn [app].
    split; [|split; [reflexivity|split; [reflexivity|]]].
    - constructor; cbn; try reflexivity.
      + rewrite Nat.eqb_refl. auto.
      + constructor; [intros []|constructor].
      + intros a [<-|[]]. lia.
      + cbn in LE. lia.
      + intros a l0 r E. congruence.
      + intros a l0 r E. destruct r as [|x r]; [injection E as E1 E2; subst; auto|]. destruct r; discriminate E.
    - intros a A. cbn. destruct (Nat.eqb_spec (fresh h) a); [subst; cbn in A; tauto|reflexivity]. }
  rewrite <- ELS in *. assert (NE : ls <> []) by congruence. clear c0 ls0 ELS. destruct POS as [POS|POS]; [contradiction|].
  destruct (ends_in ls NE) as (r0 & (hd, lh) & EH). assert (EHD : n_head nt = Some hd) by (rewrite H, EH; apply lastloc_snoc). rewrite EHD.
  assert (ET : exists t lt r, ls = (t, lt) :: r) by (destruct ls as [|(t, lt) r]; [contradiction|eauto]). destruct ET as (t & lt & r1 & ET).
  assert (ETL : n_tail nt = Some t) by (rewrite T, ET; reflexivity). rewrite ETL.
  assert (W : walk (Z.to_nat pos) h (Some t) = Ok (first (skipn (Z.to_nat pos) ls) None)) by (rewrite <- (walk_seg _ _ _ _ SG), ET; reflexivity).
  rewrite W. cbn [obind]. unfold insert_at. set (k := Z.to_nat pos) in *. assert (K : (1 <= k)%nat) by lia.
  pose proof (firstn_skipn k ls) as SP. set (xs := firstn k ls) in *. set (ys := skipn k ls) in *. assert (XN : xs = [] -> ls = []) by (unfold xs; destruct k; [lia|rewrite ET; discriminate]).
  assert (NX : xs <> []) by auto. clearbody xs ys.
  assert (LEN : length ls = (length xs + length ys)%nat) by (rewrite <- SP; apply app_length).
  assert (LN : forall c, length (xs ++ c :: ys) = S (length ls)) by (intros c; rewrite app_length; cbn [length]; lia).
  assert (FI : forall a, In a (locs xs) \/ In a (locs ys) -> (a < fresh h)%nat) by (intros a A; apply F; rewrite <- SP, locs_app; apply in_app_iff; exact A).
  assert (RI' : forall c a l0 r, xs ++ c :: ys = (a, l0) :: r -> l0 = lt).
  { intros c a l0 r E. rewrite <- SP in ET. destruct xs as [|x xs']; [contradiction|]. cbn [app] in E, ET. congruence. }
  assert (NF : ~ In (fresh h) (locs xs) /\ ~ In (fresh h) (locs ys)) by (split; intros A; [pose proof (FI _ (or_introl A))|pose proof (FI _ (or_intror A))]; lia).
  assert (ND : forall c : L, NoDup (locs (xs ++ (fresh h, c) :: ys))).
  { intros c. rewrite locs_app. cbn [locs map fst]. fold (locs ys). apply NoDup_Add with (a := fresh h) (l := locs xs ++ locs ys); [apply Add_app|].
    split; [rewrite <- locs_app, SP; exact N|rewrite in_app_iff; tauto]. }
  rewrite <- SP in SG. apply seg_app in SG. destruct SG as (SX & SY). pose proof N as N'. rewrite <- SP, locs_app in N'.
  pose proof (NoDup_app_l _ _ N') as NXS. pose proof (NoDup_app_r _ _ N') as NYS.
  destruct ys as [|(it, li) ys'] eqn:EY.
  - (* new head *)
    cbn [first]. rewrite app_nil_r in SP. cbn [alloc fst snd].
    pose proof (alloc_seg h (mkNode l None (Some hd)) None xs None ltac:(auto) SX) as SA. cbn [first] in SX.
    set (h1 := fst (alloc h (mkNode l None (Some hd)))) in *. change (mkHeap _ (S (fresh h))) with h1.
    rewrite SP, EH in SA. destruct (relink_last h1 None r0 hd lh None (Some (fresh h))) as (h2 & E2 & S2 & F2 & O2); [rewrite <- EH; exact N|exact SA|].
    assert (HF : hd <> fresh h). { intros ->. apply (proj1 NF). rewrite SP, EH, locs_app. apply in_app_iff. right. left. reflexivity. }
    change (Some (fresh h)) with (Some (fresh h)) in E2. rewrite E2. cbn [obind]. eexists _, _. split; [reflexivity|].
    split; [|split; [reflexivity|split; [exact F2|]]].
    + constructor; cbn [n_layers n_inputs n_outputs n_output n_head n_tail].
      * apply seg_app. cbn [first seg]. split; [rewrite SP, EH; exact S2|]. split; [|exact I].
        rewrite O2 by congruence. cbn. rewrite Nat.eqb_refl. rewrite SP, EH, lastloc_snoc. reflexivity.
      * apply ND.
      * intros a A. rewrite F2. cbn. rewrite locs_app in A. apply in_app_iff in A. destruct A as [A|[<-|[]]]; [pose proof (FI a (or_introl A)); lia|cbn; lia].
      * rewrite SP, ET. reflexivity.
      * rewrite lastloc_snoc. reflexivity.
      * rewrite LN. lia.
      * intros a l0 r E. rewrite (RI' _ _ _ _ E). apply (RI t lt r1 ET).
      * intros a l0 r E. apply app_inj_tail in E. destruct E as (_ & E). injection E as <- <-. auto.
    + intros a A. assert (a <> hd) by (intros ->; apply A; right; rewrite EH, locs_app; apply in_app_iff; right; left; reflexivity).
      rewrite O2 by assumption. cbn. destruct (Nat.eqb_spec (fresh h) a); [subst; exfalso; apply A; left; reflexivity|reflexivity].
  - (* in the middle *)
    cbn [first]. destruct (ends_in xs NX) as (xs' & (b, lb) & EX). rewrite EX in *. rewrite lastloc_snoc in SY.
    unfold load at 1. pose proof SY as (CI & _). rewrite CI. cbn [obind nd_next]. cbn [alloc].
    set (n1 := mkNode l (Some it) (Some b)). set (h1 := fst (alloc h n1)). change (mkHeap _ (S (fresh h))) with h1.
    pose proof (alloc_seg h n1 None (xs' ++ [(b, lb)]) (Some it) ltac:(auto) SX) as SX1. pose proof (alloc_seg h n1 (Some b) ((it, li) :: ys') None ltac:(auto) SY) as SY1. fold h1 in SX1, SY1.
    destruct (relink_first h1 (Some b) it li ys' None (Some (fresh h))) as (h2 & E2 & S2 & F2 & O2); [exact NYS|exact SY1|].
    rewrite E2. cbn [obind]. unfold load at 1. pose proof S2 as (CI2 & _). rewrite CI2. cbn [obind nd_next].
    assert (IF : it <> fresh h) by (intros ->; apply (proj2 NF); left; reflexivity).
    assert (BF : b <> fresh h) by (intros ->; apply (proj1 NF); rewrite locs_app; apply in_app_iff; right; left; reflexivity).
    assert (C1 : cells h2 (fresh h) = Some n1) by (rewrite O2 by congruence; cbn; now rewrite Nat.eqb_refl).
    unfold load at 1. rewrite C1. cbn [obind nd_next n1].
    assert (DJ : forall a, In a (locs (xs' ++ [(b, lb)])) -> ~ In a (locs ((it, li) :: ys'))).
    { intros a A B. clear -N' A B. induction (locs (xs' ++ [(b, lb)])) as [|x m IH]; [contradiction|]. cbn [app] in N'. inversion N'; subst. destruct A as [->|A]; [apply H1, in_app_iff; auto|auto]. }
    assert (SX2 : seg h2 None (xs' ++ [(b, lb)]) (Some it)).
    { apply (seg_frame h1); [|exact SX1]. intros a A. apply O2. intros ->. apply (DJ it A). left. reflexivity. }
    destruct (relink_last h2 None xs' b lb (Some it) (Some (fresh h))) as (h3 & E3 & S3 & F3 & O3); [exact NXS|exact SX2|].
    rewrite E3. cbn [obind]. eexists _, _. split; [reflexivity|]. split; [|split; [reflexivity|split; [rewrite F3, F2; reflexivity|]]].
    + constructor; cbn [n_layers n_inputs n_outputs n_output n_head n_tail].
      * apply seg_app. cbn [first]. split; [exact S3|]. rewrite lastloc_snoc. cbn [seg]. split; [rewrite O3 by congruence; exact C1|].
        apply (seg_frame h2 h3 (Some (fresh h)) ((it, li) :: ys') None); [|exact S2]. intros a A. apply O3. intros ->. apply (DJ b); [rewrite locs_app; apply in_app_iff; right; left; reflexivity|exact A].
      * apply ND.
      * intros a A. rewrite F3, F2. cbn. rewrite locs_app in A. apply in_app_iff in A. destruct A as [A|[<-|A]]; [pose proof (FI a (or_introl A)); lia|cbn; lia|pose proof (FI a (or_intror A)); lia].
      * rewrite <- ETL, T, <- SP, !first_app. destruct xs' as [|(? & ?) ?]; reflexivity.
      * rewrite <- EHD, H. rewrite <- SP, !lastloc_app. rewrite !lastloc_cons. reflexivity.
      * rewrite LN. lia.
      * intros a l0 r E. rewrite (RI' _ _ _ _ E). apply (RI t lt r1 ET).
      * intros a l0 r E. rewrite EH in SP.
        assert (EQ : exists r', (xs' ++ [(b, lb)]) ++ (it, li) :: ys' = r' ++ [(a, l0)]).
        { destruct (ends_in ((it, li) :: ys')) as (q & c & Q); [discriminate|]. rewrite Q in *. change ((xs' ++ [(b, lb)]) ++ (fresh h, l) :: q ++ [c]) with ((xs' ++ [(b, lb)]) ++ ((fresh h, l) :: q) ++ [c]) in E.
          rewrite app_assoc in E. apply app_inj_tail in E. destruct E as (_ & <-). exists ((xs' ++ [(b, lb)]) ++ q). rewrite <- !app_assoc. reflexivity. }
        destruct EQ as (r' & EQ). rewrite EQ in SP. apply app_inj_tail in SP. destruct SP as (_ & E1). injection E1 as -> ->. apply (RO hd lh r0 EH).
    + intros a A. assert (INB : In b (locs ls)) by (rewrite <- SP, !locs_app; apply in_app_iff; left; apply in_app_iff; right; left; reflexivity).
      assert (INI : In it (locs ls)) by (rewrite <- SP, !locs_app; apply in_app_iff; right; left; reflexivity).
      rewrite O3 by (intros ->; apply A; right; exact INB). rewrite O2 by (intros ->; apply A; right; exact INI). cbn.
      destruct (Nat.eqb_spec (fresh h) a); [subst; exfalso; apply A; left; reflexivity|reflexivity].
Qed.

Lemma insert_first_fails h nt ls l pos : represents h nt ls -> ls <> [] -> pos <= 0 -> neural_insert nin nout h nt l pos = UB NullDeref.
Proof.
  intros R NE P. destruct R as [SG N F T H LE RI RO]. unfold neural_insert. destruct (ends_in ls NE) as (r0 & (hd, lh) & EH). rewrite H, EH, lastloc_snoc.
  destruct ls as [|(t, lt) r]; [contradiction|]. rewrite T. cbn [first]. replace (Z.to_nat pos) with O by lia. cbn [walk obind]. destruct SG as (C & _).
  unfold load at 1. rewrite C. cbn [obind nd_next alloc store]. cbn [cells]. assert (FT : (t < fresh h)%nat) by (apply F; left; reflexivity).
  destruct (Nat.eqb_spec (fresh h) t); [lia|]. rewrite C. cbn [obind]. unfold load at 1. rewrite put_same. cbn [obind with_next nd_next].
  unfold load. rewrite put_other by lia. cbn [cells]. rewrite Nat.eqb_refl. reflexivity.
Qed.

(** ** Removal *)
Definition with_inputs (n : Z) (nt : net) : net := mkNet (n_layers nt) n (n_outputs nt) (n_output nt) (n_head nt) (n_tail nt) (n_train nt).
Definition first_inputs (ls : list cell) : Z := match ls with [] => 0 | (_, l) :: _ => nin l end.

Lemma release_ok (h : heap) a n : cells h a = Some n -> release h a = Ok (put h a None).
Proof. intros C. unfold release. now rewrite C. Qed.
Lemma walk_to h nt xs a la ys pos : represents h nt (xs ++ (a, la) :: ys) -> Z.to_nat pos = length xs -> walk (Z.to_nat pos) h (n_tail nt) = Ok (Some a).
Proof.
  intros R P. rewrite (rp_tail _ _ _ R), (walk_seg _ _ _ _ (rp_seg _ _ _ R)), P. rewrite skipn_app, skipn_all, Nat.sub_diag. reflexivity.
Qed.

Lemma remove_ok h nt xs a la ys pos : represents h nt (xs ++ (a, la) :: ys) -> xs ++ ys <> [] -> Z.to_nat pos = length xs ->
  exists h' nt', neural_remove nout h nt pos = Ok (h', nt') /\ represents h' (with_inputs (first_inputs (xs ++ ys)) nt') (xs ++ ys) /\
    n_inputs nt' = n_inputs nt /\ n_train nt' = n_train nt /\ fresh h' = fresh h /\ cells h' a = None /\ same_else (locs (xs ++ (a, la) :: ys)) h h'.
Proof.
  intros R NE P. unfold neural_remove. rewrite (walk_to _ _ _ _ _ _ _ R P). cbn [obind]. destruct R as [SG N F T H LE RI RO].
  pose proof (seg_cell _ _ _ _ _ _ _ SG) as C. unfold load at 1. rewrite C. cbn [obind nd_next nd_prev].
  destruct (nodup_mid _ _ _ _ N) as (NX & NY & ND). pose proof SG as SG'. apply seg_app in SG'. destruct SG' as (SX & (_ & SY)). cbn [first] in SX.
  pose proof ND as ND'. rewrite locs_app in ND'. pose proof (NoDup_app_l _ _ ND') as NXS. pose proof (NoDup_app_r _ _ ND') as NYS.
  assert (FR : forall b, In b (locs (xs ++ ys)) -> (b < fresh h)%nat).
  { intros b B. apply F. rewrite locs_app in *. cbn [locs map]. apply in_app_iff in B. apply in_app_iff. cbn [In]. unfold locs in *. tauto. }
  assert (INX : forall b, In b (locs xs) -> In b (locs (xs ++ (a, la) :: ys))) by (intros b B; rewrite locs_app; apply in_app_iff; auto).
  assert (INY : forall b, In b (locs ys) -> In b (locs (xs ++ (a, la) :: ys))) by (intros b B; rewrite locs_app; apply in_app_iff; right; right; exact B).
  assert (INA : In a (locs (xs ++ (a, la) :: ys))) by (rewrite locs_app; apply in_app_iff; right; left; reflexivity).
  assert (DJ : forall b, In b (locs xs) -> ~ In b (locs ys)).
  { intros b A B. clear -ND' A B. induction (locs xs) as [|x m IH]; [contradiction|]. cbn [app] in ND'. inversion ND'; subst. destruct A as [->|A]; [apply H1, in_app_iff; auto|auto]. }
  assert (RI' : forall b l r, xs ++ ys = (b, l) :: r -> first_inputs (xs ++ ys) = nin l) by (intros b l r E; rewrite E; reflexivity).
  assert (LEN : n_layers nt - 1 = Z.of_nat (length (xs ++ ys))) by (rewrite LE, !app_length; cbn [length]; lia).
  destruct ys as [|(y, ly) ys'].
  - (* head *)
    rewrite app_nil_r in *. destruct (ends_in xs NE) as (xs' & (b, lb) & EX). rewrite EX in *. cbn [first] in *. rewrite lastloc_snoc.
    destruct (relink_last h None xs' b lb (Some a) None NXS SX) as (h1 & E1 & S1 & F1 & O1). rewrite E1. cbn [obind].
    pose proof (seg_cell _ _ _ _ _ _ _ S1) as CB. unfold load. rewrite CB. cbn [obind nd_layer fst snd].
    assert (AB : a <> b) by (intros ->; apply NX; rewrite locs_app; apply in_app_iff; right; left; reflexivity).
    rewrite (release_ok _ _ (mkNode la None (Some b))) by (rewrite O1 by exact AB; rewrite C, lastloc_snoc; reflexivity). cbn [obind].
    eexists _, _. split; [reflexivity|]. split; [|split; [reflexivity|split; [reflexivity|split; [exact F1|split; [apply put_same|]]]]].
    + constructor; cbn [with_inputs n_layers n_inputs n_outputs n_output n_head n_tail].
      * apply put_seg; [exact NX|exact S1].
      * exact ND.
      * cbn. rewrite F1. exact FR.
      * rewrite T, first_app. destruct xs' as [|(? & ?) ?]; reflexivity.
      * rewrite lastloc_snoc. reflexivity.
      * exact LEN.
      * exact RI'.
      * intros b' l r E. apply app_inj_tail in E. destruct E as (_ & E). injection E as <- <-. auto.
    + intros c NC. rewrite put_other by (intros ->; apply NC, INA). apply O1. intros ->. apply NC, INX. rewrite locs_app. apply in_app_iff. right. left. reflexivity.
  - cbn [first] in *. assert (AY : a <> y) by (intros ->; apply NY; left; reflexivity).
    assert (ROT : forall b l r, xs ++ (y, ly) :: ys' = r ++ [(b, l)] -> n_outputs nt = nout l /\ n_output nt = Some b).
    { intros b l r E. destruct (ends_in ((y, ly) :: ys')) as (q & c & Q); [discriminate|]. rewrite Q in E. rewrite app_assoc in E. apply app_inj_tail in E. destruct E as (_ & ->).
      apply (RO b l (xs ++ (a, la) :: q)). rewrite Q, <- app_assoc. reflexivity. }
    assert (LST : lastloc (xs ++ (a, la) :: (y, ly) :: ys') None = lastloc (xs ++ (y, ly) :: ys') None) by (rewrite !lastloc_app, !lastloc_cons; reflexivity).
    destruct xs as [|x0 xs0] eqn:EX0.
    + (* tail *)
      cbn [lastloc map last app] in *. cbn [obind fst snd].
      destruct (relink_first h (Some a) y ly ys' None None NYS SY) as (h1 & E1 & S1 & F1 & O1). rewrite E1. cbn [obind fst snd].
      rewrite (release_ok _ _ (mkNode la (Some y) None)) by (rewrite O1 by exact AY; rewrite C; reflexivity). cbn [obind].
      eexists _, _. split; [reflexivity|]. split; [|split; [reflexivity|split; [reflexivity|split; [exact F1|split; [apply put_same|]]]]].
      * constructor; cbn [with_inputs n_layers n_inputs n_outputs n_output n_head n_tail].
        -- apply put_seg; [exact NY|exact S1].
        -- exact ND.
        -- cbn. rewrite F1. exact FR.
        -- reflexivity.
        -- rewrite H. exact LST.
        -- exact LEN.
        -- exact RI'.
        -- exact ROT.
      * intros c NC. rewrite put_other by (intros ->; apply NC, INA). apply O1. intros ->. apply NC, INY. left. reflexivity.
    + (* middle *)
      rewrite <- EX0 in *. assert (NEX : xs <> []) by congruence. clear x0 xs0 EX0. destruct (ends_in xs NEX) as (xs' & (b, lb) & EX). rewrite EX in *. rewrite lastloc_snoc in *.
      cbn [obind fst snd].
      destruct (relink_last h None xs' b lb (Some a) (Some y) NXS SX) as (h1 & E1 & S1 & F1 & O1). rewrite E1. cbn [obind].
      assert (INB : In b (locs (xs' ++ [(b, lb)]))) by (rewrite locs_app; apply in_app_iff; right; left; reflexivity).
      assert (BY : b <> y) by (intros ->; apply (DJ y INB); left; reflexivity). assert (AB : a <> b) by (intros ->; exact (NX INB)).
      assert (SY1 : seg h1 (Some a) ((y, ly) :: ys') None) by (apply (seg_frame h); [|exact SY]; intros c CC; apply O1; intros ->; exact (DJ b INB CC)).
      destruct (relink_first h1 (Some a) y ly ys' None (Some b) NYS SY1) as (h2 & E2 & S2 & F2 & O2). rewrite E2. cbn [obind fst snd].
      rewrite (release_ok _ _ (mkNode la (Some y) (Some b))) by (rewrite O2, O1 by assumption; exact C). cbn [obind].
      eexists _, _. split; [reflexivity|]. split; [|split; [reflexivity|split; [reflexivity|split; [cbn; congruence|split; [apply put_same|]]]]].
      * constructor; cbn [with_inputs n_layers n_inputs n_outputs n_output n_head n_tail].
        -- apply put_seg; [rewrite locs_app, in_app_iff; tauto|]. apply seg_app. cbn [first]. split; [|rewrite lastloc_snoc; exact S2].
           apply (seg_frame h1); [|exact S1]. intros c CC. apply O2. intros ->. apply (DJ y CC). left. reflexivity.
        -- exact ND.
        -- cbn. rewrite F2, F1. exact FR.
        -- rewrite T, !first_app. destruct xs' as [|(? & ?) ?]; reflexivity.
        -- rewrite H. exact LST.
        -- exact LEN.
        -- exact RI'.
        -- exact ROT.
      * intros c NC. rewrite put_other by (intros ->; apply NC, INA). rewrite O2 by (intros ->; apply NC, INY; left; reflexivity). apply O1. intros ->. apply NC, INX, INB.
Qed.
Lemma remove_out h nt ls pos : represents h nt ls -> Z.of_nat (length ls) <= Z.max 0 pos -> neural_remove nout h nt pos = Exit.
Proof.
  intros R P. unfold neural_remove. rewrite (rp_tail _ _ _ R), (walk_seg _ _ _ _ (rp_seg _ _ _ R)). rewrite skipn_all2 by lia. reflexivity.
Qed.
Lemma remove_only h nt c pos : represents h nt [c] -> neural_remove nout h nt pos = Exit.
Proof.
  intros R. destruct (Z_le_gt_dec 1 pos) as [P|P]; [apply (remove_out h nt [c]); [exact R|cbn [length]; lia]|].
  destruct c as (a, l). unfold neural_remove. replace (Z.to_nat pos) with O by lia. cbn [walk obind]. rewrite (rp_tail _ _ _ R). cbn [first].
  pose proof (rp_seg _ _ _ R) as (C & _). unfold load. rewrite C. reflexivity.
Qed.

(** ** Walks, copies, release *)
Lemma forwards_ok ls : forall h nxt fuel, seg h nxt ls None -> (length ls <= fuel)%nat -> forwards fuel h (first ls None) = Ok ls.
Proof.
  induction ls as [|(a, l) ls IH]; intros h nxt fuel S LE; [destruct fuel; reflexivity|]. destruct fuel as [|f]; [cbn in LE; lia|].
  destruct S as (C & S). cbn [first forwards]. unfold load. rewrite C. cbn [obind nd_prev nd_layer]. rewrite (IH _ _ _ S) by (cbn in LE; lia). reflexivity.
Qed.
Lemma backwards_ok ls : forall h fin fuel, seg h None ls fin -> (length ls <= fuel)%nat -> backwards fuel h (lastloc ls None) = Ok (rev ls).
Proof.
  induction ls as [|(a, l) ls IH] using rev_ind; intros h fin fuel S LE; [destruct fuel; reflexivity|]. rewrite app_length in LE. cbn [length] in LE. destruct fuel as [|f]; [lia|].
  rewrite lastloc_snoc. cbn [backwards]. unfold load. rewrite (seg_cell _ _ _ _ _ _ _ S). cbn [obind nd_next nd_layer]. apply seg_app in S. destruct S as (S & _).
  rewrite (IH _ _ _ S) by lia. cbn [obind]. rewrite rev_app_distr. reflexivity.
Qed.

Lemma free_ok ls : forall h nt nxt fuel, seg h nxt ls None -> NoDup (locs ls) -> n_tail nt = first ls None -> (length ls <= fuel)%nat ->
  exists h', neural_free fuel h nt = Ok (h', mkNet (n_layers nt - Z.of_nat (length ls)) (n_inputs nt) (n_outputs nt) (n_output nt) (n_head nt) None (n_train nt)) /\
    (forall a, In a (locs ls) -> cells h' a = None) /\ same_else (locs ls) h h' /\ fresh h' = fresh h.
Proof.
  induction ls as [|(a, l) ls IH]; intros h nt nxt fuel S N T LE.
  - destruct fuel; cbn [neural_free]; rewrite T; cbn [first]; (eexists; split; [destruct nt; cbn in *; rewrite T, Z.sub_0_r; reflexivity|]); (split; [intros ? []|split; [intros ? ?; reflexivity|reflexivity]]).
  - destruct fuel as [|f]; [cbn in LE; lia|]. destruct S as (C & S). cbn [neural_free]. rewrite T. cbn [first]. unfold load. rewrite C. cbn [obind]. rewrite (release_ok _ _ _ C). cbn [obind nd_prev].
    inversion N as [|? ? NA N']; subst.
    destruct (IH (put h a None) (mkNet (n_layers nt - 1) (n_inputs nt) (n_outputs nt) (n_output nt) (n_head nt) (first ls None) (n_train nt)) (Some a) f) as (h' & E & H1 & H2 & H3).
    + apply put_seg; assumption.
    + exact N'.
    + reflexivity.
    + cbn in LE. lia.
    + exists h'. split; [rewrite E; cbn [n_layers n_inputs n_outputs n_output n_head n_train length]; replace (n_layers nt - Z.of_nat (Datatypes.S (length ls))) with (n_layers nt - 1 - Z.of_nat (length ls)) by lia; reflexivity|]. split; [|split; [|exact H3]].
      * intros b [<-|B]; [|apply H1, B]. cbn [fst]. rewrite H2 by exact NA. apply put_same.
      * intros b B. rewrite H2 by (intros X; apply B; right; exact X). apply put_other. intros ->. apply B. left. reflexivity.
Qed.

Lemma insert_push k c (ls : list cell) : (length ls <= k)%nat -> insert_at k c ls = ls ++ [c].
Proof. intros H. unfold insert_at. rewrite firstn_all2, skipn_all2 by exact H. reflexivity. Qed.
Lemma push_ok h nt ls l : represents h nt ls -> exists h' nt', neural_push nin nout h nt l = Ok (h', nt') /\ represents h' nt' (ls ++ [(fresh h, l)]) /\
  n_train nt' = n_train nt /\ fresh h' = S (fresh h) /\ same_else (fresh h :: locs ls) h h'.
Proof.
  intros R. unfold neural_push. destruct (insert_ok h nt ls l (n_layers nt) R) as (h' & nt' & E & R' & H).
  - rewrite (rp_len _ _ _ R). destruct ls; [left; reflexivity|right; cbn [length]; lia].
  - exists h', nt'. split; [exact E|]. rewrite insert_push in R' by (rewrite (rp_len _ _ _ R); lia). auto.
Qed.
Lemma init_represents (h : heap) : represents h neural_init [].
Proof. constructor; [exact I|constructor|intros a []|reflexivity|reflexivity|reflexivity|intros; discriminate|intros a l r E; destruct r; discriminate E]. Qed.

(** The layers copied so far. *)
Lemma copy_loop_ok cp todo : forall h nxt dest done fuel, seg h nxt todo None -> (forall a, In a (locs todo) -> (a < fresh h)%nat) -> NoDup (locs todo) ->
  (forall a, In a (locs todo) -> ~ In a (locs done)) -> represents h dest done -> (length todo <= fuel)%nat ->
  (forall c, In c todo -> exists l, cp (snd c) = Ok l) ->
  exists h' dest' new, copy_loop nin nout cp fuel h (first todo None) dest = Ok (h', dest') /\ represents h' dest' (done ++ new) /\
    length new = length todo /\ Forall2 (fun c c' => cp (snd c) = Ok (snd c') /\ (fresh h <= fst c')%nat) todo new /\
    n_train dest' = n_train dest /\ (forall a, (a < fresh h)%nat -> ~ In a (locs done) -> cells h' a = cells h a).
Proof.
  induction todo as [|(a, l) todo IH]; intros h nxt dest done fuel S F N D R LE CP.
  - exists h, dest, []. split; [destruct fuel; reflexivity|]. rewrite app_nil_r. split; [exact R|]. split; [reflexivity|]. split; [constructor|]. split; [reflexivity|]. auto.
  - destruct fuel as [|f]; [cbn in LE; lia|]. destruct S as (C & S). cbn [first copy_loop]. unfold load. rewrite C. cbn [obind nd_layer]. destruct (CP _ (or_introl eq_refl)) as (l' & CL). cbn [snd] in CL. rewrite CL. cbn [obind].
    destruct (push_ok h dest done l' R) as (h1 & d1 & E1 & R1 & T1 & F1 & O1). rewrite E1. cbn [obind fst snd].
    assert (KEEP : forall b, In b (locs ((a, l) :: todo)) -> cells h1 b = cells h b).
    { intros b B. apply O1. intros [X|X]; [specialize (F b B); lia|exact (D b B X)]. }
    rewrite (KEEP a) by (left; reflexivity). rewrite C. cbn [obind nd_prev]. inversion N as [|? ? NA N']; subst.
    destruct (IH h1 (Some a) d1 (done ++ [(fresh h, l')]) f) as (h2 & d2 & new & E2 & R2 & L2 & X2 & T2 & O2).
    + apply (seg_frame h); [|exact S]. intros b B. apply KEEP. right. exact B.
    + intros b B. rewrite F1. specialize (F b (or_intror B)). lia.
    + exact N'.
    + intros b B. rewrite locs_app, in_app_iff. intros [X|[X|[]]]; [exact (D b (or_intror B) X)|cbn in X; specialize (F b (or_intror B)); lia].
    + exact R1.
    + cbn in LE. lia.
    + intros c CC. apply CP. right. exact CC.
    + exists h2, d2, ((fresh h, l') :: new). split; [exact E2|]. rewrite <- app_assoc in R2. split; [exact R2|]. split; [cbn [length]; congruence|].
      split. { constructor; [split; [exact CL|cbn; lia]|]. clear -X2 F1. induction X2 as [|c c' ? ? (U & V) _ IHX]; constructor; [split; [exact U|lia]|exact IHX]. }
      split; [congruence|]. intros b B NB. rewrite O2; [|rewrite F1; lia|rewrite locs_app, in_app_iff; intros [X|[X|[]]]; [exact (NB X)|cbn in X; lia]].
      apply O1. intros [X|X]; [lia|exact (NB X)].
Qed.
End Facts.
