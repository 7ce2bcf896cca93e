(** * The flag returned by the mutation of a network (C69). *)
From Coq Require Import ZArith Bool List Lia.
From Verif Require Import Outcome F64 F64Facts Rng Sam Arr ArrFacts Clock Dgp Layer Net.
Import ListNotations.
Open Scope Z_scope.

(** ** What a successful run guarantees *)
Definition ens {A} (m : RM A) (Q : A -> Prop) : Prop := forall g a g', m g = Ok (a, g') -> Q a.
Lemma ens_ret {A} (a : A) (Q : A -> Prop) : Q a -> ens (ret a) Q.
Proof. unfold ens, ret. intros H g a' g' E. injection E as <- _. exact H. Qed.
Lemma ens_bind {A B} (m : RM A) (k : A -> RM B) P Q : ens m P -> (forall a, P a -> ens (k a) Q) -> ens (bind m k) Q.
Proof.
  unfold ens, bind. intros H1 H2 g b g' E. destruct (m g) as [(a, g1)| | |] eqn:M; try discriminate. apply (H2 a (H1 _ _ _ M) _ _ _ E).
Qed.
Lemma ens_any {A} (m : RM A) : ens m (fun _ => True).
Proof. unfold ens. auto. Qed.
Lemma ens_lift {A} (o : outcome A) (Q : A -> Prop) : (forall a, o = Ok a -> Q a) -> ens (lift o) Q.
Proof. unfold ens, lift. intros H g a g' E. destruct o; try discriminate. injection E as <- _. auto. Qed.
Lemma ens_mono {A} (m : RM A) (P Q : A -> Prop) : ens m P -> (forall a, P a -> Q a) -> ens m Q.
Proof. unfold ens. eauto. Qed.
Lemma ens_for {S} (I : Z -> S -> Prop) (Q : S -> Prop) (f : Z -> S -> RM S) n s :
  I 0 s -> (forall i s, 0 <= i < n -> I i s -> ens (f i s) (I (i + 1))) -> (forall s, I (Z.max 0 n) s -> Q s) -> ens (rfor n f s) Q.
Proof.
  intros H0 H HQ. unfold rfor.
  assert (G : forall m i s, 0 <= i -> i + Z.of_nat m = Z.max 0 n -> I i s -> ens (rloop m i f s) Q).
  { induction m as [|m IH]; intros i s0 I0 E HI; cbn [rloop].
    - apply ens_ret, HQ. replace (Z.max 0 n) with i by lia. exact HI.
    - eapply ens_bind; [apply H; [lia|exact HI]|]. intros s1 HI1. apply IH; [lia|lia|exact HI1]. }
  apply G; [lia|lia|exact H0].
Qed.
Lemma wr_in {A} (l l' : list A) i v : wr l i v = Ok l' -> 0 <= i < len l /\ wrote l l' i v.
Proof.
  intros E. destruct (Z_le_dec 0 i) as [P|P]; [|rewrite wr_out in E by lia; discriminate].
  destruct (Z_lt_dec i (len l)) as [Q|Q]; [|rewrite wr_out in E by lia; discriminate].
  destruct (wr_ok l i v (conj P Q)) as (l2 & E2 & W). rewrite E2 in E. injection E as ->. auto.
Qed.
Lemma rd_in {A} (d : A) (l : list A) i v : rd l i = Ok v -> 0 <= i < len l /\ v = at_ d l i.
Proof.
  intros E. destruct (Z_le_dec 0 i) as [P|P]; [|rewrite rd_out in E by lia; discriminate].
  destruct (Z_lt_dec i (len l)) as [Q|Q]; [|rewrite rd_out in E by lia; discriminate].
  rewrite (rd_ok d) in E by lia. injection E as ->. auto.
Qed.

(** ** The same layer, and a different one *)
(** The same value; the zeros may differ in sign. *)
Definition alike (a b : f64) : Prop := a = b \/ feq a b = true.
Definition all_alike (a b : list f64) : Prop := len a = len b /\ forall k, 0 <= k -> alike (at_ f0 a k) (at_ f0 b k).
Definition unchanged (l l' : layer f64) : Prop :=
  exists mu e w b, l' = set_mu mu (set_eta e (set_weights w (set_biases b l))) /\
    alike e (l_eta l) /\ all_alike w (l_weights l) /\ all_alike b (l_biases l).
Definition other_value (a b : list f64) : Prop := exists k, 0 <= k /\ feq (at_ f0 a k) (at_ f0 b k) = false.
Definition changed (l l' : layer f64) : Prop :=
  feq (l_eta l') (l_eta l) = false \/ l_n_outputs l' <> l_n_outputs l \/ l_function l' <> l_function l \/
  other_value (l_weights l') (l_weights l) \/ other_value (l_biases l') (l_biases l).

Lemma all_alike_refl a : all_alike a a.
Proof. split; [reflexivity|]. intros k _. left. reflexivity. Qed.
Lemma unchanged_refl l : unchanged l l.
Proof.
  exists (l_mu l), (l_eta l), (l_weights l), (l_biases l). split; [destruct l; reflexivity|]. split; [left; reflexivity|]. split; apply all_alike_refl.
Qed.

(** ** The parts of the mutation of a layer *)
Section Flag.
Context (lm : libm).
(** The loop over an array: a flag [m0] before, [i] elements visited. *)
Definition marked (w0 : list f64) (m0 : bool) (i : Z) (wm : list f64 * bool) : Prop :=
  len (fst wm) = len w0 /\ (forall k, i <= k -> at_ f0 (fst wm) k = at_ f0 w0 k) /\
  (if snd wm then m0 = true \/ exists k, 0 <= k < i /\ feq (at_ f0 (fst wm) k) (at_ f0 w0 k) = false
   else m0 = false /\ forall k, 0 <= k -> alike (at_ f0 (fst wm) k) (at_ f0 w0 k)).
Lemma marked_0 w0 m0 : marked w0 m0 0 (w0, m0).
Proof. split; [reflexivity|]. split; [auto|]. cbn [fst snd]. destruct m0; [auto|]. split; [reflexivity|]. intros k _. left. reflexivity. Qed.
Lemma marked_skip w0 m0 i wm : marked w0 m0 i wm -> marked w0 m0 (i + 1) wm.
Proof.
  intros (L & S & F). split; [exact L|]. split; [intros k K; apply S; lia|]. destruct (snd wm); [|exact F].
  destruct F as [F|(k & K & F)]; [auto|]. right. exists k. split; [lia|exact F].
Qed.
Lemma marked_one mu w0 m0 i wm : 0 <= i -> marked w0 m0 i wm -> ens (mutate_one lm mu i wm) (marked w0 m0 (i + 1)).
Proof.
  intros I0 (L & S & F). unfold mutate_one. eapply ens_bind; [apply ens_lift; intros a E; exact (rd_in f0 _ _ _ E)|]. intros orig (HI & EO). cbv beta in HI, EO.
  eapply ens_bind; [apply ens_any|]. intros x _. cbv zeta. set (v := clamp (fadd orig x) (of_Z WEIGHT_MIN) (of_Z WEIGHT_MAX)).
  eapply ens_bind; [apply ens_lift; intros w E; exact (wr_in _ _ _ _ E)|]. intros w (_ & W1 & W2 & W3 & _). cbv beta in W1, W2, W3. apply ens_ret.
  rewrite (S i) in EO by lia. unfold marked. cbn [fst snd]. split; [lia|]. split; [intros k K; rewrite W3 by lia; apply S; lia|].
  unfold fne. change (BinarySingleNaN.Beqb v orig) with (feq v orig). destruct (feq v orig) eqn:E; cbn [negb]; rewrite ?orb_false_r, ?orb_true_r.
  - destruct (snd wm).
    + destruct F as [F|(k & K & F)]; [left; exact F|]. right. exists k. split; [lia|]. rewrite W3 by lia. exact F.
    + destruct F as (F1 & F2). split; [exact F1|]. intros k K. destruct (Z.eq_dec k i) as [->|NE]; [right; rewrite W2, <- EO; exact E|rewrite W3 by lia; auto].
  - right. exists i. split; [lia|]. rewrite W2, <- EO. exact E.
Qed.
Lemma weights_flag l mu : ens (layer_mutate_weights lm l mu) (fun r => exists w b, fst r = set_weights w (set_biases b l) /\
  (if snd r then other_value w (l_weights l) \/ other_value b (l_biases l) else all_alike w (l_weights l) /\ all_alike b (l_biases l))).
Proof.
  unfold layer_mutate_weights.
  eapply ens_bind; [apply (ens_for (marked (l_weights l) false) (marked (l_weights l) false (Z.max 0 (l_n_weights l)))); [apply marked_0| |auto]|].
  { intros i wm I M. eapply ens_bind; [apply ens_any|]. intros a _. destruct a; [apply marked_one; [lia|exact M]|apply ens_ret, marked_skip, M]. }
  intros wm (L & _ & F). cbv beta in L, F.
  eapply ens_bind; [apply (ens_for (marked (l_biases l) (snd wm)) (marked (l_biases l) (snd wm) (Z.max 0 (l_n_biases l)))); [apply marked_0| |auto]|].
  { intros i bm I M. apply marked_one; [lia|exact M]. }
  intros bm (L' & _ & F'). cbv beta in L', F'. apply ens_ret. exists (fst wm), (fst bm). cbn [fst snd]. split; [reflexivity|].
  destruct (snd bm).
  - destruct F' as [E|(k & K & F')]; [|right; exists k; split; [lia|exact F']]. rewrite E in F. destruct F as [F|(k & K & F)]; [discriminate|]. left. exists k. split; [lia|exact F].
  - destruct F' as (E & F'). rewrite E in F. destruct F as (_ & F). split; split; assumption.
Qed.
Lemma functions_flag l mu : ens (layer_mutate_functions l mu) (fun r => exists f, fst r = set_function f l /\ (if snd r then f <> l_function l else f = l_function l)).
Proof.
  unfold layer_mutate_functions. eapply ens_bind; [apply ens_any|]. intros u _. destruct (flt u mu).
  - eapply ens_bind; [apply ens_any|]. intros f _. apply ens_ret. exists f. cbn [fst snd]. split; [reflexivity|].
    destruct (Z.eqb_spec f (l_function l)); cbn [negb]; assumption.
  - apply ens_ret. exists (l_function l). cbn [fst snd]. split; [destruct l; reflexivity|reflexivity].
Qed.
Lemma eta_flag l mu : ens (layer_mutate_eta lm l mu) (fun r => exists e, fst r = set_eta e l /\ (if snd r then feq e (l_eta l) = false else alike e (l_eta l))).
Proof.
  unfold layer_mutate_eta. eapply ens_bind; [apply ens_any|]. intros x _. cbv zeta. apply ens_ret. eexists. cbn [fst snd]. split; [reflexivity|].
  set (e := clamp (fadd (l_eta l) x) (l_eta_min l) (l_eta_max l)). unfold fne, alike. change (BinarySingleNaN.Beqb e (l_eta l)) with (feq e (l_eta l)).
  destruct (feq e (l_eta l)); cbn [negb]; auto.
Qed.
Lemma connect_flag l en dis : ens (layer_mutate_connectivity lm l en dis) (fun r => snd r = false -> fst r = l).
Proof.
  unfold layer_mutate_connectivity. destruct ((1 <? l_n_inputs l) && (1 <? l_n_outputs l)); [|apply ens_ret; reflexivity].
  eapply ens_bind; [|intros r H; apply ens_ret; exact H].
  apply (ens_for (fun _ (r : layer f64 * bool) => snd r = false -> fst r = l) (fun r => snd r = false -> fst r = l)); [reflexivity| |auto].
  intros i r _ H. cbv zeta. eapply ens_bind; [apply ens_any|]. intros a _. eapply ens_bind; [apply ens_any|]. intros u _.
  destruct (negb a); [destruct (flt u en)|destruct (flt u dis)]; try (apply ens_ret; exact H).
  - eapply ens_bind; [apply ens_any|]. intros wa _. eapply ens_bind; [apply ens_any|]. intros x _. eapply ens_bind; [apply ens_any|]. intros w _. apply ens_ret. discriminate.
  - eapply ens_bind; [apply ens_any|]. intros wa _. eapply ens_bind; [apply ens_any|]. intros w _. apply ens_ret. discriminate.
Qed.
Definition heads (l : layer f64) : Z * f64 * Z * Z := (l_n_outputs l, l_eta l, l_function l, l_options l).
Lemma calc_flag l : ens (lift (layer_calc_n_active l)) (fun l' => heads l' = heads l).
Proof.
  apply ens_lift. intros l' E. unfold layer_calc_n_active in E. destruct (count_active _ _) in E; try discriminate E. injection E as <-. reflexivity.
Qed.
Lemma neurons_flag l n : n <> 0 -> ens (layer_add_neurons lm l n) (fun l' => exists no, heads l' = (no, l_eta l, l_function l, l_options l) /\ no <> l_n_outputs l).
Proof.
  intros N. unfold layer_add_neurons. eapply ens_bind; [apply ens_lift; intros a E; exact E|]. intros no E. cbv beta in E.
  assert (NO : no <> l_n_outputs l) by (unfold cint in E; destruct (_ && _) in E; [injection E as <-; lia|discriminate]). clear E.
  eapply ens_bind; [apply ens_any|]. intros nw _. cbv zeta.
  do 3 (eapply ens_bind; [apply ens_any|]; intros ? _). do 5 (eapply ens_bind; [apply ens_any|]; intros ? _).
  eapply ens_mono; [apply calc_flag|]. intros l' H. cbv beta in H. exists no. split; [|exact NO]. rewrite H. reflexivity.
Qed.

Definition flagged (l : layer f64) (r : layer f64 * bool) : Prop :=
  if snd r then l_type l = CONNECTED -> has l EVOLVE_CONNECT = false -> changed l (fst r) else unchanged l (fst r).
(** Put together from what the five parts report. *)
Lemma parts_flag l l1 l2 l3 l4 l5 mu e (m0 m1 m2 m3 m4 : bool) :
  (l1 = set_eta e (set_mu mu l) /\ if m0 then feq e (l_eta l) = false else alike e (l_eta l)) ->
  (if m1 then l_type l = CONNECTED -> l_n_outputs l2 <> l_n_outputs l1 else l2 = l1) ->
  (if m2 then l_type l = CONNECTED -> has l EVOLVE_CONNECT = true else l3 = l2) ->
  (exists w b, l4 = set_weights w (set_biases b l3) /\
    if m3 then other_value w (l_weights l3) \/ other_value b (l_biases l3) else all_alike w (l_weights l3) /\ all_alike b (l_biases l3)) ->
  (exists f, l5 = set_function f l4 /\ if m4 then f <> l_function l4 else f = l_function l4) ->
  flagged l (l5, m0 || m1 || m2 || m3 || m4).
Proof.
  intros (-> & H0) H1 H2 (w & b & -> & H3) (f & -> & H4). unfold flagged. cbn [fst snd].
  destruct m2.
  - rewrite !orb_true_r. intros T C. rewrite (H2 T) in C. discriminate C.
  - subst l3. rewrite orb_false_r. destruct m1.
    + rewrite !orb_true_r. cbn [orb]. intros T _. right. left. exact (H1 T).
    + subst l2. rewrite orb_false_r. destruct m4.
      * rewrite orb_true_r. intros _ _. right. right. left. exact H4.
      * rewrite orb_false_r. destruct m3.
        -- rewrite orb_true_r. intros _ _. right. right. right. exact H3.
        -- rewrite orb_false_r. destruct m0.
           ++ intros _ _. left. exact H0.
           ++ exists mu, e, w, b. split; [subst f; destruct l; reflexivity|]. split; [exact H0|exact H3].
Qed.
Ltac skip := eapply ens_bind; [apply ens_any|]; intros ? _.
Lemma same_layer (l : layer f64) : l = set_weights (l_weights l) (set_biases (l_biases l) l).
Proof. destruct l. reflexivity. Qed.
Lemma rest_flag l l1 l2 mu e (m0 m1 : bool) (m : RM (layer f64 * bool)) (k4 k5 : layer f64 -> RM (layer f64 * bool)) :
  (l1 = set_eta e (set_mu mu l) /\ if m0 then feq e (l_eta l) = false else alike e (l_eta l)) ->
  (if m1 then l_type l = CONNECTED -> l_n_outputs l2 <> l_n_outputs l1 else l2 = l1) ->
  ens m (fun r => if snd r then l_type l = CONNECTED -> has l EVOLVE_CONNECT = true else fst r = l2) ->
  (forall l3, ens (k4 l3) (fun r => exists w b, fst r = set_weights w (set_biases b l3) /\
    if snd r then other_value w (l_weights l3) \/ other_value b (l_biases l3) else all_alike w (l_weights l3) /\ all_alike b (l_biases l3))) ->
  (forall l4, ens (k5 l4) (fun r => exists f, fst r = set_function f l4 /\ if snd r then f <> l_function l4 else f = l_function l4)) ->
  ens (' (l3, m2) <- m ;; ' (l4, m3) <- k4 l3 ;; ' (l5, m4) <- k5 l4 ;; ret (l5, m0 || m1 || m2 || m3 || m4))%rng (flagged l).
Proof.
  intros H0 H1 H2 H3 H4. eapply ens_bind; [exact H2|]. intros (l3, m2) E2. eapply ens_bind; [apply H3|]. intros (l4, m3) E3. eapply ens_bind; [apply H4|]. intros (l5, m4) E4.
  cbn [fst snd] in E2, E3, E4. apply ens_ret. apply (parts_flag l l1 l2 l3 l4 l5 mu e); assumption.
Qed.
Lemma weights_part (l : layer f64) (m : RM f64) : ens (if has l EVOLVE_WEIGHTS then (x <- m ;; layer_mutate_weights lm l x)%rng else ret (l, false))
  (fun r => exists w b, fst r = set_weights w (set_biases b l) /\
    if snd r then other_value w (l_weights l) \/ other_value b (l_biases l) else all_alike w (l_weights l) /\ all_alike b (l_biases l)).
Proof.
  destruct (has _ _); [skip; apply weights_flag|]. apply ens_ret. exists (l_weights l), (l_biases l). cbn [fst snd]. split; [apply same_layer|]. split; apply all_alike_refl.
Qed.
Lemma functions_part (l : layer f64) (m : RM f64) : ens (if has l EVOLVE_FUNCTIONS then (x <- m ;; layer_mutate_functions l x)%rng else ret (l, false))
  (fun r => exists f, fst r = set_function f l /\ if snd r then f <> l_function l else f = l_function l).
Proof. destruct (has _ _); [skip; apply functions_flag|]. apply ens_ret. exists (l_function l). split; [destruct l; reflexivity|reflexivity]. Qed.
Lemma eta_part (l : layer f64) mu (m : RM f64) : ens (if has (set_mu mu l) EVOLVE_ETA then (x <- m ;; layer_mutate_eta lm (set_mu mu l) x)%rng else ret (set_mu mu l, false))
  (fun r => exists e, fst r = set_eta e (set_mu mu l) /\ if snd r then feq e (l_eta l) = false else alike e (l_eta l)).
Proof. destruct (has _ _); [skip; eapply ens_mono; [apply eta_flag|]; intros r H; exact H|]. apply ens_ret. exists (l_eta l). split; [destruct l; reflexivity|left; reflexivity]. Qed.

Lemma connected_flag fuel l : ens (connected_mutate lm fuel l) (flagged l).
Proof.
  unfold connected_mutate. eapply ens_bind; [apply ens_any|]. intros mu _. cbv zeta.
  eapply ens_bind; [apply eta_part|]. intros (l1, m0) (e & H0). cbn [fst snd] in H0.
  eapply ens_bind with (P := fun r : layer f64 * bool => l_options (fst r) = l_options l /\ if snd r then l_type l = CONNECTED -> l_n_outputs (fst r) <> l_n_outputs l1 else fst r = l1).
  { assert (O1 : l_options l1 = l_options l) by (destruct H0 as (-> & _); reflexivity).
    destruct (has _ _); [skip; skip|apply ens_ret; cbn [fst snd]; auto]. destruct (Z.eqb_spec a0 0) as [->|NE]; [apply ens_ret; cbn [fst snd]; auto|].
    eapply ens_bind; [apply (neurons_flag l1 a0 NE)|]. intros l2 (no & H & N). unfold heads in H. injection H as H1 _ _ H2. apply ens_ret. cbn [fst snd]. split; [congruence|]. intros _. congruence. }
  intros (l2, m1) (O2 & H1). cbn [fst snd] in O2, H1.
  assert (C : has l2 EVOLVE_CONNECT = has l EVOLVE_CONNECT) by (unfold has; rewrite O2; reflexivity).
  apply (rest_flag l l1 l2 mu e m0 m1); [exact H0|exact H1| |intros l3; apply weights_part|intros l4; apply functions_part].
  rewrite C. destruct (has l EVOLVE_CONNECT); [|apply ens_ret; cbn [fst snd]; reflexivity]. do 2 skip. eapply ens_bind; [apply connect_flag|]. intros (l3, b) H. cbn [fst snd] in H.
  destruct b; [skip; apply ens_ret; cbn [fst snd]; reflexivity|]. apply ens_ret. cbn [fst snd]. apply H. reflexivity.
Qed.
Lemma convolutional_flag fuel l : l_type l <> CONNECTED -> ens (convolutional_mutate lm fuel l) (flagged l).
Proof.
  intros T. unfold convolutional_mutate. eapply ens_bind; [apply ens_any|]. intros mu _. cbv zeta.
  eapply ens_bind; [apply eta_part|]. intros (l1, m0) (e & H0). cbn [fst snd] in H0.
  eapply ens_bind with (P := fun r : layer f64 * bool => if snd r then l_type l = CONNECTED -> l_n_outputs (fst r) <> l_n_outputs l1 else fst r = l1).
  { destruct (has _ _); [skip; skip|apply ens_ret; reflexivity]. destruct (Z.eqb_spec a0 0) as [->|NE]; [apply ens_ret; reflexivity|].
    skip. apply ens_ret. intros T'. contradiction. }
  intros (l2, m1) H1. cbn [fst snd] in H1.
  apply (rest_flag l l1 l2 mu e m0 m1); [exact H0|exact H1| |intros l3; apply weights_part|intros l4; apply functions_part].
  destruct (has l2 EVOLVE_CONNECT); [|apply ens_ret; reflexivity]. do 2 skip. eapply ens_mono; [apply connect_flag|]. intros (l3, b) H. cbn [fst snd] in *.
  destruct b; [intros T'; contradiction|auto].
Qed.
Lemma layer_flag fuel l : ens (layer_mutate lm fuel l) (flagged l).
Proof.
  unfold layer_mutate. destruct (Z.eqb_spec (l_type l) CONNECTED) as [T|T]; [apply connected_flag|].
  destruct (l_type l =? CONVOLUTIONAL); [apply convolutional_flag, T|]. apply ens_ret. apply unchanged_refl.
Qed.

(** ** Networks *)
Definition some_changed (ls ls' : list (layer f64)) : Prop := exists k l l', nth_error ls k = Some l /\ nth_error ls' k = Some l' /\ changed l l'.
Lemma unchanged_outputs l l' : unchanged l l' -> l_n_outputs l' = l_n_outputs l.
Proof. intros (mu & e & w & b & -> & _). reflexivity. Qed.
Lemma from_flag fuel ls : forall prev, (forall p, prev <> Some (p, true)) ->
  ens (mutate_from lm fuel prev ls) (fun r =>
    if snd r then Forall (fun l => l_type l = CONNECTED -> has l EVOLVE_CONNECT = false) ls ->  Forall (fun l => l_type l <> CONVOLUTIONAL) ls -> some_changed ls (fst r)
    else Forall2 unchanged ls (fst r)).
Proof.
  induction ls as [|l r IH]; intros prev NP; cbn [mutate_from]; [apply ens_ret; constructor|].
  eapply ens_bind with (P := fun l1 => l1 = l).
  { destruct prev as [(p, [|])|]; [exfalso; exact (NP p eq_refl)|apply ens_ret; reflexivity|apply ens_ret; reflexivity]. }
  intros l1 ->. eapply ens_bind with (P := fun q => flagged l q /\ (l_type l <> CONNECTED -> l_type l <> CONVOLUTIONAL -> q = (l, false))).
  { intros g q g' E. split; [exact (layer_flag fuel l _ _ _ E)|]. intros N1 N2. unfold layer_mutate in E.
    destruct (Z.eqb_spec (l_type l) CONNECTED); [contradiction|]. destruct (Z.eqb_spec (l_type l) CONVOLUTIONAL); [contradiction|]. unfold ret in E. congruence. }
  intros (l2, b) (F & PL). unfold flagged in F. cbn [fst snd] in F. destruct b.
  - eapply ens_bind; [apply ens_any|]. intros (r', b') _. apply ens_ret. cbn [orb fst snd]. intros FC FV. inversion FC as [|? ? C1 C2]; subst. inversion FV as [|? ? V1 V2]; subst.
    assert (T : l_type l = CONNECTED) by (destruct (Z.eq_dec (l_type l) CONNECTED) as [T|T]; [exact T|discriminate (PL T V1)]).
    exists 0%nat, l, l2. split; [reflexivity|]. split; [reflexivity|]. auto.
  - pose proof (unchanged_outputs _ _ F) as O. rewrite O, Z.eqb_refl. cbn [negb]. eapply ens_bind; [apply IH; intros p; congruence|]. intros (r', b') H. cbn [fst snd] in H.
    apply ens_ret. cbn [orb fst snd]. destruct b'.
    + intros FC FV. inversion FC as [|? ? C1 C2]; subst. inversion FV as [|? ? V1 V2]; subst. destruct (H C2 V2) as (k & a & a' & H1 & H2 & H3). exists (S k), a, a'. auto.
    + constructor; assumption.
Qed.
End Flag.

Lemma C69_flag_lemma (lm : libm) (fuel : nat) (n n' : nn f64) (b : bool) (g g' : rng) : neural_mutate lm fuel n g = Ok (n', b, g') ->
  nn_inputs n' = nn_inputs n /\ nn_outputs n' = nn_outputs n /\
  if b then Forall (fun l => l_type l <> CONVOLUTIONAL /\ (l_type l = CONNECTED -> has l EVOLVE_CONNECT = false)) (nn_layers n) -> some_changed (nn_layers n) (nn_layers n')
  else Forall2 unchanged (nn_layers n) (nn_layers n').
Proof.
  intros E. unfold neural_mutate, bind in E. destruct (mutate_from lm fuel None (nn_layers n) g) as [((ls, b1), g1)| | |] eqn:M; try discriminate E.
  unfold ret in E. injection E as <- <- _. cbn [with_layers nn_layers]. pose proof (from_flag lm fuel (nn_layers n) None ltac:(discriminate) _ _ _ M) as H. cbn [fst snd] in H.
  split; [reflexivity|]. split; [reflexivity|]. destruct b1; [|exact H]. intros F. apply H; eapply Forall_impl; try exact F; cbn; intros l (H1 & H2); assumption.
Qed.
