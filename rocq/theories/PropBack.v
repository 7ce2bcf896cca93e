(** * Training a network of connected layers in exact arithmetic (C68). *)
From Coq Require Import ZArith Bool List Lia Reals Lra.
From Verif Require Import Outcome F64 Rng Sam Arr ArrFacts Blas BlasFacts Exact Clock Dgp Act ActFacts Image Layer LayerFacts UpdFacts PropConn Net.
Import ListNotations.
Open Scope R_scope.

(** What a layer makes of its input, and what a list of layers makes of it. *)
Definition out_of (l : layer R) (x : list R) : list R :=
  match connected_forward R_arith l x with Ok l' => l_output l' | _ => [] end.
Definition run (ls : list (layer R)) (x : list R) : list R := fold_left (fun o l => out_of l o) ls x.

Definition conn_layer (l : layer R) : Prop := l_type l = CONNECTED /\ conn_shape l /\ (0 <= l_function l < NUM_ACTIVATIONS)%Z.
(** Every layer takes as many inputs as the one before has outputs, the first [n]. *)
Fixpoint fits (n : Z) (ls : list (layer R)) : Prop :=
  match ls with [] => True | l :: r => l_n_inputs l = n /\ fits (l_n_outputs l) r end.
(** No neuron is at the limits of its state or at a kink of its activation function. *)
Definition smooth (l : layer R) (x : list R) : Prop :=
  forall f, denotes (neural_activate R_arith) (l_function l) f -> forall i, (0 <= i < l_n_outputs l)%Z ->
    -100 < net l (l_weights l) (l_biases l) x i < 100 /\ exists g, derivable_pt_lim f (net l (l_weights l) (l_biases l) x i) g.
Fixpoint smooth_net (ls : list (layer R)) (x : list R) : Prop :=
  match ls with [] => True | l :: r => smooth l x /\ smooth_net r (out_of l x) end.
(** The layers are as the forward pass leaves them. *)
Fixpoint settled (ls : list (layer R)) (x : list R) : Prop :=
  match ls with [] => True | l :: r => connected_forward R_arith l x = Ok l /\ settled r (out_of l x) end.
(** neural.c:309-319 for connected layers and any type of numbers. *)
Fixpoint propagate {T} (A : arith T) (ls : list (layer T)) (x : list T) : outcome (list (layer T)) :=
  match ls with
  | [] => Ok []
  | l :: r => (l <- connected_forward A l x ;; r <- propagate A r (l_output l) ;; Ok (l :: r))%out
  end.

(** The updates accumulated in layer [l], which became [l']: the partial derivatives of the
    objective, as functions of single weights and biases.  Nothing else but the errors changes. *)
Definition learned (W : list R -> R) (B : list R -> R) (l l' : layer R) : Prop :=
  (exists dd bu wu, l' = set_delta dd (set_bias_updates bu (set_weight_updates wu l)) /\ conn_shape l') /\
  (forall k, (0 <= k < l_n_weights l)%Z ->
     if has l SGD_WEIGHTS then
       derivable_pt_lim (fun t => W (set_nth (l_weights l) (Z.to_nat k) t)) (at0 (l_weights l) k) (at0 (l_weight_updates l') k - at0 (l_weight_updates l) k)
     else at0 (l_weight_updates l') k = at0 (l_weight_updates l) k) /\
  (forall k, (0 <= k < l_n_biases l)%Z ->
     if has l SGD_WEIGHTS then
       derivable_pt_lim (fun t => B (set_nth (l_biases l) (Z.to_nat k) t)) (at0 (l_biases l) k) (at0 (l_bias_updates l') k - at0 (l_bias_updates l) k)
     else at0 (l_bias_updates l') k = at0 (l_bias_updates l) k).
Lemma learned_ext W W' B B' l l' : (forall v, len v = len (l_weights l) -> W v = W' v) -> (forall v, len v = len (l_biases l) -> B v = B' v) ->
  learned W B l l' -> learned W' B' l l'.
Proof.
  intros EW EB (H1 & H2 & H3). split; [exact H1|]. split; intros k K; [specialize (H2 k K)|specialize (H3 k K)]; destruct (has l SGD_WEIGHTS); try assumption.
  - eapply d_ext; [|exact H2]. intros t. apply EW. apply set_nth_len.
  - eapply d_ext; [|exact H3]. intros t. apply EB. apply set_nth_len.
Qed.
(** ... for every layer of a network judged by [E]. *)
Definition learned_net (E : list R -> R) (x : list R) (ls ls' : list (layer R)) : Prop :=
  length ls' = length ls /\
  forall pre l post pre' l' post', ls = pre ++ l :: post -> ls' = pre' ++ l' :: post' -> length pre' = length pre ->
    learned (fun w => E (run (pre ++ set_weights w l :: post) x)) (fun b => E (run (pre ++ set_biases b l :: post) x)) l l'.

(** ** One layer *)
Lemma set_same_b (l : layer R) w : set_weights w (set_biases (l_biases l) l) = set_weights w l.
Proof. destruct l. reflexivity. Qed.
Lemma set_same_w (l : layer R) b : set_weights (l_weights l) (set_biases b l) = set_biases b l.
Proof. destruct l. reflexivity. Qed.
Lemma set_same (l : layer R) : set_weights (l_weights l) (set_biases (l_biases l) l) = l.
Proof. destruct l. reflexivity. Qed.
Lemma function_of l : conn_layer l -> exists f, denotes (neural_activate R_arith) (l_function l) f.
Proof. intros (_ & _ & A). destruct (C46_lemma _ A) as (f & g & F & _). eauto. Qed.
Lemma loss_out E l w b x : conn_layer l -> len w = l_n_weights l -> len b = l_n_outputs l -> (l_n_inputs l <= len x)%Z ->
  loss E l w b x = E (out_of (set_weights w (set_biases b l)) x).
Proof.
  intros C W B X. destruct (function_of l C) as (f & F). destruct C as (_ & C & _).
  destruct (forward_R l w b x f C W B X F) as (st & out & H & _). unfold loss, out_of. rewrite H. reflexivity.
Qed.
Lemma out_len l x : conn_layer l -> (l_n_inputs l <= len x)%Z -> len (out_of l x) = l_n_outputs l.
Proof.
  intros C X. destruct (function_of l C) as (f & F). destruct C as (_ & C & _).
  destruct (connected_forward_ok R_arith l x f C X F) as (st & out & H & _ & L & _). unfold out_of. rewrite H. exact L.
Qed.

Lemma step_ok E l o d od : conn_layer l -> l_n_inputs l = len o -> connected_forward R_arith l o = Ok l -> smooth l o ->
  gradient E (l_output l) d -> len d = l_n_outputs l -> (forall dl, od = Some dl -> len dl = l_n_inputs l) ->
  exists l2 od', layer_backward R_arith (set_delta d l) o od = Ok (l2, od') /\
    learned (fun w => E (out_of (set_weights w l) o)) (fun b => E (out_of (set_biases b l) o)) l l2 /\
    match od with
    | None => od' = None
    | Some dl => exists dl', od' = Some dl' /\ len dl' = len dl /\ ((forall j, at0 dl j = 0) -> gradient (fun o => E (out_of l o)) o dl')
    end.
Proof.
  intros C LI FW SM G LD LDL. destruct (function_of l C) as (f & F). pose proof C as (CT & CS & CA).
  pose proof (SM f F) as SMf.
  destruct (C50_lemma E l o d f l od CS CA F ltac:(lia) FW SMf G LD LDL) as (l2 & od' & EB & HW & HB & HI & dd & bu & wu & El2 & CS2).
  exists l2, od'. split; [unfold layer_backward; change (l_type (set_delta d l)) with (l_type l); rewrite CT; exact EB|].
  pose proof (cs_weights _ CS) as LW. pose proof (cs_biases _ CS) as LB. pose proof (cs_out _ CS) as NO. pose proof (cs_in _ CS) as NI. pose proof (cs_w _ CS) as NW.
  split.
  - split; [|split].
    + exists dd, bu, wu. auto.
    + intros k K. specialize (HW k K). destruct (has l SGD_WEIGHTS); [|exact HW]. eapply d_ext; [|exact HW]. intros t. cbv beta.
      rewrite loss_out; [rewrite set_same_b; reflexivity|exact C|rewrite set_nth_len; exact LW|exact LB|lia].
    + intros k K. specialize (HB k K). destruct (has l SGD_WEIGHTS); [|exact HB]. eapply d_ext; [|exact HB]. intros t. cbv beta.
      rewrite loss_out; [rewrite set_same_w; reflexivity|exact C|exact LW|rewrite set_nth_len; exact LB|lia].
  - destruct od as [dl|]; [|exact HI]. destruct HI as (dl' & -> & L' & HJ). exists dl'. split; [reflexivity|]. split; [exact L'|].
    intros Z0 c c' t0 Ec Lc Dc.
    assert (GW : exists g : Z -> R, forall i, (0 <= i < l_n_outputs l)%Z -> derivable_pt_lim f (net l (l_weights l) (l_biases l) o i) (g i)).
    { destruct (C46_lemma (l_function l) CA) as (f' & g & Df & Dg & HG & _). exists (fun i => g (net l (l_weights l) (l_biases l) o i)). intros i I.
      destruct (SMf i I) as (_ & gi & D). assert (EF : forall y, f y = f' y) by (intros y; pose proof (F y); pose proof (Df y); congruence).
      apply d_ext with f'; [intros; symmetry; apply EF|]. apply HG. exists gi. apply d_ext with f; [exact EF|exact D]. }
    destruct GW as (g & Hg).
    assert (GR : forall st', connected_forward R_arith (set_weights (l_weights l) (set_biases (l_biases l) l)) o = Ok st' -> gradient E (l_output st') d).
    { intros st' E2. rewrite set_same, FW in E2. injection E2 as <-. exact G. }
    assert (DJ : forall j, (0 <= j < l_n_inputs l)%Z -> at0 dl' j = rsum (l_n_outputs l) (fun i => at0 d i * g i * at0 (l_weights l) (i * l_n_inputs l + j))).
    { intros j J. pose proof (HJ j J) as D1. rewrite Z0 in D1. rewrite Rminus_0_r in D1.
      pose proof (chain E l f (fun _ => l_weights l) (fun _ => l_biases l) (fun t => set_nth o (Z.to_nat j) t) (at0 o j)
        (fun i => 0 + rsum (l_n_inputs l) (fun q => at0 (l_weights l) (i * l_n_inputs l + q) * (if (q =? j)%Z then 1 else 0))) d CS
        (fun _ => LW) (fun _ => LB)) as D2.
      cbv beta in D2. rewrite put_same in D2 by lia.
      specialize (D2 ltac:(intros t; rewrite set_nth_len; lia) F GR).
      pose proof (uniqueness_limite _ _ _ _ D1 (D2 ltac:(intros i I; unfold net; apply (d_plus (fun _ => at0 (l_biases l) i)); [apply d_const|];
        apply (d_rsum _ (fun q t => at0 (l_weights l) (i * l_n_inputs l + q) * at0 (set_nth o (Z.to_nat j) t) q));
        intros q Hq; eapply d_eq; [|apply d_mult; [apply d_const|apply d_put; lia]]; cbn beta; ring) (fun i I => proj1 (SMf i I)) g Hg)) as U.
      rewrite U. apply rsum_ext. intros i I. f_equal.
      rewrite (rsum_ext _ _ (fun q => if (j =? q)%Z then at0 (l_weights l) (i * l_n_inputs l + q) else 0)); [rewrite rsum_delta by exact J; ring|].
      intros q Hq. rewrite (Z.eqb_sym q j). destruct (j =? q)%Z; ring. }
    assert (EL : forall t, E (out_of l (c t)) = loss E l (l_weights l) (l_biases l) (c t)).
    { intros t. rewrite loss_out; [rewrite set_same; reflexivity|exact C|exact LW|exact LB|rewrite Lc; lia]. }
    eapply d_ext; [intros t; symmetry; apply EL|].
    eapply d_eq; [|apply (chain E l f (fun _ => l_weights l) (fun _ => l_biases l) c t0
        (fun i => 0 + rsum (l_n_inputs l) (fun q => at0 (l_weights l) (i * l_n_inputs l + q) * c' q)) d) with (g := g)].
    + rewrite <- LI. rewrite (rsum_ext (l_n_inputs l) _ (fun j => rsum (l_n_outputs l) (fun i => at0 d i * g i * at0 (l_weights l) (i * l_n_inputs l + j) * c' j))).
      * rewrite <- (rsum_swap (l_n_outputs l) (l_n_inputs l) (fun i j => at0 d i * g i * at0 (l_weights l) (i * l_n_inputs l + j) * c' j)).
        apply rsum_ext. intros i I. rewrite Rplus_0_l, <- rsum_scal. apply rsum_ext. intros j J. ring.
      * intros j J. rewrite (DJ j J). rewrite Rmult_comm, <- rsum_scal. apply rsum_ext. intros i I. ring.
    + exact CS.
    + intros _. exact LW.
    + intros _. exact LB.
    + intros t. rewrite Lc. lia.
    + exact F.
    + rewrite Ec. exact GR.
    + intros i I. unfold net. apply (d_plus (fun _ => at0 (l_biases l) i)); [apply d_const|].
      apply (d_rsum _ (fun q t => at0 (l_weights l) (i * l_n_inputs l + q) * at0 (c t) q)).
      intros q Hq. eapply d_eq; [|apply d_mult; [apply d_const|apply Dc; lia]]. cbn beta. ring.
    + rewrite Ec. intros i I. exact (proj1 (SMf i I)).
    + rewrite Ec. exact Hg.
Qed.

(** ** Lists of layers *)
Lemma run_app a b x : run (a ++ b) x = run b (run a x).
Proof. unfold run. apply fold_left_app. Qed.
Definition width (n : Z) (ls : list (layer R)) : Z := fold_left (fun _ l => l_n_outputs l) ls n.
Lemma fits_app a : forall n b, fits n (a ++ b) <-> fits n a /\ fits (width n a) b.
Proof.
  induction a as [|l a IH]; intros n b; cbn [app fits width fold_left]; [tauto|].
  change (fold_left _ a (l_n_outputs l)) with (width (l_n_outputs l) a). rewrite IH. tauto.
Qed.
Lemma settled_app a : forall x b, settled (a ++ b) x <-> settled a x /\ settled b (run a x).
Proof. induction a as [|l a IH]; intros x b; cbn [app settled]; [cbn; tauto|]. change (run (l :: a) x) with (run a (out_of l x)). rewrite IH. tauto. Qed.
Lemma smooth_app a : forall x b, smooth_net (a ++ b) x <-> smooth_net a x /\ smooth_net b (run a x).
Proof. induction a as [|l a IH]; intros x b; cbn [app smooth_net]; [cbn; tauto|]. change (run (l :: a) x) with (run a (out_of l x)). rewrite IH. tauto. Qed.
Lemma run_len a : forall x, Forall conn_layer a -> fits (len x) a -> len (run a x) = width (len x) a.
Proof.
  induction a as [|l a IH]; intros x F H; [reflexivity|]. destruct H as (H1 & H2). inversion F as [|? ? C F']; subst.
  change (run (l :: a) x) with (run a (out_of l x)). change (width (len x) (l :: a)) with (width (l_n_outputs l) a).
  pose proof (out_len l x C ltac:(lia)) as L. rewrite <- L. apply IH; [exact F'|]. rewrite L. exact H2.
Qed.
Lemma out_settled l x : connected_forward R_arith l x = Ok l -> out_of l x = l_output l.
Proof. intros H. unfold out_of. now rewrite H. Qed.

Lemma snoc_split {X} (a : list X) z pre l post : a ++ [z] = pre ++ l :: post ->
  (post = [] /\ pre = a /\ l = z) \/ exists post', post = post' ++ [z] /\ a = pre ++ l :: post'.
Proof.
  intros H. destruct post as [|y post] using rev_ind.
  - left. apply app_inj_tail in H. destruct H as (-> & ->). auto.
  - right. exists post. clear IHpost. change (pre ++ l :: post ++ [y]) with (pre ++ (l :: post) ++ [y]) in H. rewrite app_assoc in H.
    apply app_inj_tail in H. destruct H as (-> & ->). auto.
Qed.
Lemma learned_snoc E x ls l ls2 l2 :
  learned_net (fun o => E (out_of l o)) x ls ls2 ->
  learned (fun w => E (out_of (set_weights w l) (run ls x))) (fun b => E (out_of (set_biases b l) (run ls x))) l l2 ->
  learned_net E x (ls ++ [l]) (ls2 ++ [l2]).
Proof.
  intros (LN & H) HL. split; [rewrite !app_length, LN; reflexivity|]. intros pre m post pre' m' post' E1 E2 EL.
  apply snoc_split in E1. apply snoc_split in E2. destruct E1 as [(-> & -> & ->)|(po & -> & E1)].
  - destruct E2 as [(-> & -> & ->)|(po' & -> & E2)].
    + eapply learned_ext; [| |exact HL]; intros v _; rewrite run_app; reflexivity.
    + exfalso. rewrite E2 in LN. rewrite app_length in LN. cbn [length] in LN. lia.
  - destruct E2 as [(-> & -> & ->)|(po' & -> & E2)].
    + exfalso. rewrite E1 in LN. rewrite app_length in LN. cbn [length] in LN. lia.
    + eapply learned_ext; [| |exact (H pre m po pre' m' po' E1 E2 EL)]; intros v _; cbv beta;
      match goal with |- E (out_of l (run (pre ++ ?u :: po) x)) = _ => change (pre ++ u :: po ++ [l]) with (pre ++ (u :: po) ++ [l]) end;
      rewrite app_assoc, (run_app (pre ++ _ :: po)); reflexivity.
Qed.

Lemma back_ok : forall rest l E d x,
  Forall conn_layer (rev rest ++ [l]) -> fits (len x) (rev rest ++ [l]) -> settled (rev rest ++ [l]) x -> smooth_net (rev rest ++ [l]) x ->
  Forall (fun p => len (l_delta p) = l_n_outputs p /\ forall j, at0 (l_delta p) j = 0) rest ->
  gradient E (l_output l) d -> len d = l_n_outputs l ->
  exists ls2, backward_from R_arith (set_delta d l) rest x = Ok ls2 /\ learned_net E x (rev rest ++ [l]) (rev ls2).
Proof.
  induction rest as [|p rest IH]; intros l E d x FC FI SE SM FZ G LD.
  - cbn [rev app] in *. destruct FI as (FI & _). destruct SE as (SE & _). destruct SM as (SM & _). inversion FC as [|? ? C _]; subst.
    destruct (step_ok E l x d None C FI SE SM G LD ltac:(discriminate)) as (l2 & od' & EB & HL & ->).
    cbn [backward_from]. rewrite EB. cbn [obind fst]. exists [l2]. split; [reflexivity|]. cbn [rev app].
    apply (learned_snoc E x [] l [] l2); [|exact HL]. split; [reflexivity|]. intros pre m post pre' m' post' H. destruct pre; discriminate H.
  - cbn [rev] in *. apply Forall_app in FC. destruct FC as (FC & FC1). inversion FC1 as [|? ? C _]; subst.
    apply fits_app in FI. destruct FI as (FI & FI1 & _). apply settled_app in SE. destruct SE as (SE & SE1 & _). apply smooth_app in SM. destruct SM as (SM & SM1 & _).
    inversion FZ as [|? ? (Z1 & Z2) FZ']; subst.
    assert (FP := FC). apply Forall_app in FP. destruct FP as (_ & FP). inversion FP as [|? ? Cp _]; subst.
    assert (RO : run (rev rest ++ [p]) x = l_output p).
    { rewrite run_app. apply settled_app in SE. destruct SE as (_ & SEp & _). apply out_settled, SEp. }
    rewrite RO in SE1, SM1.
    assert (WD : width (len x) (rev rest ++ [p]) = l_n_outputs p) by (unfold width; rewrite fold_left_app; reflexivity).
    rewrite WD in FI1.
    assert (LO : len (l_output p) = l_n_outputs p) by (destruct Cp as (_ & CS & _); apply (cs_output _ CS)).
    destruct (step_ok E l (l_output p) d (Some (l_delta p)) C ltac:(lia) SE1 SM1 G LD ltac:(intros dl X; injection X as <-; lia))
      as (l2 & od' & EB & HL & dl' & -> & LL & HG).
    cbn [backward_from]. change (l_output p) with (l_output p) in EB. rewrite EB. cbn [obind fst snd].
    destruct (IH p (fun o => E (out_of l o)) dl' x FC FI SE SM FZ' (HG Z2) ltac:(lia)) as (ls2 & E2 & HN).
    rewrite E2. cbn [obind]. exists (l2 :: ls2). split; [reflexivity|]. cbn [rev].
    apply learned_snoc; [exact HN|]. rewrite RO. exact HL.
Qed.

(** ** The whole of neural_learn *)
Lemma zero_delta_ok (l : layer R) : conn_shape l -> exists dz, zero_delta R_arith l = Ok (set_delta dz l) /\ len dz = l_n_outputs l /\ forall j, at0 dz j = 0.
Proof.
  intros C. pose proof (cs_delta _ C) as LD. pose proof (cs_out _ C) as NO. unfold zero_delta.
  destruct (ofor_ind (fun i (d : list R) => len d = l_n_outputs l /\ forall k, (0 <= k < i)%Z -> at0 d k = 0) (fun i d => wr d i (a_Z R_arith 0)) (l_n_outputs l) (l_delta l))
    as (d & E & L & H).
  - exact NO.
  - split; [exact LD|intros; lia].
  - intros i d I (L & H). destruct (wr_ok d i (a_Z R_arith 0) ltac:(lia)) as (d' & E & W1 & W2 & W3 & _). exists d'. split; [exact E|]. split; [lia|].
    intros k K. destruct (Z.eq_dec k i) as [->|NE]; [rewrite W2; reflexivity|rewrite W3 by lia; apply H; lia].
  - rewrite E. cbn [obind]. exists d. split; [reflexivity|]. split; [exact L|]. intros j.
    destruct (Z_lt_dec j 0) as [N|N]; [|destruct (Z_lt_dec j (l_n_outputs l)) as [N'|N']].
    + unfold at_. destruct d as [|r d]; [destruct (Z.to_nat j); reflexivity|]. replace (Z.to_nat j) with 0%nat by lia.
      cbn [nth]. unfold len in L. cbn [length] in L. specialize (H 0%Z ltac:(lia)). exact H.
    + apply H. lia.
    + unfold at_. apply nth_overflow. unfold len in L. lia.
Qed.
Lemma output_delta_ok (p : layer R) y : conn_shape p -> (l_n_outputs p <= len y)%Z ->
  exists d, output_delta R_arith p y = Ok (set_delta d p) /\ len d = l_n_outputs p /\ forall i, (0 <= i < l_n_outputs p)%Z -> at0 d i = at0 y i - at0 (l_output p) i.
Proof.
  intros C Y. pose proof (cs_delta _ C) as LD. pose proof (cs_out _ C) as NO. pose proof (cs_output _ C) as LO. unfold output_delta.
  destruct (ofor_ind (fun i (d : list R) => len d = l_n_outputs p /\ forall k, (0 <= k < i)%Z -> at0 d k = at0 y k - at0 (l_output p) k)
    (fun i d => (t <- rd y i ;; o <- rd (l_output p) i ;; wr d i (nsub (a_num R_arith) t o))%out) (l_n_outputs p) (l_delta p)) as (d & E & L & H).
  - exact NO.
  - split; [exact LD|intros; lia].
  - intros i d I (L & H). rewrite (rd_ok 0%R) by lia. cbn [obind]. rewrite (rd_ok 0%R) by lia. cbn [obind].
    destruct (wr_ok d i (nsub (a_num R_arith) (at0 y i) (at0 (l_output p) i)) ltac:(lia)) as (d' & E & W1 & W2 & W3 & _). exists d'. split; [exact E|]. split; [lia|].
    intros k K. destruct (Z.eq_dec k i) as [->|NE]; [rewrite W2; reflexivity|rewrite W3 by lia; apply H; lia].
  - rewrite E. cbn [obind]. exists d. auto.
Qed.
Lemma update_any (l : layer R) : conn_shape l -> exists l', layer_update R_arith l = Ok l'.
Proof.
  intros C. unfold layer_update. destruct ((l_type l =? CONNECTED) || (l_type l =? CONVOLUTIONAL))%Z; [|eauto].
  destruct (has l SGD_WEIGHTS) eqn:HS; [destruct (a_lt R_arith (a_Z R_arith 0) (l_eta l)) eqn:HE|].
  - destruct C. destruct (weights_update_ok R_arith l) as (w & wu & b & bu & E & _); [nia|lia| |exact HS|exact HE|eauto].
    unfold weight_arrays. rewrite cs_b. auto 10.
  - unfold weights_update. rewrite HS, HE. cbn [andb]. eauto.
  - unfold weights_update. rewrite HS. cbn [andb]. eauto.
Qed.
Lemma omap_all {X Y} (f : X -> outcome Y) (P : X -> Prop) xs : (forall x, P x -> exists y, f x = Ok y) -> Forall P xs ->
  exists ys, omap f xs = Ok ys /\ Forall2 (fun x y => f x = Ok y) xs ys.
Proof.
  intros H F. induction F as [|x xs Px F IH]; [exists []; split; [reflexivity|constructor]|].
  destruct (H x Px) as (y & Ey). destruct IH as (ys & Es & F2). exists (y :: ys). cbn [omap]. rewrite Ey. cbn [obind]. rewrite Es. cbn [obind]. split; [reflexivity|constructor; assumption].
Qed.

(** Layers that differ in their errors only compute the same. *)
Definition zeroed (l l0 : layer R) : Prop := exists dz, l0 = set_delta dz l /\ len dz = l_n_outputs l /\ forall j, at0 dz j = 0.
Lemma delta_forward dz (l : layer R) x : connected_forward R_arith (set_delta dz l) x =
  match connected_forward R_arith l x with Ok l' => Ok (set_delta dz l') | Exit => Exit | UB k => UB k | OutOfFuel => OutOfFuel end.
Proof.
  unfold connected_forward. cbn [l_n_outputs l_n_inputs l_weights l_biases l_state l_output l_function l_n_biases set_delta].
  destruct l. cbn. repeat match goal with |- context [obind ?m _] => destruct m; cbn [obind]; try reflexivity end.
Qed.
Lemma delta_out dz (l : layer R) x : out_of (set_delta dz l) x = out_of l x.
Proof. unfold out_of. rewrite delta_forward. destruct (connected_forward R_arith l x); reflexivity. Qed.
Lemma zeroed_run a a0 : Forall2 zeroed a a0 -> forall x, run a0 x = run a x.
Proof.
  induction 1 as [|l l0 a a0 (dz & -> & _) F IH]; intros x; [reflexivity|].
  change (run (set_delta dz l :: a0) x) with (run a0 (out_of (set_delta dz l) x)). rewrite delta_out, IH. reflexivity.
Qed.
Lemma zeroed_all a a0 : Forall2 zeroed a a0 -> Forall conn_layer a -> Forall conn_layer a0 /\
  (forall n, fits n a -> fits n a0) /\ (forall x, settled a x -> settled a0 x) /\ (forall x, smooth_net a x -> smooth_net a0 x) /\
  Forall (fun p => len (l_delta p) = l_n_outputs p /\ forall j, at0 (l_delta p) j = 0) a0.
Proof.
  induction 1 as [|l l0 a a0 (dz & -> & LZ & Z0) F IH]; intros FC; [repeat split; constructor|].
  inversion FC as [|? ? C FC']; subst. destruct (IH FC') as (H1 & H2 & H3 & H4 & H5). split; [|split; [|split; [|split]]].
  - constructor; [|exact H1]. destruct C as (T & CS & A). split; [exact T|]. split; [|exact A]. destruct CS; constructor; assumption.
  - intros n (E & FI). split; [exact E|]. apply H2, FI.
  - intros x (E & SE). split; [rewrite delta_forward, E; reflexivity|]. rewrite delta_out. apply H3, SE.
  - intros x (E & SM). split; [exact E|]. rewrite delta_out. apply H4, SM.
  - constructor; [split; assumption|exact H5].
Qed.
Lemma Forall2_length {X Y} (P : X -> Y -> Prop) a b : Forall2 P a b -> length a = length b.
Proof. induction 1; cbn; congruence. Qed.
Lemma forall2_app_r {X Y} (P : X -> Y -> Prop) a : forall ys x b, Forall2 P (a ++ x :: b) ys ->
  exists ya y yb, ys = ya ++ y :: yb /\ Forall2 P a ya /\ P x y /\ Forall2 P b yb.
Proof.
  intros ys x b H. apply Forall2_app_inv_l in H. destruct H as (ya & yr & F1 & F2 & ->). inversion F2 as [|? y ? yb Px F3]; subst. eauto 10.
Qed.
Lemma zeroed_learned E x a a0 ls2 : Forall2 zeroed a a0 -> learned_net E x a0 ls2 -> learned_net E x a ls2.
Proof.
  intros FZ (LN & H). split; [rewrite LN; symmetry; exact (Forall2_length _ _ _ FZ)|]. intros pre l post pre' l' post' E1 E2 EL. subst a.
  destruct (forall2_app_r _ _ _ _ _ FZ) as (p0 & l0 & q0 & -> & F1 & Z & F3).
  pose proof (H p0 l0 q0 pre' l' post' eq_refl E2 ltac:(rewrite EL; apply (Forall2_length _ _ _ F1))) as HL.
  destruct Z as (dz & -> & LZ & Z0). destruct HL as ((dd & bu & wu & El' & CS) & HW & HB).
  assert (RW : forall v, len v = len (l_weights l) -> E (run (p0 ++ set_weights v (set_delta dz l) :: q0) x) = E (run (pre ++ set_weights v l :: post) x)).
  { intros v LV. f_equal. apply zeroed_run. apply Forall2_app; [exact F1|]. constructor; [|exact F3]. exists dz. split; [reflexivity|]. split; [exact LZ|exact Z0]. }
  assert (RB : forall v, len v = len (l_biases l) -> E (run (p0 ++ set_biases v (set_delta dz l) :: q0) x) = E (run (pre ++ set_biases v l :: post) x)).
  { intros v LV. f_equal. apply zeroed_run. apply Forall2_app; [exact F1|]. constructor; [|exact F3]. exists dz. split; [reflexivity|]. split; [exact LZ|exact Z0]. }
  apply (learned_ext _ _ _ _ l l' RW RB). split; [|split; [exact HW|exact HB]]. exists dd, bu, wu. split; [exact El'|exact CS].
Qed.

(** The forward pass. *)
Definition visited (l l1 : layer R) : Prop := exists st out, l1 = set_state st (set_output out l) /\ len st = l_n_outputs l /\ len out = l_n_outputs l.
Lemma visit_ok l x : conn_layer l -> (l_n_inputs l <= len x)%Z -> exists l1, connected_forward R_arith l x = Ok l1 /\ visited l l1 /\
  conn_layer l1 /\ connected_forward R_arith l1 x = Ok l1 /\ l_output l1 = out_of l x.
Proof.
  intros C X. destruct (function_of l C) as (f & F). pose proof C as (T & CS & A).
  destruct (connected_forward_ok R_arith l x f CS X F) as (st & out & E & L1 & L2 & H).
  assert (CS1 : conn_shape (set_state st (set_output out l))) by (destruct CS; constructor; assumption).
  exists (set_state st (set_output out l)). split; [exact E|]. split; [exists st, out; auto|]. split; [split; [exact T|split; [exact CS1|exact A]]|].
  split; [|unfold out_of; rewrite E; reflexivity].
  destruct (connected_forward_ok R_arith (set_state st (set_output out l)) x f CS1 X F) as (st2 & out2 & E2 & L3 & L4 & H2).
  rewrite E2. f_equal. change (l_n_outputs (set_state st (set_output out l))) with (l_n_outputs l) in L3, L4, H2.
  assert (ES : forall i, (0 <= i < l_n_outputs l)%Z -> at_ (n0 (a_num R_arith)) st2 i = at_ (n0 (a_num R_arith)) st i /\ at_ (n0 (a_num R_arith)) out2 i = at_ (n0 (a_num R_arith)) out i).
  { intros i I. destruct (H i I) as (A1 & A2). destruct (H2 i I) as (B1 & B2). assert (S : at_ (n0 (a_num R_arith)) st2 i = at_ (n0 (a_num R_arith)) st i) by (rewrite A1, B1; reflexivity).
    split; [exact S|]. rewrite A2, B2, S. reflexivity. }
  assert (st2 = st) as -> by (apply (list_ext (n0 (a_num R_arith))); [lia|]; intros i I; apply ES; lia).
  assert (out2 = out) as -> by (apply (list_ext (n0 (a_num R_arith))); [lia|]; intros i I; apply ES; lia).
  reflexivity.
Qed.
Lemma visited_out l l1 x : conn_layer l -> (l_n_inputs l <= len x)%Z -> visited l l1 -> out_of l1 x = out_of l x.
Proof.
  intros C X (st & out & -> & LS & LO). destruct (function_of l C) as (f & F). pose proof C as (T & CS & A).
  assert (CS1 : conn_shape (set_state st (set_output out l))) by (destruct CS; constructor; assumption).
  destruct (connected_forward_ok R_arith l x f CS X F) as (s1 & o1 & E1 & L1 & L2 & H1).
  destruct (connected_forward_ok R_arith (set_state st (set_output out l)) x f CS1 X F) as (s2 & o2 & E2 & L3 & L4 & H2).
  unfold out_of. rewrite E1, E2. cbn [l_output set_state set_output]. change (l_n_outputs (set_state st (set_output out l))) with (l_n_outputs l) in L3, L4, H2.
  apply (list_ext (n0 (a_num R_arith))); [lia|]. intros i I. destruct (H1 i ltac:(lia)) as (A1 & A2). destruct (H2 i ltac:(lia)) as (B1 & B2).
  rewrite A2, B2, A1, B1. reflexivity.
Qed.
Lemma propagate_R_ok : forall ls x, Forall conn_layer ls -> fits (len x) ls -> smooth_net ls x ->
  exists ls1, propagate R_arith ls x = Ok ls1 /\ Forall2 visited ls ls1 /\ Forall conn_layer ls1 /\ fits (len x) ls1 /\ settled ls1 x /\ smooth_net ls1 x /\
    run ls1 x = run ls x.
Proof.
  induction ls as [|l ls IH]; intros x FC FI SM.
  - exists []. repeat split; constructor.
  - inversion FC as [|? ? C FC']; subst. destruct FI as (FI & FI'). destruct SM as (SM & SM').
    destruct (visit_ok l x C ltac:(lia)) as (l1 & E & V & C1 & S1 & O1).
    pose proof (out_len l x C ltac:(lia)) as LO.
    destruct (IH (out_of l x) FC' ltac:(rewrite LO; exact FI') SM') as (ls1 & E' & FV & FC1 & FI1 & SE1 & SM1 & R1).
    exists (l1 :: ls1). cbn [propagate]. rewrite E. cbn [obind]. rewrite O1, E'. cbn [obind].
    pose proof (out_settled l1 x S1) as OS. rewrite O1 in OS.
    split; [reflexivity|]. split; [constructor; assumption|]. split; [constructor; assumption|]. destruct V as (st & out & -> & LS & LOu).
    split; [split; [exact FI|]; change (l_n_outputs (set_state st (set_output out l))) with (l_n_outputs l); rewrite <- LO; exact FI1|].
    split; [split; [exact S1|rewrite OS; exact SE1]|]. split; [split; [exact SM|rewrite OS; exact SM1]|].
    change (run ls1 (out_of (set_state st (set_output out l)) x) = run ls (out_of l x)). rewrite OS. exact R1.
Qed.

Lemma rev_last {X} (ls : list X) : ls <> [] -> exists p rest, rev ls = p :: rest /\ ls = rev rest ++ [p].
Proof.
  intros N. destruct (rev ls) as [|p rest] eqn:E.
  - exfalso. apply N. rewrite <- (rev_involutive ls), E. reflexivity.
  - exists p, rest. split; [reflexivity|]. rewrite <- (rev_involutive ls), E. reflexivity.
Qed.

Lemma C68_lemma ls x y a b :
  (* any network of connected layers *)
  ls <> [] -> Forall conn_layer ls -> fits (len x) ls -> (width (len x) ls <= len y)%Z ->
  (* with no neuron at a limit or kink on this input *)
  smooth_net ls x ->
  exists ls1 back fin,
    (* after the forward pass *)
    propagate R_arith ls x = Ok ls1 /\ Forall2 visited ls ls1 /\ run ls1 x = run ls x /\
    neural_learn R_arith (mkNn ls1 a b) y x = Ok (mkNn fin a b) /\
    (* the updates of every layer grow by the gradient of the whole network's error, *)
    learned_net (squared y) x ls1 back /\
    (* and are then applied. *)
    Forall2 (fun l' l'' => layer_update R_arith l' = Ok l'') back fin.
Proof.
  intros NE FC FI WY SM. destruct (propagate_R_ok ls x FC FI SM) as (ls1 & E & FV & FC1 & FI1 & SE1 & SM1 & R1).
  destruct (omap_all (zero_delta R_arith) conn_layer ls1) as (ls0 & E0 & F0); [|exact FC1|].
  { intros l (_ & CS & _). destruct (zero_delta_ok l CS) as (dz & E0 & _). eauto. }
  assert (FZ : Forall2 zeroed ls1 ls0).
  { clear - F0 FC1. induction F0 as [|l l0 r r0 H F IH]; [constructor|]. inversion FC1 as [|? ? (_ & CS & _) FC']; subst.
    constructor; [|apply IH, FC']. destruct (zero_delta_ok l CS) as (dz & E0 & L & Z0). rewrite E0 in H. injection H as <-. exists dz. auto. }
  destruct (zeroed_all _ _ FZ FC1) as (FC0 & FI0 & SE0 & SM0 & FZ0). specialize (FI0 _ FI1). specialize (SE0 _ SE1). specialize (SM0 _ SM1).
  assert (N0 : ls0 <> []). { intros ->. inversion FZ; subst. inversion FV; subst. apply NE. reflexivity. }
  destruct (rev_last ls0 N0) as (p & rest & ER & ELs).
  pose proof FC0 as FCp. rewrite ELs in FCp. apply Forall_app in FCp. destruct FCp as (_ & FCp). inversion FCp as [|? ? (Tp & CSp & Ap) _]; subst.
  assert (WD : width (len x) ls = l_n_outputs p).
  { assert (W1 : width (len x) ls = width (len x) (rev rest ++ [p])).
    { pose proof (run_len ls x FC FI) as A1. pose proof (run_len _ x FC0 FI0) as A2. rewrite (zeroed_run _ _ FZ), R1 in A2. congruence. }
    rewrite W1. unfold width. rewrite fold_left_app. reflexivity. }
  destruct (output_delta_ok p y CSp ltac:(lia)) as (d & ED & LD & HD).
  assert (G : gradient (squared y) (l_output p) d).
  { apply C50_squared_lemma; rewrite (cs_output _ CSp); [exact LD|exact HD]. }
  assert (FZr : Forall (fun p => len (l_delta p) = l_n_outputs p /\ forall j, at0 (l_delta p) j = 0) rest).
  { apply Forall_app in FZ0. destruct FZ0 as (FZ0 & _). apply Forall_rev in FZ0. rewrite rev_involutive in FZ0. exact FZ0. }
  destruct (back_ok rest p (squared y) d x FC0 FI0 SE0 SM0 FZr G LD) as (ls2 & EB & HN).
  assert (HN1 : learned_net (squared y) x ls1 (rev ls2)) by (apply (zeroed_learned _ _ _ _ _ FZ HN)).
  destruct (omap_all (layer_update R_arith) (fun l => conn_shape l) (rev ls2)) as (fin & EF & FF); [exact update_any| |].
  { destruct HN as (LN & HN). apply Forall_forall. intros l' I'. apply in_split in I'. destruct I' as (pre' & post' & E').
    assert (LP : (length pre' < length (rev rest ++ [p]))%nat) by (rewrite <- LN, E', app_length; cbn [length]; lia).
    destruct (nth_split (rev rest ++ [p]) p LP) as (pre & post & E1 & L1).
    destruct (HN pre _ post pre' l' post' E1 E' (eq_sym L1)) as ((dd & bu & wu & _ & CS) & _). exact CS. }
  exists ls1, (rev ls2), fin. split; [exact E|]. split; [exact FV|]. split; [exact R1|]. split; [|split; [exact HN1|exact FF]].
  unfold neural_learn. cbn [nn_layers nn_inputs nn_outputs]. rewrite E0. cbn [obind]. rewrite ER, ED. cbn [obind]. rewrite EB. cbn [obind]. rewrite EF. reflexivity.
Qed.

(** ** The code in doubles *)
(** On networks of connected layers [neural_propagate] is [propagate] and draws nothing. *)
Lemma C68_code_lemma (lm : libm) (train : bool) (n : nn f64) (x : list f64) (g : rng) : Forall (fun l => l_type l = CONNECTED) (nn_layers n) ->
  neural_propagate lm train n x g =
  match propagate (f64_arith lm) (nn_layers n) x with
  | Ok ls => Ok (with_layers n ls, g) | Exit => Exit | UB k => UB k | OutOfFuel => OutOfFuel
  end.
Proof.
  intros F.
  assert (H : forall x, forward_from lm train (nn_layers n) x g = match propagate (f64_arith lm) (nn_layers n) x with Ok ls => Ok (ls, g) | Exit => Exit | UB k => UB k | OutOfFuel => OutOfFuel end).
  { clear x. induction F as [|l r T F IH]; intros x; cbn [forward_from propagate]; [reflexivity|].
    unfold bind, layer_forward. rewrite T, Z.eqb_refl. unfold lift. destruct (connected_forward (f64_arith lm) l x) as [l1| | |]; try reflexivity.
    cbn [obind]. rewrite IH. destruct (propagate (f64_arith lm) r (l_output l1)); reflexivity. }
  unfold neural_propagate, bind. rewrite H. destruct (propagate _ _ _); reflexivity.
Qed.
