(** * What networks compute (C69). *)
From Coq Require Import ZArith Bool List Lia Reals.
From Verif Require Import Outcome F64 F64Facts Rng RngFacts Sam SamFacts Pop PopSpec Arr ArrFacts Blas BlasFacts Clock Comp Dgp DgpFacts Act Image Layer LayerFacts MutFacts UpdFacts PropMut Net NetFacts NetLayer NetChain PropNet.
Import ListNotations.
Open Scope Z_scope.

(** ** What a layer makes of its input *)
(** The weighted sum of neuron [i], in the order of the code. *)
Definition weighted (l : layer f64) (x : list f64) (i : Z) : f64 :=
  fadd (fmul (at_ f0 (l_biases l) i) f1)
    (fold_left (fun s k => fadd s (fmul (fmul f1 (at_ f0 x k)) (at_ f0 (l_weights l) (i * l_n_inputs l + k)))) (iota (l_n_inputs l)) f0).
(** The softmax of the first [n] elements of [x] with scale [s]. *)
Definition is_largest (x : list f64) (n : Z) (m : f64) : Prop :=
  (exists k, 0 <= k < n /\ m = at_ f0 x k) /\ forall j, 0 <= j < n -> flt m (at_ f0 x j) = false.
Definition softmax_term (lm : libm) (x : list f64) (s m : f64) (i : Z) : f64 := m_exp lm (fsub (fdiv (at_ f0 x i) s) (fdiv m s)).
Definition computes (lm : libm) (train : bool) (l : layer f64) (x o : list f64) : Prop :=
  len o = l_n_outputs l /\
  (l_type l = CONNECTED -> forall i, 0 <= i < l_n_outputs l ->
     neural_activate (f64_arith lm) (l_function l) (clamp (weighted l x i) (of_Z (-100)) (of_Z 100)) = Ok (at_ f0 o i)) /\
  (l_type l = DROPOUT -> forall i, 0 <= i < l_n_outputs l ->
     if train then at_ f0 o i = f0 \/ at_ f0 o i = fmul (at_ f0 x i) (l_scale l) else at_ f0 o i = at_ f0 x i) /\
  (l_type l = NOISE -> forall i, 0 <= i < l_n_outputs l ->
     if train then at_ f0 o i = at_ f0 x i \/ exists z, at_ f0 o i = fadd (at_ f0 x i) (fadd (fmul z (l_scale l)) f0) else at_ f0 o i = at_ f0 x i) /\
  (l_type l = SOFTMAX -> exists m, is_largest x (l_n_outputs l) m /\ forall i, 0 <= i < l_n_outputs l ->
     at_ f0 o i = fdiv (softmax_term lm x (l_scale l) m i) (fold_left (fun s k => fadd s (softmax_term lm x (l_scale l) m k)) (iota (l_n_outputs l)) f0)).
(** Every layer works on the output of the one before. *)
Fixpoint through (lm : libm) (train : bool) (ls : list (layer f64)) (x : list f64) (ls' : list (layer f64)) : Prop :=
  match ls, ls' with
  | [], [] => True
  | l :: r, l' :: r' => content l' = content l /\ computes lm train l x (l_output l') /\ through lm train r (l_output l') r'
  | _, _ => False
  end.

Section Fwd.
Context (J : rng -> Prop) (lm : libm) (Zok : f64 -> Prop) (SR : src lm J Zok).
Notation rt := (ArrFacts.rt J).

Lemma weighted_eq l x i : weighted l x i = net_in (f64_arith lm) l x i. Proof. reflexivity. Qed.

Lemma softmax_ok (l : layer f64) x : plain_shape l -> l_n_inputs l <= len x ->
  exists out m, softmax_forward (f64_arith lm) l x = Ok (set_output out l) /\ len out = l_n_outputs l /\ is_largest x (l_n_outputs l) m /\
    forall i, 0 <= i < l_n_outputs l ->
      at_ f0 out i = fdiv (softmax_term lm x (l_scale l) m i) (fold_left (fun s k => fadd s (softmax_term lm x (l_scale l) m k)) (iota (l_n_outputs l)) f0).
Proof.
  intros [N EQ LO LD _] LX. unfold softmax_forward. rewrite (rd_ok f0) by lia. cbn [obind].
  set (n := l_n_inputs l) in *.
  destruct (ofor_ind (fun i m => is_largest x (i + 1) m)
    (fun i m => obind (rd x (i + 1)) (fun x0 => Ok (if a_lt (f64_arith lm) m x0 then x0 else m))) (n - 1) (at_ f0 x 0)) as (m & EM & HM).
  - lia.
  - split; [exists 0; split; [lia|reflexivity]|]. intros j Hj. replace j with 0 by lia. apply flt_irrefl.
  - intros i m Hi ((k & Hk & Em) & H). rewrite (rd_ok f0) by lia. cbn [obind]. eexists. split; [reflexivity|].
    change (a_lt (f64_arith lm) m (at_ f0 x (i + 1))) with (flt m (at_ f0 x (i + 1))). destruct (flt m (at_ f0 x (i + 1))) eqn:L.
    + split; [exists (i + 1); split; [lia|reflexivity]|]. intros j Hj. destruct (Z.eq_dec j (i + 1)) as [->|NE]; [apply flt_irrefl|].
      specialize (H j ltac:(lia)). destruct (flt (at_ f0 x (i + 1)) (at_ f0 x j)) eqn:L2; [|reflexivity].
      rewrite (flt_fle_trans _ _ _ L (flt_fle _ _ L2)) in H. discriminate H.
    + split; [exists k; split; [lia|exact Em]|]. intros j Hj. destruct (Z.eq_dec j (i + 1)) as [->|NE]; [exact L|apply H; lia].
  - replace (n - 1 + 1) with n in HM by lia. rewrite EM. cbn [obind].
    change (a_Z (f64_arith lm) 0) with f0.
    match goal with |- context [ofor n ?f (f0, l_output l)] =>
      destruct (ofor_ind (fun i (so : f64 * list f64) => len (snd so) = n /\
        fst so = fold_left (fun s k => fadd s (softmax_term lm x (l_scale l) m k)) (iota i) f0 /\
        forall k, 0 <= k < i -> at_ f0 (snd so) k = softmax_term lm x (l_scale l) m k) f n (f0, l_output l)) as (so & ES & LS & HS & HK) end.
    { lia. }
    { cbn [fst snd]. split; [lia|]. split; [reflexivity|]. intros; lia. }
    { intros i so Hi (L & S & H). rewrite (rd_ok f0) by lia. cbn [obind]. cbv zeta.
      destruct (wr_ok (snd so) i (softmax_term lm x (l_scale l) m i) ltac:(lia)) as (o & E & W1 & W2 & W3 & _).
      exists (fadd (fst so) (softmax_term lm x (l_scale l) m i), o). split.
      { unfold softmax_term in E. cbn [a_exp f64_arith]. change (nsub (a_num (f64_arith lm))) with fsub. change (ndiv (a_num (f64_arith lm))) with fdiv. rewrite E. reflexivity. }
      cbn [fst snd]. split; [lia|]. split; [rewrite iota_S by lia; rewrite fold_left_app, <- S; reflexivity|].
      intros k Hk. destruct (Z.eq_dec k i) as [->|NE]; [rewrite W2; reflexivity|rewrite W3 by lia; apply H; lia]. }
    rewrite ES. cbn [obind].
    destruct (ofor_ind (fun i (o : list f64) => len o = n /\ (forall k, 0 <= k < i -> at_ f0 o k = fdiv (softmax_term lm x (l_scale l) m k) (fst so)) /\
        forall k, i <= k -> at_ f0 o k = at_ f0 (snd so) k) (fun i out => modify_at out i (fun o => fdiv o (fst so))) n (snd so)) as (out & EO & L & H & _).
    { lia. }
    { split; [lia|]. split; [intros; lia|auto]. }
    { intros i o Hi (L & H1 & H2). destruct (modify_ok f64_num o i (fun o => fdiv o (fst so)) ltac:(lia)) as (o' & E & W1 & W2 & W3 & _).
      change (n0 f64_num) with f0 in *. exists o'. split; [exact E|]. split; [lia|]. split.
      - intros k Hk. destruct (Z.eq_dec k i) as [->|NE]; [rewrite W2, H2, HK by lia; reflexivity|rewrite W3 by lia; apply H1; lia].
      - intros k Hk. rewrite W3 by lia. apply H2. lia. }
    change (ndiv (a_num (f64_arith lm))) with fdiv. rewrite EO. cbn [obind]. exists out, m. split; [reflexivity|]. split; [lia|]. rewrite EQ. fold n. split; [exact HM|].
    intros i Hi. rewrite (H i Hi), HS. reflexivity.
Qed.

Lemma forward_computes train l x : sound l -> l_n_inputs l <= len x ->
  rt (layer_forward lm train l x) (fun l' => passed l l' /\ computes lm train l x (l_output l')).
Proof.
  intros S LX. unfold layer_forward. pose proof S as S'. destruct S as [(T & C & TI & G & F)|(T & P)].
  - rewrite T, Z.eqb_refl. destruct (act_defined (f64_arith lm) _ F) as ((f & Hf) & _).
    destruct (connected_forward_ok (f64_arith lm) l x f C LX Hf) as (st & out & E & L1 & L2 & H).
    eapply rt_lift; [exact E|]. split; [exists st, out; auto|]. cbn [l_output set_state set_output].
    split; [exact L2|]. split; [|split; [|split]]; intros T'; rewrite T in T'; try discriminate T'.
    intros i Hi. destruct (H i Hi) as (E1 & E2). change (n0 (a_num (f64_arith lm))) with f0 in E1, E2. rewrite E2, E1, Hf. reflexivity.
  - pose proof P as [N EQ LO LD LS].
    assert (DN : (l_type l = DROPOUT \/ l_type l = NOISE) -> len (l_state l) = l_n_outputs l) by (intros [X|X]; rewrite X in LS; destruct LS as [Y|Y]; (discriminate Y || exact Y)).
    assert (CP : exists o, copy_n (l_n_inputs l) x (l_output l) = Ok o /\ len o = l_n_outputs l /\ forall i, 0 <= i < l_n_outputs l -> at_ f0 o i = at_ f0 x i).
    { destruct (copy_n_ok f0 (l_n_inputs l) x (l_output l) ltac:(lia) ltac:(lia)) as (o & E & L & H & _). exists o. split; [exact E|]. split; [lia|]. intros i Hi. apply H. lia. }
    assert (OUT : forall out, (l_type l = DROPOUT \/ l_type l = NOISE) -> len out = l_n_outputs l -> passed l (set_output out l)).
    { intros out HT L. exists (l_state l), out. split; [destruct l; reflexivity|]. auto. }
    assert (INV : forall (f : Z -> list f64 * list f64 -> RM (list f64 * list f64)) (V : Z -> f64 -> Prop), (l_type l = DROPOUT \/ l_type l = NOISE) ->
      (forall i so, 0 <= i < l_n_inputs l -> len (fst so) = l_n_outputs l -> len (snd so) = l_n_outputs l ->
         rt (f i so) (fun so' => len (fst so') = l_n_outputs l /\ exists v, V i v /\ wrote (snd so) (snd so') i v)) ->
      rt (bind (rfor (l_n_inputs l) f (l_state l, l_output l)) (fun so => ret (set_state (fst so) (set_output (snd so) l))))
        (fun l' => passed l l' /\ len (l_output l') = l_n_outputs l /\ forall i, 0 <= i < l_n_outputs l -> V i (at_ f0 (l_output l') i))).
    { intros f V HT H. eapply rt_bind.
      - apply (rt_for_mono J (fun i so => len (fst so) = l_n_outputs l /\ len (snd so) = l_n_outputs l /\ forall k, 0 <= k < i -> V k (at_ f0 (snd so) k))
          (fun so => len (fst so) = l_n_outputs l /\ len (snd so) = l_n_outputs l /\ forall k, 0 <= k < l_n_outputs l -> V k (at_ f0 (snd so) k))).
        + lia.
        + cbn [fst snd]. split; [auto|]. split; [exact LO|]. intros; lia.
        + intros i so I (L1 & L2 & H1). eapply rt_mono; [apply (H i so I L1 L2)|]. intros so' (L1' & v & Vv & W1 & W2 & W3 & _).
          split; [exact L1'|]. split; [lia|]. intros k Hk. destruct (Z.eq_dec k i) as [->|NE]; [rewrite W2; exact Vv|rewrite W3 by lia; apply H1; lia].
        + intros so (L1 & L2 & H1). split; [exact L1|]. split; [exact L2|]. intros k Hk. apply H1. lia.
      - intros so (L1 & L2 & H1). apply rt_ret. split; [exists (fst so), (snd so); auto|]. split; [exact L2|exact H1]. }
    destruct T as [T|[T|T]]; rewrite T.
    + change (SOFTMAX =? CONNECTED) with false. change (SOFTMAX =? DROPOUT) with false. change (SOFTMAX =? NOISE) with false. change (SOFTMAX =? SOFTMAX) with true. cbv iota.
      destruct (softmax_ok l x P LX) as (out & m & E & L & HM & H). eapply rt_lift; [exact E|].
      split; [exists (l_state l), out; split; [destruct l; reflexivity|auto]|]. split; [exact L|].
      split; [|split; [|split]]; intros T'; rewrite T in T'; try discriminate T'. exists m. auto.
    + change (DROPOUT =? CONNECTED) with false. change (DROPOUT =? DROPOUT) with true. cbv iota. unfold dropout_forward. destruct train; cbn [negb].
      * eapply rt_mono; [apply (INV _ (fun i v => v = f0 \/ v = fmul (at_ f0 x i) (l_scale l))); [auto|]|].
        -- intros i so HI L1 L2. eapply rt_bind; [apply (rt_uniform J lm Zok SR)|]. intros u _.
           destruct (wr_len (fst so) i u ltac:(lia)) as (s' & E1 & M1). eapply rt_bind_lift; [exact E1|].
           destruct (flt u (l_probability l)).
           ++ destruct (wr_ok (snd so) i f0 ltac:(lia)) as (o' & E2 & W). eapply rt_bind_lift; [exact E2|]. apply rt_ret. cbn [fst snd]. split; [lia|]. exists f0. auto.
           ++ eapply rt_bind_lift; [apply (rd_ok f0); lia|]. destruct (wr_ok (snd so) i (fmul (at_ f0 x i) (l_scale l)) ltac:(lia)) as (o' & E2 & W).
              eapply rt_bind_lift; [exact E2|]. apply rt_ret. cbn [fst snd]. split; [lia|]. exists (fmul (at_ f0 x i) (l_scale l)). auto.
        -- intros l' (PS & L & H). split; [exact PS|]. split; [exact L|]. split; [|split; [|split]]; intros T'; rewrite T in T'; try discriminate T'. exact H.
      * destruct CP as (o & E & L & H). eapply rt_bind_lift; [exact E|]. apply rt_ret. split; [auto|]. split; [exact L|].
        split; [|split; [|split]]; intros T'; rewrite T in T'; try discriminate T'. exact H.
    + change (NOISE =? CONNECTED) with false. change (NOISE =? DROPOUT) with false. change (NOISE =? NOISE) with true. cbv iota. unfold noise_forward. destruct train; cbn [negb].
      * eapply rt_mono; [apply (INV _ (fun i v => v = at_ f0 x i \/ exists z, v = fadd (at_ f0 x i) (fadd (fmul z (l_scale l)) f0))); [auto|]|].
        -- intros i so HI L1 L2. eapply rt_bind; [apply (rt_uniform J lm Zok SR)|]. intros u _.
           destruct (wr_len (fst so) i u ltac:(lia)) as (s' & E1 & M1). eapply rt_bind_lift; [exact E1|].
           eapply rt_bind_lift; [apply (rd_ok f0); lia|].
           eapply (rt_bind J _ _ (fun v => v = at_ f0 x i \/ exists z, v = fadd (at_ f0 x i) (fadd (fmul z (l_scale l)) f0))).
           { destruct (flt u (l_probability l)); [|apply rt_ret; auto]. eapply rt_bind; [apply (rt_normal J lm Zok SR)|]. intros z (z0 & _ & ->). apply rt_ret. right. eauto. }
           intros v Vv. destruct (wr_ok (snd so) i v ltac:(lia)) as (o' & E2 & W). eapply rt_bind_lift; [exact E2|]. apply rt_ret. cbn [fst snd]. split; [lia|]. exists v. auto.
        -- intros l' (PS & L & H). split; [exact PS|]. split; [exact L|]. split; [|split; [|split]]; intros T'; rewrite T in T'; try discriminate T'. exact H.
      * destruct CP as (o & E & L & H). eapply rt_bind_lift; [exact E|]. apply rt_ret. split; [auto|]. split; [exact L|].
        split; [|split; [|split]]; intros T'; rewrite T in T'; try discriminate T'. exact H.
Qed.
Lemma through_ok train ls : forall n x, chained n ls -> n <= len x ->
  rt (forward_from lm train ls x) (fun ls' => Forall sound ls' /\ Forall2 passed ls ls' /\ through lm train ls x ls').
Proof.
  induction ls as [|l r IH]; intros n x C L; cbn [forward_from]; [apply rt_ret; cbn; auto|].
  destruct C as (S & NI & C). eapply rt_bind; [apply (forward_computes train l x S); lia|]. intros l' (PS & CO).
  pose proof (passed_sound l l' S PS) as S'. destruct (sound_out l' S') as (LO & _).
  assert (NO : l_n_outputs l' = l_n_outputs l) by (destruct PS as (st & out & -> & _); reflexivity).
  eapply rt_bind; [apply (IH (l_n_outputs l) (l_output l') C); lia|]. intros r' (F1 & F2 & F3). apply rt_ret.
  split; [auto|]. split; [auto|]. cbn [through]. split; [apply passed_content, PS|]. auto.
Qed.
End Fwd.

(** Outside of training nothing is drawn. *)
Lemma forward_quiet lm l x g l' g' : l_type l = CONNECTED \/ plain_type (l_type l) -> layer_forward lm false l x g = Ok (l', g') -> g' = g.
Proof.
  intros T. unfold layer_forward.
  assert (LQ : forall o : outcome (layer f64), lift o g = Ok (l', g') -> g' = g) by (intros o; unfold lift; destruct o; intros H; congruence).
  assert (CQ : forall o : outcome (list f64), (o <- lift o ;; ret (set_output o l))%rng g = Ok (l', g') -> g' = g).
  { intros o. unfold bind, lift, ret. destruct o; intros H; congruence. }
  destruct T as [->|[->|[->| ->]]]; cbn -[lift bind]; [apply LQ|apply LQ|apply CQ|apply CQ].
Qed.
Lemma through_quiet lm ls : forall n x g ls' g', chained n ls -> forward_from lm false ls x g = Ok (ls', g') -> g' = g.
Proof.
  induction ls as [|l r IH]; intros n x g ls' g' C; cbn [forward_from]; [unfold ret; congruence|]. destruct C as (S & _ & C).
  unfold bind. destruct (layer_forward lm false l x g) as [(l1, g1)| | |] eqn:E; try discriminate.
  apply forward_quiet in E; [|destruct S as [(T & _)|(T & _)]; auto]. subst g1.
  destruct (forward_from lm false r (l_output l1) g) as [(r1, g2)| | |] eqn:E2; try discriminate.
  apply (IH _ _ _ _ _ C) in E2. subst g2. unfold ret. congruence.
Qed.

Lemma C69_propagate_lemma (lm : libm) (train : bool) (n : nn f64) (x : list f64) (g : rng) : net_ok n -> nn_inputs n <= len x ->
  exists ls g', neural_propagate lm train n x g = Ok (with_layers n ls, g') /\ net_ok (with_layers n ls) /\
    through lm train (nn_layers n) x ls /\ (train = false -> g' = g).
Proof.
  intros H L. pose proof H as (_ & C & _).
  destruct (through_ok _ lm _ (src_any lm) train (nn_layers n) (nn_inputs n) x C L g I) as (ls & g' & E & _ & F1 & F2 & F3).
  exists ls, g'. unfold neural_propagate, bind. rewrite E. split; [reflexivity|].
  split; [apply net_same; [exact H| |exact F1]; eapply map_of_forall2; [|exact F2]; intros a b X; apply content_dims; now apply passed_content|].
  split; [exact F3|]. intros ->. apply (through_quiet _ _ _ _ _ _ _ C E).
Qed.

(** The outputs of the last layer. *)
Definition outputs_of (ls : list (layer f64)) : list f64 := match rev ls with [] => [] | p :: _ => l_output p end.
Lemma faces_content (n : nn f64) ls : map content ls = map content (nn_layers n) -> faces n -> faces (T := f64) (with_layers n ls).
Proof.
  intros M (p & O & E). apply last_same in M. unfold out_layer in O. destruct (rev (nn_layers n)) as [|q r] eqn:R; [discriminate|]. injection O as ->.
  cbn [map] in M. destruct (rev ls) as [|p' r'] eqn:R'; [discriminate|]. cbn [map] in M.
  pose proof (f_equal (hd (content p)) M) as CP; cbn [hd] in CP. exists p'. unfold out_layer. cbn [with_layers nn_layers nn_outputs]. rewrite R'. split; [reflexivity|].
  destruct (dims_eq _ _ (content_dims _ _ CP)) as (_ & _ & _ & D & _). rewrite D. exact E.
Qed.
Lemma through_content lm train ls : forall x ls', through lm train ls x ls' -> map content ls' = map content ls.
Proof.
  induction ls as [|l r IH]; intros x [|l' r'] H; try contradiction; [reflexivity|]. destruct H as (A & _ & B). cbn [map]. rewrite A, (IH _ _ B). reflexivity.
Qed.
Lemma C69_predict_lemma (K : cfg) (train : bool) (n : nn f64) (x v : list f64) (g : rng) : net_ok n -> faces n -> nn_inputs n <= len x ->
  0 <= y_dim K <= nn_outputs n -> len v = y_dim K ->
  exists ls v' g', net_compute K train n v x g = Ok (with_layers n ls, v', g') /\ net_ok (with_layers n ls) /\
    through (lm K) train (nn_layers n) x ls /\ len v' = y_dim K /\ forall i, 0 <= i < y_dim K -> at_ f0 v' i = at_ f0 (outputs_of ls) i.
Proof.
  intros H F L Y LV. destruct (C69_propagate_lemma (lm K) train n x g H L) as (ls & g' & E & H' & TH & _).
  pose proof (faces_content n ls (through_content _ _ _ _ _ TH) F) as F'.
  unfold net_compute, bind. rewrite E.
  destruct (ofor_ind (fun i (v : list f64) => len v = y_dim K /\ forall k, 0 <= k < i -> at_ f0 v k = at_ f0 (outputs_of ls) k)
    (fun i v => (o <- neural_output (with_layers n ls) i ;; wr v i o)%out) (y_dim K) v) as (v' & EV & LV' & HV).
  - lia.
  - split; [exact LV|intros; lia].
  - intros i w Hi (LW & HW). destruct (output_ok (with_layers n ls) i H' F' ltac:(cbn [with_layers nn_outputs]; lia)) as (p & O & EO). rewrite EO. cbn [obind].
    destruct (wr_ok w i (at_ f0 (l_output p) i) ltac:(lia)) as (w' & EW & W1 & W2 & W3 & _). exists w'. split; [exact EW|]. split; [lia|].
    intros k Hk. destruct (Z.eq_dec k i) as [->|NE]; [|rewrite W3 by lia; apply HW; lia]. rewrite W2. unfold out_layer in O. cbn [with_layers nn_layers] in O. unfold outputs_of.
    destruct (rev ls); [discriminate|]. congruence.
  - exists ls, v', g'. unfold lift. rewrite EV. auto.
Qed.
Lemma C69_match_lemma (K : cfg) (train : bool) (n : nn f64) (x : list f64) (g : rng) : net_ok n -> faces n -> nn_inputs n <= len x ->
  exists ls g', net_match K train n x g = Ok (with_layers n ls, flt fhalf (at_ f0 (outputs_of ls) 0), g') /\ net_ok (with_layers n ls) /\
    through (lm K) train (nn_layers n) x ls.
Proof.
  intros H F L. destruct (C69_propagate_lemma (lm K) train n x g H L) as (ls & g' & E & H' & TH & _).
  pose proof (faces_content n ls (through_content _ _ _ _ _ TH) F) as F'.
  exists ls, g'. unfold net_match, bind. rewrite E.
  assert (P1 : 1 <= nn_outputs n).
  { destruct F as (p & O & ->). destruct H as (_ & C & _). apply chained_sound in C. apply Forall_rev in C. unfold out_layer in O.
    destruct (rev (nn_layers n)); [discriminate|]. injection O as ->. inversion C; subst. apply sound_pos. assumption. }
  destruct (output_ok (with_layers n ls) 0 H' F' ltac:(cbn [with_layers nn_outputs]; lia)) as (p & O & EO).
  unfold lift. rewrite EO. unfold out_layer in O. cbn [with_layers nn_layers] in O. unfold outputs_of. destruct (rev ls); [discriminate|]. injection O as ->. auto.
Qed.

(** ** The size of a network *)
Definition weighty (l : layer f64) : bool := (l_type l =? CONNECTED) || (l_type l =? CONVOLUTIONAL).
Lemma size_from ls : forall s, fold_left (fun s l => if weighty l then s + l_n_active l else s) ls s = s + fold_right Z.add 0 (map (fun l => if weighty l then l_n_active l else 0) ls).
Proof.
  induction ls as [|l r IH]; intros s; cbn [fold_left map fold_right]; [lia|]. rewrite IH. destruct (weighty l); lia.
Qed.
Lemma C69_size_lemma (n : nn f64) : Forall (fun l => weighty l = true -> tidy l) (nn_layers n) ->
  neural_size n = fold_right Z.add 0 (map (fun l => if weighty l then actives (l_active l) else 0) (nn_layers n)).
Proof.
  intros F. unfold neural_size. etransitivity; [exact (size_from (nn_layers n) 0)|]. rewrite Z.add_0_l.
  induction F as [|l r H F IH]; [reflexivity|]. cbn [map fold_right]. rewrite IH. f_equal. destruct (weighty l); [|reflexivity]. apply H. reflexivity.
Qed.
