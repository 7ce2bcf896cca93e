(** * A network that has been saved and loaded computes what it computed before. *)
From Coq Require Import ZArith Bool List Lia.
From Verif Require Import Outcome F64 Rng Arr ArrFacts Blas BlasFacts Act Layer LayerFacts MutFacts PropMut Net NetFacts NetLayer NetChain File FileFacts.
Import ListNotations.
Open Scope Z_scope.

(** Two loops side by side. *)
Lemma oloop_rel {S U} (R : Z -> S -> U -> Prop) (f : Z -> S -> outcome S) (h : Z -> U -> outcome U) (n : nat) : forall i s u,
  (forall j s u, i <= j < i + Z.of_nat n -> R j s u -> exists s' u', f j s = Ok s' /\ h j u = Ok u' /\ R (j + 1) s' u') ->
  R i s u -> exists s' u', oloop n i f s = Ok s' /\ oloop n i h u = Ok u' /\ R (i + Z.of_nat n) s' u'.
Proof.
  induction n as [|n IH]; intros i s u HF HI.
  - exists s, u. rewrite Z.add_0_r. auto.
  - destruct (HF i s u ltac:(lia) HI) as (s1 & u1 & E1 & F1 & I1). cbn [oloop]. rewrite E1, F1. cbn [obind].
    destruct (IH (i + 1) s1 u1) as (s2 & u2 & E2 & F2 & I2); [intros j s' u' Hj; apply HF; lia|exact I1|].
    exists s2, u2. split; [exact E2|]. split; [exact F2|]. replace (i + Z.of_nat (Datatypes.S n)) with (i + 1 + Z.of_nat n) by lia. exact I2.
Qed.
Lemma ofor_rel {S U} (R : Z -> S -> U -> Prop) (f : Z -> S -> outcome S) (h : Z -> U -> outcome U) n s u :
  0 <= n -> R 0 s u -> (forall i s u, 0 <= i < n -> R i s u -> exists s' u', f i s = Ok s' /\ h i u = Ok u' /\ R (i + 1) s' u') ->
  exists s' u', ofor n f s = Ok s' /\ ofor n h u = Ok u' /\ R n s' u'.
Proof.
  intros Hn H0 HF. unfold ofor. destruct (oloop_rel R f h (Z.to_nat n) 0 s u) as (s' & u' & E & F & H).
  - intros j s1 u1 Hj. apply HF. lia.
  - exact H0.
  - exists s', u'. split; [exact E|]. split; [exact F|]. replace (0 + Z.of_nat (Z.to_nat n)) with n in H by lia. exact H.
Qed.

(** What the output of a layer depends on when nothing is being learned. *)
Record alike (l l' : layer f64) : Prop := {
  al_type : l_type l' = l_type l; al_in : l_n_inputs l' = l_n_inputs l; al_out : l_n_outputs l' = l_n_outputs l;
  al_max : l_max_outputs l' = l_max_outputs l;
  al_conn : l_type l = CONNECTED -> l_function l' = l_function l /\ l_weights l' = l_weights l /\ l_biases l' = l_biases l;
  al_soft : l_type l = SOFTMAX -> l_scale l' = l_scale l
}.
Lemma copy_same n (x d1 d2 : list f64) : 0 <= n <= len x -> len d1 = n -> len d2 = n -> exists o, copy_n n x d1 = Ok o /\ copy_n n x d2 = Ok o /\ len o = n.
Proof.
  intros N A B. destruct (copy_n_ok f0 n x d1 ltac:(lia) ltac:(lia)) as (o1 & E1 & L1 & H1 & _). destruct (copy_n_ok f0 n x d2 ltac:(lia) ltac:(lia)) as (o2 & E2 & L2 & H2 & _).
  exists o1. split; [exact E1|]. split; [|lia]. rewrite E2. f_equal. apply (list_ext f0); [lia|]. intros i I. rewrite H1, H2 by lia. reflexivity.
Qed.

Section Fwd.
Context (lm : libm).
Let A := f64_arith lm.
Lemma softmax_same l l' x : 1 <= l_n_inputs l <= len x -> l_n_inputs l' = l_n_inputs l -> l_scale l' = l_scale l ->
  len (l_output l) = l_n_inputs l -> len (l_output l') = l_n_inputs l ->
  exists o, softmax_forward A l x = Ok (set_output o l) /\ softmax_forward A l' x = Ok (set_output o l').
Proof.
  intros N EN ES L1 L2. unfold softmax_forward. rewrite EN, ES. rewrite (rd_ok f0) by lia. cbn [obind].
  destruct (ofor_ind (fun _ (_ : f64) => True) (fun i m => obind (rd x (i + 1)) (fun x0 => Ok (if a_lt A m x0 then x0 else m))) (l_n_inputs l - 1) (at_ f0 x 0)) as (lg & -> & _); [lia|exact I| |].
  { intros i m Hi _. rewrite (rd_ok f0) by lia. cbn [obind]. eauto. }
  cbn [obind].
  match goal with |- exists o, obind (ofor _ ?f ?s) _ = _ /\ obind (ofor _ ?h ?u) _ = _ =>
    destruct (ofor_rel (fun i (a b : f64 * list f64) => fst a = fst b /\ len (snd a) = l_n_inputs l /\ len (snd b) = l_n_inputs l /\ forall k, 0 <= k < i -> at_ f0 (snd a) k = at_ f0 (snd b) k) f h (l_n_inputs l) s u)
      as (a & b & -> & -> & E1 & La & Lb & EQ); [lia|cbn [fst snd]; repeat split; [assumption|assumption|intros; lia]| |] end.
  { intros i a b Hi (E1 & La & Lb & EQ). rewrite !(rd_ok f0) by lia. cbn [obind]. cbv zeta.
    match goal with |- context [wr (snd a) i ?v] => destruct (wr_ok (snd a) i v ltac:(lia)) as (a' & -> & W1); destruct (wr_ok (snd b) i v ltac:(lia)) as (b' & -> & W2) end.
    cbn [obind]. do 2 eexists. split; [reflexivity|]. split; [reflexivity|]. cbn [fst snd]. destruct W1 as (WL & WA & WO & _). destruct W2 as (XL & XA & XO & _).
    split; [now rewrite E1|]. split; [lia|]. split; [lia|]. intros k Hk. destruct (Z.eq_dec k i) as [->|D]; [now rewrite WA, XA|]. rewrite WO, XO by lia. apply EQ. lia. }
  cbn [obind]. assert (S1 : snd a = snd b) by (apply (list_ext f0); [lia|]; intros i Hi; apply EQ; lia). rewrite S1, E1.
  destruct (out_loop (l_n_inputs l) (fun i out => modify_at out i (fun o => ndiv (a_num A) o (fst b))) (snd b)) as (o & E & _); [lia| |].
  { intros i o Hi L. unfold modify_at. rewrite (rd_ok f0) by lia. cbn [obind]. apply (fun H => match wr_len o i _ H with ex_intro _ o' (conj E L') => ex_intro _ o' (conj E (eq_trans L' L)) end). lia. }
  exists o. rewrite E. cbn [obind]. split; reflexivity.
Qed.

Lemma forward_same l l' x g : sound l -> sound l' -> alike l l' -> l_n_inputs l <= len x ->
  exists r r', layer_forward lm false l x g = Ok (r, g) /\ layer_forward lm false l' x g = Ok (r', g) /\ passed l r /\ passed l' r' /\ l_output r = l_output r'.
Proof.
  intros S S' [T N O M C F] LX. unfold layer_forward. rewrite T. destruct S as [(Ty & SH & TI & G & FN)|(Ty & P)].
  - rewrite Ty, Z.eqb_refl. destruct (C Ty) as (C1 & C2 & C3). rewrite Ty in T.
    assert (SH' : conn_shape l') by (destruct S' as [(_ & SH' & _)|(P' & _)]; [exact SH'|rewrite T in P'; destruct P' as [X|[X|X]]; discriminate X]).
    destruct (act_defined A _ FN) as ((f & Hf) & _).
    destruct (connected_forward_ok A l x f SH LX Hf) as (st & out & E & L1 & L2 & H1).
    rewrite <- C1 in Hf. rewrite <- N in LX. destruct (connected_forward_ok A l' x f SH' LX Hf) as (st' & out' & E' & L1' & L2' & H1').
    exists (set_state st (set_output out l)), (set_state st' (set_output out' l')). unfold lift. fold A. rewrite E, E'.
    split; [reflexivity|]. split; [reflexivity|]. split; [exists st, out; auto|]. split; [exists st', out'; auto|]. cbn [l_output set_state set_output].
    apply (list_ext (n0 (a_num A))); [lia|]. intros i Hi. destruct (H1 i ltac:(lia)) as (X1 & ->). destruct (H1' i ltac:(lia)) as (X2 & ->).
    rewrite X1, X2. unfold net_in. rewrite C2, C3, N. reflexivity.
  - destruct P as [PN PE PO PD PS]. assert (P' : len (l_output l') = l_n_outputs l).
    { rewrite <- O. apply (sound_out l' S'). }
    assert (PS' : l_type l' = SOFTMAX \/ len (l_state l') = l_n_outputs l').
    { destruct S' as [(X & _)|(_ & [])]; [|assumption]. rewrite X in T. rewrite <- T in Ty. destruct Ty as [Y|[Y|Y]]; discriminate Y. }
    assert (PA : forall (k : layer f64) o, (l_type k = SOFTMAX \/ len (l_state k) = l_n_outputs k) -> len o = l_n_outputs k -> passed k (set_output o k)).
    { intros k o HS HL. exists (l_state k), o. split; [destruct k; reflexivity|]. split; [exact HL|]. destruct HS; auto. }
    destruct (plain_not _ Ty) as (-> & _ & _ & _ & _).
    destruct (copy_same (l_n_inputs l) x (l_output l) (l_output l') ltac:(lia) ltac:(lia) ltac:(lia)) as (o & E1 & E2 & LO).
    destruct Ty as [Ty|[Ty|Ty]]; rewrite Ty.
    + change (SOFTMAX =? DROPOUT) with false. change (SOFTMAX =? NOISE) with false. rewrite Z.eqb_refl. cbv iota.
      destruct (softmax_same l l' x ltac:(lia) N (F Ty) ltac:(lia) ltac:(lia)) as (q & Q1 & Q2). unfold lift. fold A. rewrite Q1, Q2.
      exists (set_output q l), (set_output q l'). split; [reflexivity|]. split; [reflexivity|].
      assert (LQ : len q = l_n_outputs l).
      { destruct (forward_ok (fun _ => True) lm (fun _ => True) (src_any lm) false l x ltac:(right; split; [left; exact Ty|constructor; assumption]) ltac:(lia) g Logic.I) as (r & g' & E & _ & PP).
        unfold layer_forward in E. rewrite Ty in E. change (SOFTMAX =? CONNECTED) with false in E. change (SOFTMAX =? DROPOUT) with false in E. change (SOFTMAX =? NOISE) with false in E. rewrite Z.eqb_refl in E. cbv iota in E.
        unfold lift in E. fold A in E. rewrite Q1 in E. injection E as <- <-. destruct PP as (st & out & EQ & LQ & _). assert (X : l_output (set_output q l) = l_output (set_state st (set_output out l))) by (now rewrite EQ).
        cbn [l_output set_output set_state] in X. now rewrite X. }
      split; [apply PA; [exact PS|exact LQ]|]. split; [apply PA; [exact PS'|lia]|]. reflexivity.
    + rewrite Z.eqb_refl. unfold dropout_forward. cbn [negb]. rewrite N. unfold bind, lift. rewrite E1, E2. do 2 eexists. split; [reflexivity|]. split; [reflexivity|].
      split; [apply PA; [exact PS|lia]|]. split; [apply PA; [exact PS'|lia]|]. reflexivity.
    + change (NOISE =? DROPOUT) with false. rewrite Z.eqb_refl. unfold noise_forward. cbn [negb]. rewrite N. unfold bind, lift. rewrite E1, E2. do 2 eexists. split; [reflexivity|]. split; [reflexivity|].
      split; [apply PA; [exact PS|lia]|]. split; [apply PA; [exact PS'|lia]|]. reflexivity.
Qed.

Lemma forward_from_same ls : forall ls' n x g, Forall2 alike ls ls' -> chained n ls -> chained n ls' -> n <= len x ->
  exists rs rs', forward_from lm false ls x g = Ok (rs, g) /\ forward_from lm false ls' x g = Ok (rs', g) /\ map l_output rs = map l_output rs' /\ Forall2 passed ls rs /\ Forall2 passed ls' rs'.
Proof.
  induction ls as [|l r IH]; intros ls' n x g F C C' L; inversion F as [|? l' ? r' AL F' X Y]; subst.
  - exists [], []. cbn. auto.
  - destruct C as (S & NI & C). destruct C' as (S' & NI' & C'). destruct (forward_same l l' x g S S' AL ltac:(lia)) as (q & q' & E & E' & P & P' & O).
    pose proof (passed_sound l q S P) as SQ. destruct (sound_out q SQ) as (LO & _).
    assert (NO : l_n_outputs q = l_n_outputs l) by (destruct P as (st & out & -> & _); reflexivity).
    rewrite (al_out _ _ AL) in C'.
    destruct (IH r' (l_n_outputs l) (l_output q) g F' C C' ltac:(lia)) as (rs & rs' & E1 & E2 & O2 & P1 & P2).
    exists (q :: rs), (q' :: rs'). cbn [forward_from]. unfold bind, ret. rewrite E, E', <- O, E1, E2. cbn [map]. rewrite O, O2. split; [reflexivity|]. split; [reflexivity|]. split; [reflexivity|]. split; constructor; assumption.
Qed.
End Fwd.

(** ** Saving *)
Lemma sound_fits l : sound l -> layer_fits l.
Proof.
  intros [(T & C & TI & G & F)|(T & P)].
  - left. split; [exact T|]. destruct (weight_room l C G) as (W & O). destruct C, G. constructor; try assumption; lia.
  - right. right. split; [|destruct P; lia]. destruct T as [T|[T|T]]; rewrite T; unfold weightless; auto.
Qed.
Lemma sound_restored l : sound l -> sound (restored l) /\ alike l (restored l).
Proof.
  intros [(T & C & TI & G & F)|(T & P)]; unfold restored.
  - rewrite T, Z.eqb_refl. destruct C, G. split.
    + left. split; [reflexivity|]. split; [constructor; cbn [conn_restored l_n_inputs l_n_outputs l_n_weights l_n_biases l_state l_output l_biases l_bias_updates l_delta l_weights l_weight_updates l_active]; try assumption; try (apply zeros_len; lia)|].
      split; [exact TI|]. split; [constructor; assumption|exact F].
    + constructor; try reflexivity; [symmetry; exact T|intros _; repeat split|intros X; rewrite T in X; discriminate X].
  - destruct (plain_not _ T) as (-> & -> & _ & _ & _). destruct P. split.
    + right. split; [exact T|]. constructor; cbn [plain_restored l_n_inputs l_n_outputs l_output l_delta l_state l_type]; try assumption; try (apply zeros_len; lia).
      destruct T as [T|[T|T]]; [left; exact T|right|right]; unfold plain_restored; cbv zeta; cbn [l_state l_n_outputs]; rewrite T; apply zeros_len; lia.
    + constructor; try reflexivity; [intros X; rewrite X in T; destruct T as [Y|[Y|Y]]; discriminate Y|].
      intros X. unfold plain_restored. cbv zeta. cbn [l_scale]. rewrite X. reflexivity.
Qed.
Lemma chained_alike ls : forall ls' n, Forall2 alike ls ls' -> Forall sound ls' -> chained n ls -> chained n ls'.
Proof.
  induction ls as [|l r IH]; intros ls' n F S C; inversion F as [|? l' ? r' AL F' X Y]; subst; [exact I|]. inversion S; subst. destruct C as (_ & NI & C).
  split; [assumption|]. split; [rewrite (al_in _ _ AL); exact NI|]. rewrite (al_out _ _ AL). apply IH; assumption.
Qed.
Lemma room_alike ls : forall ls' cap, Forall2 alike ls ls' -> room cap ls -> room cap ls'.
Proof.
  induction ls as [|l r IH]; intros ls' cap F R; inversion F as [|? l' ? r' AL F' X Y]; subst; [exact I|]. cbn [room] in *.
  rewrite (al_type _ _ AL), (al_max _ _ AL). destruct (l_type l =? CONNECTED); (split; [apply R|apply IH; [exact F'|apply R]]).
Qed.
Lemma restored_all n : net_ok n -> Forall2 alike (nn_layers n) (map restored (nn_layers n)) /\ Forall sound (map restored (nn_layers n)).
Proof.
  intros (_ & C & _). apply chained_sound in C. induction C as [|l r S _ (IH1 & IH2)]; [split; constructor|].
  destruct (sound_restored l S). split; constructor; assumption.
Qed.

(** A network with chained, sound layers is written and read back as a network that is chained and
    sound too, and gives the same output for every input. *)
Lemma net_kept n : net_ok n -> faces n -> net_fits n /\ net_ok (net_restored n) /\ faces (net_restored n) /\
  nn_inputs (net_restored n) = nn_inputs n /\ nn_outputs (net_restored n) = nn_outputs n.
Proof.
  intros H (p & O & FO). destruct (restored_all n H) as (AL & SO). pose proof H as (NE & C & R). unfold net_fits, net_restored, of_layers, faces, out_layer, net_ok in *. cbn [nn_layers nn_inputs nn_outputs].
  destruct (nn_layers n) as [|l r] eqn:EL; [contradiction|].
  assert (I1 : l_n_inputs (restored l) = nn_inputs n) by (inversion AL as [|? ? ? ? X]; subst; rewrite (al_in _ _ X); apply C).
  split; [|split; [|split; [|split]]].
  - apply chained_sound in C. eapply Forall_impl; [|exact C]. exact sound_fits.
  - split; [discriminate|]. cbn [map]. cbn [map] in AL, SO. rewrite I1. split; [apply (chained_alike _ _ _ AL SO C)|apply (room_alike _ _ _ AL R)].
  - destruct (rev (map restored (l :: r))) as [|q t] eqn:X; [|exists q; auto]. rewrite <- map_rev in X. destruct (rev (l :: r)); discriminate.
  - exact I1.
  - rewrite <- map_rev. destruct (rev (l :: r)) as [|q t] eqn:X; [discriminate O|]. injection O as ->. cbn [map]. rewrite FO.
    assert (IN : In p (l :: r)) by (rewrite <- (rev_involutive (l :: r)), X, <- in_rev; left; reflexivity).
    apply chained_sound in C. apply (al_out p). apply sound_restored. exact (proj1 (Forall_forall _ _) C p IN).
Qed.
Lemma restored_same lm n x g : net_ok n -> faces n -> nn_inputs n <= len x -> exists a a',
  neural_propagate lm false n x g = Ok (a, g) /\ neural_propagate lm false (net_restored n) x g = Ok (a', g) /\
  forall i, 0 <= i < nn_outputs n -> exists y, neural_output a i = Ok y /\ neural_output a' i = Ok y.
Proof.
  intros H FA LX. destruct (restored_all n H) as (AL & SO). destruct (net_kept n H FA) as (_ & (_ & C' & _) & _ & NI & NO). pose proof H as (NE & C & R).
  rewrite NI in C'. change (nn_layers (net_restored n)) with (map restored (nn_layers n)) in C'.
  destruct (forward_from_same lm _ _ _ x g AL C C' LX) as (rs & rs' & E & E' & OUT & P & P').
  exists (with_layers n rs), (with_layers (net_restored n) rs'). unfold neural_propagate, bind, ret. change (nn_layers (net_restored n)) with (map restored (nn_layers n)).
  rewrite E, E'. split; [reflexivity|]. split; [reflexivity|]. intros i Hi.
  assert (NA : net_ok (with_layers n rs)).
  { apply net_same; [exact H| |].
    - eapply map_of_forall2; [|exact P]. intros a b X. apply content_dims. now apply passed_content.
    - apply chained_sound in C. clear -C P. induction P as [|a b l m X _ IH]; [constructor|]. inversion C; subst. constructor; [eapply passed_sound; eassumption|auto]. }
  assert (FB : faces (with_layers n rs)).
  { destruct FA as (p & O & Q). unfold faces, out_layer in *. cbn [nn_layers nn_outputs with_layers].
    assert (M : map (@l_n_outputs f64) rs = map (@l_n_outputs f64) (nn_layers n)) by (eapply map_of_forall2; [|exact P]; intros a b (st & out & -> & _); reflexivity).
    apply (f_equal (@rev Z)) in M. rewrite <- !map_rev in M. destruct (rev (nn_layers n)) as [|q t]; [discriminate O|]. injection O as ->.
    destruct (rev rs) as [|b u]; [discriminate M|]. injection M as M _. exists b. split; [reflexivity|]. now rewrite M. }
  destruct (output_ok _ i NA FB Hi) as (p & O & EO). eexists. split; [exact EO|].
  unfold neural_output in EO |- *. cbn [nn_layers nn_outputs with_layers] in EO |- *. rewrite NO.
  destruct ((i <? 0) || (nn_outputs n <=? i))%bool; [discriminate EO|].
  unfold out_layer in O. cbn [nn_layers with_layers] in O. rewrite <- EO. apply (f_equal (@rev _)) in OUT. rewrite <- !map_rev in OUT.
  destruct (rev rs) as [|q t]; [discriminate O|]. destruct (rev rs') as [|q' t']; [discriminate OUT|]. injection OUT as OUT _. now rewrite OUT.
Qed.
Lemma C34_network_lemma n : net_ok n -> faces n -> exists cells n',
  net_save n = Ok cells /\ (forall rest g, exists g', net_load (cells ++ rest) g = Ok (n', rest, g')) /\
  net_ok n' /\ faces n' /\ nn_inputs n' = nn_inputs n /\ nn_outputs n' = nn_outputs n /\
  forall lm x g, nn_inputs n <= len x -> exists a a',
    neural_propagate lm false n x g = Ok (a, g) /\ neural_propagate lm false n' x g = Ok (a', g) /\
    forall i, 0 <= i < nn_outputs n -> exists y, neural_output a i = Ok y /\ neural_output a' i = Ok y.
Proof.
  intros H FA. destruct (net_kept n H FA) as (F & H' & FA' & NI & NO). destruct (net_codec n F) as (cells & W & RD).
  exists cells, (net_restored n). repeat (split; [assumption|]). intros lm x g LX. apply restored_same; assumption.
Qed.
