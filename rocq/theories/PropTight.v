(** * What exported rules contain (C78), which layers are accepted (C76), mean sizes (C79). *)
From Coq Require Import ZArith Bool List String Ascii Lia.
From Verif Require Import Outcome F64 Rng Arr Sam Pop Clock Comp Layer Names Param Json ParJson RuleJson Stats PropStats.
From Verif Require Net.
Import ListNotations.
Open Scope string_scope.
Open Scope Z_scope.

Lemma same_length {X Y} (R : X -> Y -> Prop) l r : Forall2 R l r -> List.length l = List.length r.
Proof. induction 1; cbn [List.length]; congruence. Qed.

(** ** Rules *)
Section Rules.
Context {B : Type} (E : exports B) (K : cfg).
(** The number written as accuracy. *)
Definition accuracy_of (c : cl B) (a : f64) : Prop :=
  (fgt (c_err c) (E0 K) = false -> a = f1) /\
  (fgt (c_err c) (E0 K) = true -> a = fmax (fmul (ALPHA K) (m_pow (lm K) (fdiv (c_err c) (E0 K)) (fneg (NU K)))) dbl_epsilon).
(** A part: absent unless it is asked for. *)
Definition part_of (b : bool) (name : string) (o : outcome json) (l : list (string * json)) : Prop :=
  if b then exists j, o = Ok j /\ l = [(name, j)] else l = [].

Lemma member_part b name o l : member_if b name o = Ok l -> part_of b name o l.
Proof. unfold member_if, part_of. destruct b; [|congruence]. destruct o as [j| | |]; cbn [obind]; intros H; try discriminate H. exists j. split; congruence. Qed.
Lemma rd_nth_prefix (l : list f64) vs s m : Net.omap (fun i => rd l (Z.of_nat i)) (seq s m) = Ok vs -> vs = firstn m (skipn s l) /\ (s + List.length vs = s + m)%nat.
Proof.
  revert s vs. induction m as [|m IH]; intros s vs H; cbn [seq Net.omap] in H.
  - injection H as <-. split; reflexivity.
  - unfold rd in H at 1. destruct (Z.of_nat s <? 0) eqn:N; [apply Z.ltb_lt in N; lia|]. rewrite Nat2Z.id in H.
    destruct (nth_error l s) as [v|] eqn:V; cbn [obind] in H; [|discriminate H].
    destruct (Net.omap _ (seq (S s) m)) as [ws| | |] eqn:W; cbn [obind] in H; try discriminate H. injection H as <-.
    destruct (IH _ _ W) as [-> L]. cbn [List.length]. split; [|lia].
    apply nth_error_split in V. destruct V as (l1 & l2 & -> & L1). subst s.
    rewrite (skipn_app (List.length l1) l1), (skipn_all l1), Nat.sub_diag.
    rewrite (skipn_app (S (List.length l1)) l1), (skipn_all2 l1) by lia. replace (S (List.length l1) - List.length l1)%nat with 1%nat by lia. reflexivity.
Qed.
Lemma export_members cond act pred c j : cl_json_export E K cond act pred c = Ok j ->
  exists a p jc ja jp, accuracy_of c a /\ List.length p = Z.to_nat (y_dim K) /\ p = firstn (Z.to_nat (y_dim K)) (c_prediction c) /\
    part_of cond "condition" (ex_cond E (c_body c)) jc /\
    part_of (act && (1 <? n_actions K)) "action" (ex_act E (c_body c)) ja /\
    part_of pred "prediction" (ex_pred E (c_body c) (c_prediction c)) jp /\
    j = JObj ([("error", num (c_err c)); ("fitness", num (c_fit c)); ("accuracy", num a);
              ("set_size", num (c_size c)); ("numerosity", num (of_Z (c_num c))); ("experience", num (of_Z (c_exp c)));
              ("time", num (of_Z (c_time c))); ("samples_seen", num (of_Z (c_age c)));
              ("samples_matched", num (of_Z (c_mtotal c))); ("current_match", JBool (c_m c));
              ("current_action", num (of_Z (c_action c))); ("current_prediction", JArr (map num p))] ++ jc ++ ja ++ jp).
Proof.
  intros H. unfold cl_json_export, doubles in H.
  destruct (Net.omap _ (seq 0 _)) as [p| | |] eqn:P; cbn [obind] in H; try discriminate H.
  destruct (member_if cond _ _) as [jc| | |] eqn:C; cbn [obind] in H; try discriminate H.
  destruct (member_if (act && _) _ _) as [ja| | |] eqn:A; cbn [obind] in H; try discriminate H.
  destruct (member_if pred _ _) as [jp| | |] eqn:Q; cbn [obind] in H; try discriminate H.
  injection H as <-. destruct (rd_nth_prefix _ _ _ _ P) as [P1 P2]. cbn [skipn] in P1.
  exists (cl_acc K c), p, jc, ja, jp. split.
  { unfold accuracy_of, cl_acc. split; intros ->; reflexivity. }
  split; [lia|]. split; [exact P1|]. split; [exact (member_part _ _ _ _ C)|]. split; [exact (member_part _ _ _ _ A)|].
  split; [exact (member_part _ _ _ _ Q)|]. reflexivity.
Qed.
End Rules.

(** ** Layers *)
(** Every layer: if neurons evolve, at least one can be added; the initial number is within the maximum. *)
Definition sound_layer (a : larg2) : Prop :=
  (la_evolve_neurons (fst a) = true -> 1 <= la_grow (fst a)) /\ la_n_init (fst a) <= la_n_max (fst a).
(** The first layer has inputs. *)
Definition sound_first (a : larg2) : Prop :=
  if receives_images (la_type (fst a)) then 1 <= la_channels (fst a) /\ 1 <= la_height (fst a) /\ 1 <= la_width (fst a)
  else 1 <= la_n_inputs (fst a).
(** What validation leaves as it was. *)
Definition same_layer (a b : larg2) : Prop :=
  put_n_max (fst b) 0 = put_n_max (fst a) 0 /\ la_n_max (fst b) = Z.max (la_n_max (fst a)) (la_n_init (fst a)) /\ snd b = snd a.

Lemma validate_layer_ok a b : validate_layer a = Ok b -> forall z, sound_layer (b, z) /\ same_layer (a, z) (b, z).
Proof.
  unfold validate_layer, sound_layer, same_layer. intros H z. cbn [fst snd].
  destruct (la_evolve_neurons a && (la_grow a <? 1)) eqn:G; [discriminate H|]. injection H as <-.
  assert (G' : la_evolve_neurons a = true -> 1 <= la_grow a).
  { intros V. rewrite V in G. apply Z.ltb_ge in G. exact G. }
  destruct a; cbn in *. destruct (Z.ltb_spec la_n_max la_n_init); cbn; repeat split; try assumption; lia.
Qed.
Lemma validate_all l : forall r, Net.omap (fun a : larg2 => (b <- validate_layer (fst a) ;; Ok (b, snd a))%out) l = Ok r ->
  Forall sound_layer r /\ Forall2 same_layer l r.
Proof.
  induction l as [|[a z] l IH]; intros r H; cbn [Net.omap] in H; [injection H as <-; split; constructor|].
  cbn [fst snd] in H. destruct (validate_layer a) as [b| | |] eqn:V; cbn [obind] in H; try discriminate H.
  destruct (Net.omap _ l) as [r'| | |] eqn:R; cbn [obind] in H; try discriminate H. injection H as <-.
  destruct (IH _ eq_refl) as [F1 F2]. destruct (validate_layer_ok _ _ V z) as [S1 S2]. split; constructor; assumption.
Qed.
Lemma validate_inputs_ok a b : validate_inputs a = Ok b -> forall z, sound_first (b, z).
Proof.
  unfold validate_inputs, sound_first. intros H z. cbn [fst].
  match type of H with obind ?m ?k = _ => destruct m as [c| | |] eqn:M; cbn [obind] in H; try discriminate H end.
  destruct (receives_images (la_type c)) eqn:I.
  - destruct ((la_channels c <? 1) || (la_height c <? 1) || (la_width c <? 1)) eqn:G; [discriminate H|]. injection H as <-. rewrite I.
    apply orb_false_iff in G. destruct G as [G G3]. apply orb_false_iff in G. destruct G as [G1 G2].
    apply Z.ltb_ge in G1, G2, G3. repeat split; assumption.
  - destruct (Z.ltb_spec (la_n_inputs c) 1); [discriminate H|]. injection H as <-. rewrite I. assumption.
Qed.
Lemma same_keeps_first a b : same_layer a b -> sound_first a -> sound_first b.
Proof.
  destruct a as [a z], b as [b w]. unfold same_layer, sound_first. cbn [fst snd]. intros (S & _ & _).
  destruct a, b. cbn in *. injection S. intros. subst. assumption.
Qed.
Lemma layers_valid l r : layer_args_validate l = Ok r ->
  exists a s, r = a :: s /\ sound_first a /\ Forall sound_layer r /\
    List.length r = List.length l /\ Forall2 same_layer (tl l) s.
Proof.
  destruct l as [|[a z] l]; cbn [layer_args_validate]; intros H; [discriminate H|]. cbn [fst snd] in H.
  destruct (validate_inputs a) as [b| | |] eqn:V; cbn [obind] in H; try discriminate H.
  destruct (validate_all _ _ H) as [F1 F2]. pose proof (validate_inputs_ok _ _ V z) as S.
  inversion F2 as [|? c ? s S1 S2]; subst. exists c, s. split; [reflexivity|]. split; [exact (same_keeps_first _ _ S1 S)|].
  split; [exact F1|]. split; [|exact S2]. cbn [List.length]. f_equal. symmetry. exact (same_length _ _ _ S2).
Qed.
Lemma validate_same l : Forall sound_layer l -> Net.omap (fun a : larg2 => (b <- validate_layer (fst a) ;; Ok (b, snd a))%out) l = Ok l.
Proof.
  induction 1 as [|[b w] r [S1 S2] F IH]; cbn [Net.omap]; [reflexivity|]. cbn [fst snd] in *.
  unfold validate_layer at 1. replace (la_evolve_neurons b && (la_grow b <? 1)) with false.
  - apply Z.ltb_ge in S2. rewrite S2. cbn [obind]. rewrite IH. reflexivity.
  - destruct (la_evolve_neurons b); [|reflexivity]. specialize (S1 eq_refl). apply Z.ltb_ge in S1. rewrite S1. reflexivity.
Qed.
Lemma layers_same l : l <> [] -> Forall sound_layer l -> sound_first (hd layer_args_init l) ->
  la_type (fst (hd layer_args_init l)) <> DROPOUT -> la_type (fst (hd layer_args_init l)) <> NOISE -> layer_args_validate l = Ok l.
Proof.
  intros NE F S D N. destruct l as [|[a z] l]; [contradiction|]. cbn [hd fst] in *. cbn [layer_args_validate fst snd].
  assert (V : validate_inputs a = Ok a).
  { unfold validate_inputs. apply Z.eqb_neq in D, N. rewrite D, N. cbn [orb obind]. unfold sound_first in S. cbn [fst] in S.
    destruct (receives_images (la_type a)).
    - destruct S as (S1 & S2 & S3). apply Z.ltb_ge in S1, S2, S3. rewrite S1, S2, S3. reflexivity.
    - apply Z.ltb_ge in S. rewrite S. reflexivity. }
  rewrite V. cbn [obind]. exact (validate_same _ F).
Qed.
Lemma layers_rejected a z l : (la_evolve_neurons a = true -> la_grow a < 1 -> la_type a <> DROPOUT -> la_type a <> NOISE -> layer_args_validate [(a, z)] = Exit) /\
  layer_args_validate [] = Exit /\
  (la_type a <> DROPOUT -> la_type a <> NOISE -> ~ sound_first (a, z) -> layer_args_validate ((a, z) :: l) = Exit).
Proof.
  assert (V : la_type a <> DROPOUT -> la_type a <> NOISE -> validate_inputs a = if receives_images (la_type a)
   then if (la_channels a <? 1) || (la_height a <? 1) || (la_width a <? 1) then Exit else Ok a
   else if la_n_inputs a <? 1 then Exit else Ok a).
  { intros D N. unfold validate_inputs. apply Z.eqb_neq in D, N. rewrite D, N. reflexivity. }
  split; [|split; [reflexivity|]].
  - intros G1 G2 D N. cbn [layer_args_validate fst snd]. rewrite V by assumption.
    assert (X : validate_layer a = Exit) by (unfold validate_layer; rewrite G1; apply Z.ltb_lt in G2; rewrite G2; reflexivity).
    destruct (receives_images _); [destruct (_ || _)|destruct (_ <? 1)]; cbn [obind Net.omap fst]; try reflexivity; rewrite X; reflexivity.
  - intros D N S. cbn [layer_args_validate fst snd]. rewrite V by assumption. unfold sound_first in S. cbn [fst] in S.
    destruct (receives_images _).
    + destruct (Z.ltb_spec (la_channels a) 1); [reflexivity|]. destruct (Z.ltb_spec (la_height a) 1); [reflexivity|].
      destruct (Z.ltb_spec (la_width a) 1); [reflexivity|]. exfalso. apply S. repeat split; assumption.
    + destruct (Z.ltb_spec (la_n_inputs a) 1); [reflexivity|]. exfalso. apply S. assumption.
Qed.
(** What a document is read as. *)
Lemma layers_read x j r : layers_import x j = Ok r -> exists a s, r = a :: s /\ sound_first a /\ Forall sound_layer r /\ List.length r = List.length (children j).
Proof.
  unfold layers_import. destruct (geti x i_X_DIM) as [xd| | |]; cbn [obind]; intros H; try discriminate H.
  match type of H with obind ?m ?k = _ => destruct m as [l| | |] eqn:M; cbn [obind] in H; try discriminate H end.
  destruct (layers_valid _ _ H) as (a & s & -> & S1 & S2 & L & _). exists a, s. split; [reflexivity|]. split; [exact S1|]. split; [exact S2|].
  rewrite L. clear -M. revert l M. induction (children j) as [|e es IH]; intros l M; cbn [Net.omap] in M; [injection M as <-; reflexivity|].
  match type of M with obind ?m ?k = _ => destruct m as [b| | |]; cbn [obind] in M; try discriminate M end.
  match type of M with obind ?m ?k = _ => destruct m as [bs| | |]; cbn [obind] in M; try discriminate M end.
  injection M as <-. cbn [List.length]. f_equal. apply IH. reflexivity.
Qed.

(** ** Mean sizes *)
Lemma mean_part_sizes {B} (V : vtab B) set s cs vs ws : holds s set cs -> vs <> [] -> Z.of_nat (List.length vs) < 2 ^ 31 ->
  Forall2 (fun c v => v_cond_size V (c_body c) = of_Z v) cs vs -> Forall (Z.le 0) vs -> total vs <= 2 ^ 53 ->
  Forall2 (fun c v => v_pred_size V (c_body c) = of_Z v) cs ws -> Forall (Z.le 0) ws -> total ws <= 2 ^ 53 ->
  (exists r, clset_mean_cond_size V set s = Ok (r, s) /\ mean_of vs r) /\ (exists r, clset_mean_pred_size V set s = Ok (r, s) /\ mean_of ws r).
Proof.
  intros H NE L F N T F' N' T'. assert (LW : List.length ws = List.length vs).
  { pose proof (same_length _ _ _ F) as A1. pose proof (same_length _ _ _ F') as A2. congruence. }
  split.
  - apply (mean_sizes_ok (cl_cond_size V) set s cs vs); assumption.
  - apply (mean_sizes_ok (cl_pred_size V) set s cs ws); try assumption; [|rewrite LW; exact L].
    intros ->. destruct vs; [contradiction|discriminate LW].
Qed.
