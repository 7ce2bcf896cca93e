(** * Growing and converting networks (C72). *)
From Coq Require Import ZArith Bool List Lia.
From Verif Require Import Outcome F64 F64Facts Rng RngFacts Sam SamFacts Arr ArrFacts Pop PopSpec PopInv Blas BlasFacts Clock Comp Dgp DgpFacts Act Image Layer LayerFacts MutFacts UpdFacts PropMut Net NetFacts NetLayer NetChain PropFlag Expand.
From Verif Require Llist LlistFacts PropList PropNet.
Import ListNotations.
Open Scope Z_scope.

(** ** Lists of layers *)
(** The most outputs the last of the layers can come to have. *)
Fixpoint caps (cap : Z) (ls : list (layer f64)) : Z :=
  match ls with [] => cap | l :: r => caps (if l_type l =? CONNECTED then l_max_outputs l else cap) r end.
Lemma chained_app a : forall n b, chained n (a ++ b) <-> chained n a /\ chained (last_out n a) b.
Proof. induction a as [|l r IH]; intros n b; cbn [app chained last_out]; [tauto|]. rewrite IH. tauto. Qed.
Lemma room_app a : forall cap b, room cap (a ++ b) <-> room cap a /\ room (caps cap a) b.
Proof. induction a as [|l r IH]; intros cap b; cbn [app room caps]; [tauto|]. destruct (l_type l =? CONNECTED); rewrite IH; tauto. Qed.
Lemma caps_app a : forall cap b, caps cap (a ++ b) = caps (caps cap a) b.
Proof. induction a as [|l r IH]; intros cap b; cbn [app caps]; [reflexivity|apply IH]. Qed.
Lemma last_out_app a : forall n b, last_out n (a ++ b) = last_out (last_out n a) b.
Proof. induction a as [|l r IH]; intros n b; cbn [app last_out]; [reflexivity|apply IH]. Qed.
Lemma caps_bound ls : forall n cap, chained n ls -> 1 <= n <= cap -> 1 <= last_out n ls <= caps cap ls.
Proof.
  induction ls as [|l r IH]; intros n cap C N; cbn [last_out caps]; [exact N|]. destruct C as (S & NI & C). apply IH; [exact C|].
  destruct (sound_pos l S) as (_ & P). destruct (out_of l S cap ltac:(lia)) as [(E & B)|(E & B)]; rewrite E; lia.
Qed.
Lemma chained_fits ls : forall n (lm : libm) fuel prev g, chained n ls -> match prev with None => True | Some p => l_n_outputs p = n end ->
  resize_from lm fuel prev ls g = Ok (ls, g).
Proof.
  induction ls as [|l r IH]; intros n lm fuel prev g C HP; cbn [resize_from]; [reflexivity|]. destruct C as (S & NI & C).
  assert (E : (match prev with Some p => if l_n_inputs l =? l_n_outputs p then ret l else layer_resize lm fuel l p | None => ret l end) g = Ok (l, g)).
  { destruct prev as [p|]; [|reflexivity]. rewrite NI, HP, Z.eqb_refl. reflexivity. }
  unfold bind at 1. rewrite E. unfold bind. rewrite (IH (l_n_outputs l) lm fuel (Some l) g C eq_refl). reflexivity.
Qed.

(** ** A new layer *)
(** Everything that is copied from the parameters of the layer. *)
Definition given (l : layer f64) := (l_function l, l_grow l, (l_eta_max l, l_eta_min l), (l_momentum l, l_decay l)).
Lemma malloc_given l l' : connected_malloc l = Ok l' -> given l' = given l.
Proof.
  unfold connected_malloc. intros E. destruct (layer_guard_outputs l); try discriminate E. cbn [obind] in E. destruct (layer_guard_weights l); try discriminate E.
  cbn [obind] in E. injection E as <-. reflexivity.
Qed.
Lemma eta_given l : ens (layer_init_eta l) (fun l' => given l' = given l).
Proof.
  unfold layer_init_eta. destruct (has l EVOLVE_ETA); [|apply ens_ret; reflexivity]. eapply ens_bind; [apply ens_any|]. intros e _. apply ens_ret. reflexivity.
Qed.
Lemma init_given (lm : libm) a : la_type a = CONNECTED ->
  ens (layer_init lm a) (fun l => given l = (la_function a, la_grow a, (la_eta a, la_eta_min a), (la_momentum a, la_decay a))).
Proof.
  intros T. unfold layer_init. rewrite T, Z.eqb_refl. unfold connected_init. eapply ens_bind; [apply ens_any|]. intros nw _. cbv zeta.
  eapply ens_bind; [apply eta_given|]. intros l1 E1. eapply ens_bind; [apply ens_lift; intros l2 E2; exact (malloc_given _ _ E2)|]. intros l2 E2.
  eapply ens_bind; [apply ens_any|]. intros w _. eapply ens_bind; [apply ens_any|]. intros mu _. apply ens_ret.
  transitivity (given l2); [reflexivity|]. rewrite E2, E1. reflexivity.
Qed.
Lemma init_softmax (lm : libm) a : la_type a = SOFTMAX -> ens (layer_init lm a) (fun l => l_scale l = la_scale a).
Proof.
  intros T. unfold layer_init. rewrite T. change (SOFTMAX =? CONNECTED) with false. change (SOFTMAX =? DROPOUT) with false. change (SOFTMAX =? NOISE) with false.
  rewrite Z.eqb_refl. cbv iota. apply ens_lift. intros l E. unfold softmax_init, plain_malloc in E. destruct (layer_guard_outputs _); try discriminate E.
  cbn [obind] in E. change (l_type (set_scale (la_scale a) (set_n_inputs (la_n_inputs a) (set_n_outputs (la_n_inputs a)
    (set_max_outputs (la_n_inputs a) (set_out_w (la_n_inputs a) (set_out_c 1 (set_out_h 1 (set_type SOFTMAX layer_defaults)))))))))  with SOFTMAX in E.
  injection E as <-. reflexivity.
Qed.

(** The new layers have the options and learning rates of [a], but their neurons never evolve. *)
Definition like_args (a : largs) (f : Z) (ef : bool) (l : layer f64) : Prop :=
  l_type l = CONNECTED /\ l_function l = f /\
  l_eta_max l = la_eta a /\ l_eta_min l = la_eta_min a /\ l_momentum l = la_momentum a /\ l_decay l = la_decay a /\
  has l EVOLVE_WEIGHTS = la_evolve_weights a /\ has l EVOLVE_NEURONS = false /\ has l EVOLVE_FUNCTIONS = ef /\
  has l EVOLVE_ETA = la_evolve_eta a /\ has l EVOLVE_CONNECT = la_evolve_connect a /\ has l SGD_WEIGHTS = la_sgd_weights a.
Lemma new_layer (lm : libm) a f ni no mx ef cap g : 0 <= f < NUM_ACTIVATIONS -> 1 <= no <= mx -> mx <= N_OUTPUTS_MAX -> mx * cap <= N_WEIGHTS_MAX -> 1 <= ni <= cap ->
  exists l g', layer_init lm (new_args a f ni no mx ef) g = Ok (l, g') /\ sound l /\ l_n_inputs l = ni /\ l_n_outputs l = no /\ l_max_outputs l = mx /\ like_args a f ef l.
Proof.
  intros H1 H2 H3 H4 H5.
  assert (AO : arg_ok cap (new_args a f ni no mx ef)) by (left; cbn; repeat split; lia).
  destruct (init_ok (fun _ => True) lm _ (src_any lm) cap _ AO H5 g Logic.I) as (l & g' & E & _ & S & T & NI & NO & MX & OP).
  exists l, g'. split; [exact E|]. split; [exact S|]. split; [exact NI|]. split; [exact NO|]. split; [now apply MX|].
  pose proof (init_given lm (new_args a f ni no mx ef) eq_refl _ _ _ E) as GI. unfold given in GI. injection GI as G1 G2 G3 G4 G5 G6.
  specialize (OP T). unfold like_args, has. rewrite OP. repeat (split; [assumption|]).
  unfold layer_args_opt, new_args. cbn [la_evolve_weights la_evolve_neurons la_evolve_functions la_evolve_eta la_evolve_connect la_sgd_weights].
  destruct (la_evolve_weights a), ef, (la_evolve_eta a), (la_evolve_connect a), (la_sgd_weights a); repeat split.
Qed.

Lemma rev_two {X} (pre : list X) h o : rev (pre ++ [h; o]) = o :: h :: rev pre.
Proof. rewrite rev_app_distr. reflexivity. Qed.
Lemma C72_expand_lemma (lm : libm) (fuel : nat) (a : largs) (n : nn f64) pre h out (g : rng) :
  net_ok n -> faces n -> nn_layers n = pre ++ [h; out] -> 0 <= la_function a < NUM_ACTIVATIONS ->
  l_n_outputs h <= l_max_outputs h <= caps (nn_inputs n) (pre ++ [h]) -> l_max_outputs h <= N_OUTPUTS_MAX ->
  l_max_outputs h * caps (nn_inputs n) (pre ++ [h]) <= N_WEIGHTS_MAX ->
  exists l g', let n' := mkNn (pre ++ [h; l; out]) (nn_inputs n) (nn_outputs n) in
    pred_neural_expand lm fuel a n g = Ok (n', g') /\ net_ok n' /\ faces n' /\
    l_n_inputs l = l_n_outputs h /\ l_n_outputs l = l_n_outputs h /\ l_max_outputs l = l_max_outputs h /\ like_args a (la_function a) (la_evolve_functions a) l.
Proof.
  intros (_ & C & R) F EL FA HM HO HW. rewrite EL in C, R.
  assert (N1 : 1 <= nn_inputs n) by (destruct pre as [|l0 r0]; cbn [app] in C; destruct C as (S & <- & _); apply sound_pos in S; tauto).
  change [h; out] with ([h] ++ [out]) in C, R. rewrite app_assoc in C, R.
  apply chained_app in C. destruct C as (CP & CO). apply room_app in R. destruct R as (RP & RO).
  pose proof (caps_bound _ _ (nn_inputs n) CP ltac:(lia)) as CB. rewrite last_out_app in CB, CO. cbn [last_out] in CB, CO.
  unfold pred_neural_expand. rewrite EL, rev_two. cbv beta iota. unfold bind at 1, ret. cbn [fst snd].
  destruct (new_layer lm a (la_function a) (l_n_outputs h) (l_n_outputs h) (l_max_outputs h) (la_evolve_functions a) (caps (nn_inputs n) (pre ++ [h])) g)
    as (l & g' & E & S & NI & NO & MX & LA); try lia.
  exists l, g'. cbv zeta. unfold bind at 1. rewrite E.
  assert (EI : insert_layer n l (Z.of_nat (length (pre ++ [h; out])) - 1) = Ok (mkNn (pre ++ [h; l; out]) (nn_inputs n) (nn_outputs n))).
  { unfold insert_layer. rewrite EL. replace (match pre ++ [h; out] with [] => Ok (mkNn [l] (l_n_inputs l) (l_n_outputs l)) | _ :: _ => _ end) with
      (if Z.of_nat (length (pre ++ [h; out])) - 1 <=? 0 then UB NullDeref else Ok (mkNn (firstn (Z.to_nat (Z.of_nat (length (pre ++ [h; out])) - 1)) (pre ++ [h; out]) ++ l :: skipn (Z.to_nat (Z.of_nat (length (pre ++ [h; out])) - 1)) (pre ++ [h; out]))
        (nn_inputs n) (if Z.of_nat (length (pre ++ [h; out])) <=? Z.of_nat (length (pre ++ [h; out])) - 1 then l_n_outputs l else nn_outputs n))) by (destruct pre; reflexivity).
    rewrite app_length. cbn [length]. destruct (Z.leb_spec (Z.of_nat (length pre + 2) - 1) 0); [lia|]. destruct (Z.leb_spec (Z.of_nat (length pre + 2)) (Z.of_nat (length pre + 2) - 1)); [lia|].
    replace (Z.to_nat (Z.of_nat (length pre + 2) - 1)) with (length (pre ++ [h]) + 0)%nat by (rewrite app_length; cbn [length]; lia).
    change [h; out] with ([h] ++ [out]). rewrite app_assoc, firstn_app_2, skipn_app, skipn_all2 by lia. cbn [firstn].
    replace (length (pre ++ [h]) + 0 - length (pre ++ [h]))%nat with 0%nat by lia. cbn [skipn app]. rewrite app_nil_r, <- app_assoc. reflexivity. }
  unfold bind at 1, lift. rewrite EI.
  assert (CN : chained (nn_inputs n) ((pre ++ [h]) ++ [l; out])).
  { apply chained_app. split; [exact CP|]. rewrite last_out_app. cbn [last_out chained]. split; [exact S|]. split; [exact NI|]. rewrite NO. exact CO. }
  split.
  { unfold neural_resize, bind. cbn [nn_layers]. replace (pre ++ [h; l; out]) with ((pre ++ [h]) ++ [l; out]) by (rewrite <- app_assoc; reflexivity).
    rewrite (chained_fits _ (nn_inputs n)) by (exact CN || exact Logic.I). reflexivity. }
  split.
  { split; [destruct pre; discriminate|]. cbn [nn_layers nn_inputs]. replace (pre ++ [h; l; out]) with ((pre ++ [h]) ++ [l; out]) by (rewrite <- app_assoc; reflexivity).
    split; [exact CN|]. apply room_app. split; [exact RP|]. cbn [room]. destruct LA as (LT & _). rewrite LT, Z.eqb_refl, MX. split; [exact HW|].
    cbn [room] in RO. destruct CO as (SO & _). destruct (Z.eqb_spec (l_type out) CONNECTED) as [X|X]; (split; [|exact Logic.I]); [|lia].
    assert (1 <= l_max_outputs out) by (destruct SO as [(_ & _ & _ & G & _)|(Y & _)]; [destruct G; lia|rewrite X in Y; destruct Y as [Y|[Y|Y]]; discriminate Y]). nia. }
  split; [|tauto]. destruct F as (p & O & E'). exists p. split; [|exact E']. unfold out_layer in *. rewrite EL, rev_two in O. injection O as <-. cbn [nn_layers].
  replace (pre ++ [h; l; out]) with ((pre ++ [h]) ++ [l; out]) by (rewrite <- app_assoc; reflexivity). rewrite rev_two. reflexivity.
Qed.
(** A network of one layer: the new layer is inserted at position 0. *)
Lemma C72_refuted_single_lemma (lm : libm) (fuel : nat) (a : largs) (n : nn f64) o (g : rng) :
  net_ok n -> nn_layers n = [o] -> l_type o = CONNECTED -> 0 <= la_function a < NUM_ACTIVATIONS ->
  pred_neural_expand lm fuel a n g = UB NullDeref.
Proof.
  intros (_ & C & R) EL T FA. rewrite EL in C, R. destruct C as (S & NI & _). cbn [room] in R. rewrite T, Z.eqb_refl in R. destruct R as (R & _).
  assert (G : growable o) by (destruct S as [(_ & _ & _ & G & _)|(Y & _)]; [exact G|rewrite T in Y; destruct Y as [Y|[Y|Y]]; discriminate Y]).
  destruct G as [G1 G2 G3 G4 _ _].
  unfold pred_neural_expand. rewrite EL. cbn [rev app]. cbv beta iota. unfold bind at 1, ret. cbn [fst snd].
  destruct (new_layer lm a (la_function a) (l_n_inputs o) (l_n_outputs o) (l_max_outputs o) (la_evolve_functions a) (l_n_inputs o) g)
    as (l & g' & E & _); try lia.
  unfold bind at 1. rewrite E. unfold bind, lift, insert_layer. rewrite EL. reflexivity.
Qed.

(** ** Converting *)
Definition kept (n_del : Z) (ls : list (layer f64)) : list (layer f64) := firstn (Nat.max 1 (length ls - Z.to_nat n_del)) ls.
Lemma faces_out (n : nn f64) : nn_layers n <> [] -> (faces n <-> nn_outputs n = last_out 0 (nn_layers n)).
Proof.
  intros N. unfold faces, out_layer. rewrite last_out_spec. destruct (rev (nn_layers n)) as [|p r] eqn:X.
  - apply (f_equal (@rev _)) in X. rewrite rev_involutive in X. contradiction.
  - split; [intros (q & E & H); injection E as <-; exact H|intros H; exists p; auto].
Qed.
Lemma last_out_any m n ls : ls <> [] -> last_out m ls = last_out n ls.
Proof. destruct ls; [contradiction|reflexivity]. Qed.
Lemma pop_ok k : forall n, nn_layers n <> [] -> nn_outputs n = last_out 0 (nn_layers n) ->
  exists ls, pop_layers k n = Ok (mkNn ls (nn_inputs n) (last_out 0 ls)) /\ ls = firstn (Nat.max 1 (length (nn_layers n) - k)) (nn_layers n).
Proof.
  induction k as [|k IH]; intros n N O; cbn [pop_layers].
  - eexists. split; [|reflexivity]. replace (length (nn_layers n) - 0)%nat with (length (nn_layers n)) by lia.
    rewrite Nat.max_r by (destruct (nn_layers n); [contradiction|cbn; lia]). rewrite firstn_all, <- O. destruct n; reflexivity.
  - destruct (Z.ltb_spec 1 (Z.of_nat (length (nn_layers n)))) as [L|L].
    + unfold pop_layer. destruct (rev (nn_layers n)) as [|q [|p r]] eqn:X.
      * apply (f_equal (@length _)) in X. rewrite rev_length in X. cbn in X. lia.
      * apply (f_equal (@length _)) in X. rewrite rev_length in X. cbn in X. lia.
      * cbn [obind]. assert (EL : nn_layers n = rev (p :: r) ++ [q]) by (rewrite <- (rev_involutive (nn_layers n)), X; reflexivity).
        destruct (IH (mkNn (rev (p :: r)) (nn_inputs n) (l_n_outputs p))) as (ls & E & EQ).
        { cbn [nn_layers rev]. destruct (rev r); discriminate. }
        { cbn [nn_layers nn_outputs]. rewrite last_out_spec, rev_involutive. reflexivity. }
        exists ls. split; [exact E|]. rewrite EQ. cbn [nn_layers]. rewrite EL, app_length, firstn_app.
        assert (1 <= length (rev (p :: r)))%nat by (rewrite rev_length; cbn; lia). cbn [length].
        replace (Nat.max 1 (length (rev (p :: r)) + 1 - S k)) with (Nat.max 1 (length (rev (p :: r)) - k)) by lia.
        replace (Nat.max 1 (length (rev (p :: r)) - k) - length (rev (p :: r)))%nat with 0%nat by lia. cbn [firstn]. now rewrite app_nil_r.
    + exists (nn_layers n). assert (L1 : length (nn_layers n) = 1%nat) by (destruct (nn_layers n) as [|? [|]]; [contradiction|reflexivity|cbn in L; lia]).
      split; [rewrite <- O; destruct n; reflexivity|]. rewrite L1. destruct (nn_layers n) as [|x [|]]; [contradiction| |discriminate]. reflexivity.
Qed.
Lemma push_ok n l : nn_layers n <> [] -> push_layer n l = Ok (mkNn (nn_layers n ++ [l]) (nn_inputs n) (l_n_outputs l)).
Proof.
  intros N. unfold push_layer, insert_layer. destruct (nn_layers n) as [|x r] eqn:E; [contradiction|]. rewrite <- E in *.
  destruct (Z.leb_spec (Z.of_nat (length (nn_layers n))) 0) as [X|X]; [rewrite E in X; cbn in X; lia|]. rewrite Z.leb_refl, Nat2Z.id, firstn_all, skipn_all. reflexivity.
Qed.
Lemma C72_classifier_lemma (lm : libm) (a : largs) (y n_del : Z) (n : nn f64) (g : rng) :
  net_ok n -> faces n -> 1 <= y <= N_OUTPUTS_MAX -> y * caps (nn_inputs n) (kept n_del (nn_layers n)) <= N_WEIGHTS_MAX ->
  exists l s g', let n' := mkNn (kept n_del (nn_layers n) ++ [l; s]) (nn_inputs n) y in
    pred_neural_ae_to_classifier lm a y n_del n g = Ok (n', g') /\ net_ok n' /\ faces n' /\
    l_n_outputs l = y /\ l_max_outputs l = y /\ like_args a LINEAR false l /\
    l_type s = SOFTMAX /\ l_n_outputs s = y /\ l_scale s = f1.
Proof.
  intros (N & C & R) F HY HW. set (ks := kept n_del (nn_layers n)) in *.
  assert (NK : ks <> []).
  { unfold ks, kept. destruct (nn_layers n) as [|x r]; [contradiction|]. destruct (Nat.max 1 (length (x :: r) - Z.to_nat n_del)) eqn:M; [lia|]. discriminate. }
  assert (SP : exists rest, nn_layers n = ks ++ rest) by (eexists; symmetry; apply firstn_skipn).
  destruct SP as (rest & SP). rewrite SP in C, R. apply chained_app in C. apply room_app in R. destruct C as (C & _). destruct R as (R & _).
  assert (N1 : 1 <= nn_inputs n) by (destruct ks as [|l0 r0]; [contradiction|]; destruct C as (S & <- & _); apply sound_pos in S; tauto).
  pose proof (caps_bound _ _ (nn_inputs n) C ltac:(lia)) as CB. rewrite (last_out_any _ 0) in CB by exact NK.
  unfold pred_neural_ae_to_classifier.
  destruct (pop_ok (Z.to_nat n_del) n N (proj1 (faces_out n N) F)) as (ls & EP & EQ). change (ls = ks) in EQ. subst ls.
  unfold bind at 1, lift at 1. rewrite EP. cbv zeta. cbn [nn_outputs].
  assert (LIN : 0 <= LINEAR < NUM_ACTIVATIONS) by (unfold LINEAR, NUM_ACTIVATIONS; lia).
  destruct (new_layer lm a LINEAR (last_out 0 ks) y y false (caps (nn_inputs n) ks) g LIN) as (l & g1 & E1 & S1 & NI1 & NO1 & MX1 & LA1); try lia.
  set (c := new_args a LINEAR (last_out 0 ks) y y false) in *. unfold bind at 1. rewrite E1. unfold bind at 1, lift at 1. rewrite push_ok by exact NK. cbn [nn_layers nn_inputs].
  assert (AO : arg_ok y (softmax_args y c)) by (right; split; [left; reflexivity|lia]).
  destruct (init_ok (fun _ => True) lm _ (src_any lm) y _ AO ltac:(cbn; lia) g1 Logic.I) as (s & g2 & E2 & _ & S2 & T2 & NI2 & NO2 & _).
  change (la_type (softmax_args y c)) with SOFTMAX in T2. change (la_n_inputs (softmax_args y c)) with y in NI2. change (arg_outputs (la_n_inputs (softmax_args y c)) (softmax_args y c)) with y in NO2.
  pose proof (init_softmax lm (softmax_args y c) eq_refl _ _ _ E2) as SC. change (l_scale s = f1) in SC.
  exists l, s, g2. cbv zeta. split.
  { unfold bind. rewrite E2. unfold lift. rewrite push_ok by (cbn [nn_layers]; destruct ks; discriminate). cbn [nn_layers nn_inputs]. rewrite NO2, <- app_assoc. reflexivity. }
  destruct LA1 as (LT & LA). split.
  { split; [destruct ks; discriminate|]. cbn [nn_layers nn_inputs]. split.
    - apply chained_app. split; [exact C|]. rewrite (last_out_any _ 0) by exact NK. cbn [chained]. repeat (split; [congruence || assumption|]). exact Logic.I.
    - apply room_app. split; [exact R|]. cbn [room]. rewrite LT, T2, Z.eqb_refl. change (SOFTMAX =? CONNECTED) with false. rewrite MX1. cbv iota. repeat split; lia. }
  split; [exists s; unfold out_layer; cbn [nn_layers nn_outputs]; rewrite rev_two; auto|].
  unfold like_args. tauto.
Qed.

(** ** The population *)
Section Walk.
Context {C A : Type} (K : cfg).
Notation B := (payload C A (nn f64)).
(** A rule that keeps everything but its prediction and starts anew. *)
Definition renewed (t : Z) (c c' : cl B) : Prop :=
  c_fit c' = INIT_FITNESS K /\ c_err c' = INIT_ERROR K /\ c_exp c' = 0 /\ c_time c' = t /\
  c_num c' = c_num c /\ c_size c' = c_size c /\ c_m c' = c_m c /\ c_action c' = c_action c /\ c_age c' = c_age c /\ c_mtotal c' = c_mtotal c /\
  y_cond (c_body c') = y_cond (c_body c) /\ y_act (c_body c') = y_act (c_body c).
Definition walk_step (f : nn f64 -> RM (nn f64)) (h : cl B -> cl B) (i : loc) : M B unit :=
  (c <~ get i ;; b <~ mrand (on_pred f (c_body c)) ;; t <~ mget s_time ;; put i (forget K t (set_body b (h c))))%m.
Lemma walk_ok (f : nn f64 -> RM (nn f64)) (h : cl B -> cl B) (P : nn f64 -> Prop) (Q : nn f64 -> nn f64 -> Prop) :
  (forall n g, P n -> exists n' g', f n g = Ok (n', g') /\ Q n n') ->
  forall ls s, NoDup ls -> (forall i, In i ls -> exists c n, s_heap s i = Some c /\ y_pred (c_body c) = Some n /\ P n) ->
  exists hp g', miter (walk_step f h) ls s = Ok (tt, with_rng g' (with_heap hp (s_next s) s)) /\
    (forall i, ~ In i ls -> hp i = s_heap s i) /\
    (forall i, In i ls -> exists c n n', s_heap s i = Some c /\ y_pred (c_body c) = Some n /\ Q n n' /\
       hp i = Some (forget K (s_time s) (set_body (set_pred (c_body c) n') (h c)))).
Proof.
  intros F. induction ls as [|i r IH]; intros s ND H.
  - exists (s_heap s), (s_rng s). split; [destruct s; reflexivity|]. split; [reflexivity|]. intros i [].
  - inversion ND as [|? ? NI ND']; subst. destruct (H i (or_introl eq_refl)) as (c & n & HC & HN & HP). destruct (F n (s_rng s) HP) as (n' & g1 & E & HQ).
    set (c' := forget K (s_time s) (set_body (set_pred (c_body c) n') (h c))).
    set (s1 := with_rng g1 (with_heap (upd (s_heap s) i (Some c')) (s_next s) s)).
    assert (ST : walk_step f h i s = Ok (tt, s1)).
    { unfold walk_step, mbind, get. rewrite HC. unfold mrand, on_pred, bind, need. rewrite HN. unfold ret. rewrite E. unfold mget, put. cbn [s_heap s_time with_rng]. rewrite HC. reflexivity. }
    destruct (IH s1 ND') as (hp & g2 & E2 & O2 & I2).
    { intros j J. assert (j <> i) by (intros ->; contradiction). destruct (H j (or_intror J)) as (c2 & n2 & X). exists c2, n2.
      change (s_heap s1 j) with (upd (s_heap s) i (Some c') j). rewrite upd_ne by assumption. exact X. }
    exists hp, g2. split; [|split].
    + cbn [miter]. unfold mbind. rewrite ST, E2. reflexivity.
    + intros j J. rewrite O2 by (intros X; apply J; right; exact X). change (s_heap s1 j) with (upd (s_heap s) i (Some c') j). apply upd_ne. intros ->. apply J. left. reflexivity.
    + intros j [<-|J].
      * exists c, n, n'. split; [exact HC|]. split; [exact HN|]. split; [exact HQ|]. rewrite O2 by exact NI. change (s_heap s1 i) with (upd (s_heap s) i (Some c') i). apply upd_eq.
      * destruct (I2 j J) as (c2 & n2 & n3 & X1 & X2 & X3 & X4). assert (j <> i) by (intros ->; contradiction).
        change (s_heap s1 j) with (upd (s_heap s) i (Some c') j) in X1. rewrite upd_ne in X1 by assumption. exists c2, n2, n3. auto.
Qed.
End Walk.

(** Networks with a hidden layer and room for another. *)
Definition expandable (n : nn f64) : Prop :=
  net_ok n /\ faces n /\ exists pre h out, nn_layers n = pre ++ [h; out] /\
    l_n_outputs h <= l_max_outputs h <= caps (nn_inputs n) (pre ++ [h]) /\ l_max_outputs h <= N_OUTPUTS_MAX /\
    l_max_outputs h * caps (nn_inputs n) (pre ++ [h]) <= N_WEIGHTS_MAX.
Definition expanded (a : largs) (n n' : nn f64) : Prop :=
  net_ok n' /\ faces n' /\ nn_inputs n' = nn_inputs n /\ nn_outputs n' = nn_outputs n /\
  exists pre h l out, nn_layers n = pre ++ [h; out] /\ nn_layers n' = pre ++ [h; l; out] /\
    l_n_inputs l = l_n_outputs h /\ l_n_outputs l = l_n_outputs h /\ l_max_outputs l = l_max_outputs h /\
    like_args a (la_function a) (la_evolve_functions a) l.
Lemma C72_pred_expand_lemma (C A : Type) (K : cfg) (a : largs) (s : st (payload C A (nn f64))) :
  NoDup (set_list (s_pset s)) -> 0 <= la_function a < NUM_ACTIVATIONS ->
  (forall i, In i (set_list (s_pset s)) -> exists c n, s_heap s i = Some c /\ y_pred (c_body c) = Some n /\ expandable n) ->
  exists hp g', xcsf_pred_expand K a s = Ok (tt, with_rng g' (with_heap hp (s_next s) s)) /\
    (forall i, ~ In i (set_list (s_pset s)) -> hp i = s_heap s i) /\
    (forall i, In i (set_list (s_pset s)) -> exists c n c' n', s_heap s i = Some c /\ y_pred (c_body c) = Some n /\
       hp i = Some c' /\ y_pred (c_body c') = Some n' /\ renewed K (s_time s) c c' /\ c_prediction c' = c_prediction c /\ expanded a n n').
Proof.
  intros ND FA H. unfold xcsf_pred_expand.
  destruct (walk_ok (C := C) (A := A) K (pred_neural_expand (Pop.lm K) (loop_fuel K) a) (fun c => c) expandable (expanded a)) with (ls := set_list (s_pset s)) (s := s)
    as (hp & g' & E & O & I2); [|exact ND|exact H|].
  { intros n g (N & F & pre & h & out & EL & H1 & H2 & H3).
    destruct (C72_expand_lemma (Pop.lm K) (loop_fuel K) a n pre h out g N F EL FA H1 H2 H3) as (l & g1 & X & X1 & X2 & X3 & X4 & X5 & X6).
    eexists _, g1. split; [exact X|]. split; [exact X1|]. split; [exact X2|]. split; [reflexivity|]. split; [reflexivity|]. exists pre, h, l, out. auto 8. }
  exists hp, g'. split; [exact E|]. split; [exact O|]. intros i J. destruct (I2 i J) as (c & n & n' & X1 & X2 & X3 & X4).
  eexists c, n, _, n'. split; [exact X1|]. split; [exact X2|]. split; [exact X4|]. split; [reflexivity|]. split; [repeat split|]. split; [reflexivity|exact X3].
Qed.

Definition convertible (y n_del : Z) (n : nn f64) : Prop :=
  net_ok n /\ faces n /\ y * caps (nn_inputs n) (kept n_del (nn_layers n)) <= N_WEIGHTS_MAX.
Definition converted (a : largs) (y n_del : Z) (n n' : nn f64) : Prop :=
  net_ok n' /\ faces n' /\ nn_inputs n' = nn_inputs n /\ nn_outputs n' = y /\
  exists l s, nn_layers n' = kept n_del (nn_layers n) ++ [l; s] /\ l_n_outputs l = y /\ like_args a LINEAR false l /\
    l_type s = SOFTMAX /\ l_n_outputs s = y /\ l_scale s = f1.
Lemma C72_to_classifier_lemma (C A : Type) (K : cfg) (a : largs) (n_del : Z) (s : st (payload C A (nn f64))) :
  NoDup (set_list (s_pset s)) -> 1 <= y_dim K <= N_OUTPUTS_MAX ->
  (forall i, In i (set_list (s_pset s)) -> exists c n, s_heap s i = Some c /\ y_pred (c_body c) = Some n /\ convertible (y_dim K) n_del n) ->
  exists hp g' pa nr, xcsf_ae_to_classifier a K n_del s = Ok (tt, with_rng g' (with_heap hp (s_next s) (with_pa pa nr s))) /\
    length pa = Z.to_nat (n_actions K * y_dim K) /\ length nr = Z.to_nat (n_actions K * y_dim K) /\
    (forall i, ~ In i (set_list (s_pset s)) -> hp i = s_heap s i) /\
    (forall i, In i (set_list (s_pset s)) -> exists c n c' n', s_heap s i = Some c /\ y_pred (c_body c) = Some n /\
       hp i = Some c' /\ y_pred (c_body c') = Some n' /\ renewed K (s_time s) c c' /\ Z.of_nat (length (c_prediction c')) = y_dim K /\
       converted a (y_dim K) n_del n n').
Proof.
  intros ND HY H. unfold xcsf_ae_to_classifier.
  set (z := repeat f0 (Z.to_nat (n_actions K * y_dim K))). set (s1 := with_pa z z s).
  destruct (walk_ok (C := C) (A := A) K (pred_neural_ae_to_classifier (Pop.lm K) a (y_dim K) n_del) (Pop.set_prediction (repeat f0 (Z.to_nat (y_dim K)))) (convertible (y_dim K) n_del) (converted a (y_dim K) n_del))
    with (ls := set_list (s_pset s)) (s := s1) as (hp & g' & E & O & I2); [|exact ND|exact H|].
  { intros n g (N & F & HW).
    destruct (C72_classifier_lemma (Pop.lm K) a (y_dim K) n_del n g N F HY HW) as (l & sm & g1 & X & X1 & X2 & X3 & X4 & X5 & X6 & X7 & X8).
    eexists _, g1. split; [exact X|]. split; [exact X1|]. split; [exact X2|]. split; [reflexivity|]. split; [reflexivity|]. exists l, sm. auto 8. }
  exists hp, g', z, z. split; [exact E|]. split; [apply repeat_length|]. split; [apply repeat_length|]. split; [exact O|]. intros i J. destruct (I2 i J) as (c & n & n' & X1 & X2 & X3 & X4).
  eexists c, n, _, n'. split; [exact X1|]. split; [exact X2|]. split; [exact X4|]. split; [reflexivity|]. split; [repeat split|].
  split; [|exact X3]. cbn [c_prediction forget Pop.set_time set_exp set_err set_fit set_body Pop.set_prediction]. rewrite repeat_length. lia.
Qed.

(** ** Rules made after the conversion *)
Lemma copy_exits c : net_ok c -> faces c -> forall m i v, 0 <= i <= nn_outputs c -> nn_outputs c < i + Z.of_nat m -> i + Z.of_nat m <= len v ->
  oloop m i (fun i v => (o <- neural_output c i ;; wr v i o)%out) v = Exit.
Proof.
  intros N F. induction m as [|m IH]; intros i v HI HM HL; [lia|]. cbn [oloop]. destruct (Z.eq_dec i (nn_outputs c)) as [->|NE].
  - unfold neural_output. destruct (Z.leb_spec (nn_outputs c) (nn_outputs c)); [|lia]. rewrite orb_true_r. reflexivity.
  - destruct (output_ok c i N F ltac:(lia)) as (p & _ & E). rewrite E. cbn [obind]. destruct (wr_ok v i (at_ f0 (l_output p) i) ltac:(lia)) as (v' & E' & L & _). rewrite E'. cbn [obind].
    apply IH; lia.
Qed.
Lemma C72_refuted_cover_lemma (K : cfg) (train : bool) (args : list largs) (ni : Z) (x v : list f64) (g : rng) :
  match args with [] => False | b :: _ => la_n_inputs b = ni end -> 1 <= ni <= len x -> args_fit ni args ->
  args_outputs ni args < y_dim K -> len v = y_dim K ->
  exists c g', neural_create (Pop.lm K) args g = Ok (c, g') /\ net_compute K train c v x g' = Exit.
Proof.
  intros H1 H2 H3 HY HV. assert (NE : args <> []) by (destruct args; [contradiction|discriminate]).
  destruct (create_ok (fun _ => True) (Pop.lm K) _ (src_any (Pop.lm K)) args ni NE) with (g := g) as (c & g' & E & _ & N & F & NI & NO & _);
    [destruct args; [exact Logic.I|exact H1]|lia|exact H3|exact Logic.I|].
  exists c, g'. split; [exact E|]. unfold net_compute, bind.
  destruct (propagate_ok (fun _ => True) (Pop.lm K) _ (src_any (Pop.lm K)) train c x N ltac:(lia) g' Logic.I) as (c1 & g1 & E1 & _ & ls & -> & N1 & MC). rewrite E1.
  assert (F1 : faces (with_layers c ls)).
  { destruct N1 as (NL & _). apply faces_out; [exact NL|]. cbn [with_layers nn_outputs nn_layers]. destruct N as (NC & _). rewrite (proj1 (faces_out c NC) F).
    rewrite !last_out_spec. apply last_same in MC. destruct (rev (nn_layers c)) as [|q r]; destruct (rev ls) as [|q' r']; try discriminate MC; [reflexivity|].
    cbn [map] in MC. pose proof (f_equal (hd (content q)) MC) as CP; cbn [hd] in CP. destruct (dims_eq _ _ (content_dims _ _ CP)) as (_ & _ & _ & D & _). congruence. }
  unfold lift, ofor. destruct N1 as (NL & CH & RO).
  assert (P0 : 1 <= nn_outputs c).
  { apply faces_out in F1; [|exact NL]. cbn [with_layers nn_outputs nn_layers] in F1. rewrite F1. pose proof (caps_bound _ _ (nn_inputs c) CH) as CB. cbn [with_layers nn_layers nn_inputs] in CB.
    rewrite (last_out_any 0 (nn_inputs c)) by exact NL. lia. }
  rewrite (copy_exits (with_layers c ls)); [reflexivity|exact (conj NL (conj CH RO))|exact F1| | |].
  - cbn [with_layers nn_outputs]. lia.
  - cbn [with_layers nn_outputs]. lia.
  - rewrite Z2Nat.id; lia.
Qed.

(** The prediction network's number of outputs is out of date after its output layer evolved (C66):
    converting it without removing that layer makes a layer that reads past its input. *)
Definition some_largs : largs := mkLargs CONNECTED 2 2 2 0 0 0 0 0 0 0 0 fhalf f0 f0 f0 f0 f0 true false true true true true.
Lemma C72_refuted_stale_lemma : exists (lm : libm) (fuel : nat) (n n1 n2 : nn f64) (b : bool) (g g1 g2 : rng),
  net_ok n /\ faces n /\ neural_mutate lm fuel n g = Ok (n1, b, g1) /\
  pred_neural_ae_to_classifier lm some_largs 2 0 n1 g1 = Ok (n2, g2) /\
  neural_propagate lm false n2 [f1; f1] g2 = UB OutOfBounds.
Proof.
  assert (X : match neural_mutate const_lm 1 PropNet.one_layer tape3 with
              | Ok (n1, b, g1) => match pred_neural_ae_to_classifier const_lm some_largs 2 0 n1 g1 with
                                  | Ok (n2, g2) => match neural_propagate const_lm false n2 [f1; f1] g2 with UB OutOfBounds => True | _ => False end
                                  | _ => False end
              | _ => False end) by (vm_compute; exact Logic.I).
  destruct PropNet.one_layer_ok as (H1 & H2). revert X.
  destruct (neural_mutate const_lm 1 PropNet.one_layer tape3) as [((n1, b), g1)| | |] eqn:E1; intros X; try contradiction X. revert X.
  destruct (pred_neural_ae_to_classifier const_lm some_largs 2 0 n1 g1) as [(n2, g2)| | |] eqn:E2; intros X; try contradiction X. revert X.
  destruct (neural_propagate const_lm false n2 [f1; f1] g2) as [?| |k|] eqn:E3; intros X; try contradiction X.
  exists const_lm, 1%nat, PropNet.one_layer, n1, n2, b, tape3, g1, g2. split; [exact H1|]. split; [exact H2|]. split; [exact E1|]. split; [exact E2|]. rewrite E3. destruct k; try contradiction X. reflexivity.
Qed.

(** ** The linked list *)
Definition same_as (nt : Llist.net) (ls : list (nat * layer f64)) (n : nn f64) : Prop :=
  nn_layers n = map snd ls /\ nn_inputs n = Llist.n_inputs nt /\ nn_outputs n = Llist.n_outputs nt.
Notation repr := (LlistFacts.represents (L := layer f64) l_n_inputs l_n_outputs).
Lemma repr_io h nt ls : repr h nt ls -> ls <> [] -> Llist.n_inputs nt = match map snd ls with [] => 0 | l :: _ => l_n_inputs l end /\ Llist.n_outputs nt = last_out 0 (map snd ls).
Proof.
  intros R N. split.
  - destruct ls as [|(a, l) r]; [contradiction|]. cbn [map snd]. apply (LlistFacts.rp_in _ _ _ _ _ R a l r eq_refl).
  - destruct (exists_last N) as (r & (a, l) & E). destruct (LlistFacts.rp_out _ _ _ _ _ R a l r E) as (-> & _). rewrite E, map_app, last_out_app. reflexivity.
Qed.
Lemma C72_insert_lemma h nt ls n l pos : repr h nt ls -> same_as nt ls n ->
  match insert_layer n l pos with
  | Ok n' => exists h' nt' ls', Llist.neural_insert l_n_inputs l_n_outputs h nt l pos = Ok (h', nt') /\ repr h' nt' ls' /\ same_as nt' ls' n'
  | o => Llist.neural_insert l_n_inputs l_n_outputs h nt l pos = match o with UB k => UB k | _ => OutOfFuel end
  end.
Proof.
  intros R (S1 & S2 & S3). unfold insert_layer. rewrite S1. destruct ls as [|c r] eqn:EL.
  - cbn [map]. destruct (PropList.C44_insert_lemma l_n_inputs l_n_outputs h nt [] l pos R (or_introl eq_refl)) as (h' & nt' & E & R' & _).
    rewrite firstn_nil, skipn_nil in R'. exists h', nt', [(Llist.fresh h, l)]. split; [exact E|]. split; [exact R'|]. destruct (repr_io _ _ _ R' ltac:(discriminate)) as (I1 & I2).
    split; [reflexivity|]. cbn [nn_inputs nn_outputs]. rewrite I1, I2. auto.
  - assert (NE : ls <> []) by (rewrite EL; discriminate). rewrite <- EL in *.
    assert (EM : exists x y, map snd ls = x :: y) by (rewrite EL; cbn [map]; eauto). destruct EM as (x & y & EM). rewrite EM. rewrite <- EM.
    destruct (Z.leb_spec pos 0) as [P|P]; [exact (LlistFacts.insert_first_fails l_n_inputs l_n_outputs h nt ls l pos R NE P)|].
    assert (P1 : 1 <= pos) by lia.
    destruct (PropList.C44_insert_lemma l_n_inputs l_n_outputs h nt ls l pos R (or_intror P1)) as (h' & nt' & E & R' & _).
    eexists h', nt', _. split; [exact E|]. split; [exact R'|]. destruct (repr_io _ _ _ R ltac:(assumption)) as (I1 & I2).
    destruct (repr_io _ _ _ R' ltac:(intros X; destruct (firstn (Z.to_nat pos) ls); discriminate X)) as (J1 & J2).
    unfold same_as. cbn [nn_layers nn_inputs nn_outputs]. rewrite J1, J2, S2, S3, I1, I2. rewrite map_app. cbn [map snd]. rewrite firstn_map, skipn_map, map_length.
    split; [reflexivity|]. split.
    + rewrite EL. replace (Z.to_nat pos) with (S (Z.to_nat (pos - 1))) by lia. reflexivity.
    + rewrite last_out_app. cbn [last_out]. destruct (Z.leb_spec (Z.of_nat (length ls)) pos) as [Q|Q]; [rewrite skipn_all2 by lia; reflexivity|].
      rewrite <- (firstn_skipn (Z.to_nat pos) ls) at 1. rewrite map_app, last_out_app. apply last_out_any.
      intros X. apply (f_equal (@length _)) in X. rewrite map_length, skipn_length in X. cbn in X. lia.
Qed.
Lemma C72_pop_lemma h nt ls n : repr h nt ls -> same_as nt ls n ->
  match pop_layer n with
  | Ok n' => exists h' nt' ls', Llist.neural_pop l_n_outputs h nt = Ok (h', nt') /\ repr h' nt' ls' /\ same_as nt' ls' n'
  | Exit => Llist.neural_pop l_n_outputs h nt = Exit
  | _ => False
  end.
Proof.
  intros R (S1 & S2 & S3). unfold pop_layer. rewrite S1, <- map_rev.
  assert (EX : (length ls < 2)%nat -> Llist.neural_pop l_n_outputs h nt = Exit).
  { intros X. unfold Llist.neural_pop. apply (PropList.C44_rejected_lemma l_n_inputs l_n_outputs h nt ls); auto. }
  destruct (rev ls) as [|q [|p r]] eqn:X; cbn [map].
  - apply EX. rewrite <- rev_length, X. cbn. lia.
  - apply EX. rewrite <- rev_length, X. cbn. lia.
  - assert (EL : ls = rev (p :: r) ++ [q]) by (rewrite <- (rev_involutive ls), X; reflexivity). destruct q as (b, q).
    assert (NE : rev (p :: r) <> []) by (cbn [rev]; destruct (rev r); discriminate).
    rewrite EL in R. destruct (PropList.C44_pop_lemma l_n_inputs l_n_outputs h nt (rev (p :: r)) b q R NE) as (h' & nt' & E & R' & _).
    exists h', nt', (rev (p :: r)). split; [exact E|]. split; [exact R'|]. destruct (repr_io _ _ _ R' NE) as (J1 & J2).
    assert (NL : rev (p :: r) ++ [(b, q)] <> []) by (destruct (rev (p :: r)); discriminate).
    destruct (repr_io _ _ _ R NL) as (I1 & I2).
    unfold same_as. cbn [nn_layers nn_inputs nn_outputs]. rewrite J1, J2, S2, I1. split; [rewrite map_rev; reflexivity|]. split.
    + rewrite map_app. destruct (rev (p :: r)); [contradiction|reflexivity].
    + rewrite last_out_spec, <- map_rev, rev_involutive. reflexivity.
Qed.
