(** * Facts about whole networks of connected, softmax, dropout and noise layers. *)
From Coq Require Import ZArith Bool List Lia.
From Verif Require Import Outcome F64 Rng RngFacts Sam SamFacts Pop PopSpec Arr ArrFacts Blas BlasFacts Clock Comp Dgp DgpFacts Act Image Layer LayerFacts MutFacts UpdFacts PropMut Net NetFacts NetLayer.
Import ListNotations.
Open Scope Z_scope.

Lemma cons_eq {X} (x y : X) xs ys : x :: xs = y :: ys -> x = y /\ xs = ys.
Proof. intros E. injection E. auto. Qed.

(** Each layer is sound and takes as many inputs as the layer before it has outputs. *)
Fixpoint chained (n : Z) (ls : list (layer f64)) : Prop :=
  match ls with
  | [] => True
  | l :: r => sound l /\ l_n_inputs l = n /\ chained (l_n_outputs l) r
  end.
(** Even when every layer grows to its limit, the numbers of neurons and weights stay within
    those of neural_layer.h; [cap] bounds the number of inputs of the first of the layers. *)
Fixpoint room (cap : Z) (ls : list (layer f64)) : Prop :=
  match ls with
  | [] => True
  | l :: r => if l_type l =? CONNECTED then l_max_outputs l * cap <= N_WEIGHTS_MAX /\ room (l_max_outputs l) r
              else cap <= N_OUTPUTS_MAX /\ room cap r
  end.
Definition net_ok (n : nn f64) : Prop :=
  nn_layers n <> [] /\ chained (nn_inputs n) (nn_layers n) /\ room (nn_inputs n) (nn_layers n).
(** The number of outputs the network says it has is that of its output layer. *)
Definition out_layer {T} (n : nn T) : option (layer T) := match rev (nn_layers n) with [] => None | p :: _ => Some p end.
Definition faces {T} (n : nn T) : Prop := exists p, out_layer n = Some p /\ nn_outputs n = l_n_outputs p.

Lemma out_of l : sound l -> forall cap, l_n_inputs l <= cap -> (l_type l =? CONNECTED) = true /\ 1 <= l_n_outputs l <= l_max_outputs l \/
  (l_type l =? CONNECTED) = false /\ l_n_outputs l <= cap.
Proof.
  intros [(T & _ & _ & G & _)|(T & P)] cap H.
  - left. rewrite T. split; [reflexivity|]. apply G.
  - right. destruct (plain_not _ T) as (-> & _). destruct P. split; [reflexivity|lia].
Qed.

Lemma dims_eq {T} (l l' : layer T) : dims l' = dims l -> l_type l' = l_type l /\ l_options l' = l_options l /\ l_n_inputs l' = l_n_inputs l /\ l_n_outputs l' = l_n_outputs l /\ l_max_outputs l' = l_max_outputs l.
Proof. unfold dims. intros E. injection E as -> -> -> -> ->. auto. Qed.
Lemma content_dims {T} (l l' : layer T) : content l' = content l -> dims l' = dims l.
Proof. intros E. unfold content in E. congruence. Qed.
Lemma room_same ls : forall ls' cap, map dims ls' = map dims ls -> room cap ls -> room cap ls'.
Proof.
  induction ls as [|l r IH]; intros [|l' r'] cap E R; try discriminate E; [exact I|]. cbn [map] in E. apply cons_eq in E. destruct E as (E1 & E2).
  cbn [room] in *. destruct (dims_eq _ _ E1) as (-> & _ & _ & _ & ->). destruct (l_type l =? CONNECTED); (split; [apply R|apply IH; [exact E2|apply R]]).
Qed.
Lemma chained_same ls : forall ls' n, map dims ls' = map dims ls -> Forall sound ls' -> chained n ls -> chained n ls'.
Proof.
  induction ls as [|l r IH]; intros [|l' r'] n E F C; try discriminate E; [exact I|]. cbn [map] in E. apply cons_eq in E. destruct E as (E1 & E2). inversion F; subst.
  cbn [chained] in *. destruct (dims_eq _ _ E1) as (_ & _ & -> & -> & _). split; [assumption|]. split; [apply C|]. apply IH; [exact E2|assumption|apply C].
Qed.
Lemma chained_sound n ls : chained n ls -> Forall sound ls.
Proof. revert n. induction ls as [|l r IH]; intros n C; [constructor|]. destruct C as (S & _ & C). constructor; [exact S|exact (IH _ C)]. Qed.
Lemma same_nil {X Y} (f : X -> Y) ls ls' : map f ls' = map f ls -> ls <> [] -> ls' <> [].
Proof. intros E N ->. destruct ls; [contradiction|discriminate E]. Qed.

Lemma net_same n ls : net_ok n -> map dims ls = map dims (nn_layers n) -> Forall sound ls -> net_ok (with_layers n ls).
Proof.
  intros (N & C & R) E F. split; [eapply same_nil; eassumption|]. split; [eapply chained_same; eassumption|eapply room_same; eassumption].
Qed.
Lemma last_same {X Y} (f : X -> Y) ls ls' : map f ls' = map f ls -> map f (rev ls') = map f (rev ls).
Proof. intros E. now rewrite !map_rev, E. Qed.
Lemma faces_same (n : nn f64) ls : map dims ls = map dims (nn_layers n) -> faces n -> faces (with_layers n ls).
Proof.
  intros E (p & O & H). unfold faces, out_layer in *. cbn [nn_layers nn_outputs with_layers]. pose proof (last_same _ _ _ E) as L.
  destruct (rev (nn_layers n)) as [|q r]; [discriminate O|]. injection O as ->. destruct (rev ls) as [|q' r']; [discriminate L|]. cbn [map] in L. apply cons_eq in L. destruct L as (L & _).
  exists q'. split; [reflexivity|]. rewrite H. symmetry. now apply dims_eq.
Qed.
Lemma of_layers_ok n ls : net_ok n -> map dims ls = map dims (nn_layers n) -> Forall sound ls ->
  net_ok (of_layers ls) /\ faces (of_layers ls) /\ nn_inputs (of_layers ls) = nn_inputs n.
Proof.
  intros H E F. pose proof (net_same n ls H E F) as (N & C & R). cbn [nn_layers nn_inputs with_layers] in *.
  assert (NI : nn_inputs (of_layers ls) = nn_inputs n) by (unfold of_layers; cbn [nn_inputs]; destruct ls as [|l r]; [contradiction|]; apply C).
  split; [|split; [|exact NI]].
  - unfold net_ok. rewrite NI. auto.
  - unfold faces, out_layer, of_layers. cbn [nn_layers nn_outputs]. destruct (rev ls) as [|p r] eqn:X; [|exists p; auto].
    apply (f_equal (@rev _)) in X. rewrite rev_involutive in X. contradiction.
Qed.

(** ** Copying *)
Lemma omap_ok {X Y} (f : X -> outcome Y) (P : X -> Prop) (Q : X -> Y -> Prop) xs :
  (forall x, P x -> exists y, f x = Ok y /\ Q x y) -> Forall P xs -> exists ys, omap f xs = Ok ys /\ Forall2 Q xs ys.
Proof.
  intros H F. induction F as [|x r Px F IH]; [exists []; auto|]. destruct (H x Px) as (y & E & Hy). destruct IH as (ys & E2 & F2).
  exists (y :: ys). cbn [omap]. rewrite E. cbn [obind]. rewrite E2. auto.
Qed.
Lemma map_of_forall2 {X Y} (f : X -> Y) (Q : X -> X -> Prop) xs ys : (forall x y, Q x y -> f y = f x) -> Forall2 Q xs ys -> map f ys = map f xs.
Proof. intros H F. induction F as [|x y r r' Q1 F IH]; [reflexivity|]. cbn [map]. rewrite (H _ _ Q1), IH. reflexivity. Qed.
Lemma forall_of_forall2 {X Y} (P : Y -> Prop) (Q : X -> Y -> Prop) xs ys : (forall x y, Q x y -> P y) -> Forall2 Q xs ys -> Forall P ys.
Proof. intros H F. induction F; constructor; eauto. Qed.

Lemma net_copy_ok n : net_ok n -> exists n', neural_copy n = Ok n' /\ net_ok n' /\ faces n' /\ nn_inputs n' = nn_inputs n /\ map content (nn_layers n') = map content (nn_layers n).
Proof.
  intros H. destruct H as (N & C & R). destruct (omap_ok layer_copy sound (fun l l' => sound l' /\ content l' = content l) (nn_layers n)) as (ls & E & F).
  - intros l S. destruct (copy_ok l S) as (l' & E & S' & C'). exists l'. auto.
  - eapply chained_sound. exact C.
  - unfold neural_copy. rewrite E. cbn [obind]. eexists. split; [reflexivity|].
    assert (D : map dims ls = map dims (nn_layers n)) by (eapply map_of_forall2; [|exact F]; intros x y (_ & X); now apply content_dims).
    destruct (of_layers_ok n ls) as (H1 & H2 & H3); [split; auto|exact D|eapply forall_of_forall2; [|exact F]; intros x y (X & _); exact X|].
    split; [exact H1|]. split; [exact H2|]. split; [exact H3|]. eapply map_of_forall2; [|exact F]. intros x y (_ & X). exact X.
Qed.

(** ** Learning *)
Lemma backward_from_ok lm input : forall rest l k, sound l -> Forall sound rest -> l_n_inputs l <= k ->
  match rest with [] => k = len input | p :: _ => k = l_n_outputs p end ->
  (forall a p r, rest = a ++ p :: r -> match r with [] => l_n_inputs p <= len input | q :: _ => l_n_inputs p <= l_n_outputs q end) ->
  exists ls, backward_from (f64_arith lm) l rest input = Ok ls /\ Forall sound ls /\ map content ls = map content (l :: rest) /\ map l_output ls = map l_output (l :: rest).
Proof.
  induction rest as [|p r IH]; intros l k S F HK EK CH; cbn [backward_from].
  - destruct (backward_ok lm l input None S) as (l' & od' & E & S' & C' & O' & _); [lia|discriminate|].
    rewrite E. cbn [obind fst]. exists [l']. split; [reflexivity|]. split; [auto|]. cbn [map]. now rewrite C', O'.
  - inversion F as [|? ? SP F' E1]; subst. destruct (sound_out p SP) as (LO & LD).
    destruct (backward_ok lm l (l_output p) (Some (l_delta p)) S) as (l' & od' & E & S' & C' & O' & d' & -> & L'); [lia|intros d X; injection X as <-; lia|].
    rewrite E. cbn [obind fst snd].
    destruct (IH (set_delta d' p) (match r with [] => len input | q :: _ => l_n_outputs q end)) as (ls & E2 & F2 & M1 & M2).
    + apply sound_delta; [exact SP|lia].
    + exact F'.
    + specialize (CH [] p r eq_refl). destruct r; exact CH.
    + destruct r; reflexivity.
    + intros a q r' X. apply (CH (p :: a)). cbn [app]. now rewrite X.
    + rewrite E2. cbn [obind]. exists (l' :: ls). split; [reflexivity|]. split; [auto|]. cbn [map] in *. rewrite M1, M2, C', O'. split; reflexivity.
Qed.
Lemma chained_rev n ls : chained n ls -> forall a p r, rev ls = a ++ p :: r -> match r with [] => l_n_inputs p = n | q :: _ => l_n_inputs p = l_n_outputs q end.
Proof.
  intros C a p r E.
  assert (X : ls = rev r ++ p :: rev a).
  { rewrite <- (rev_involutive ls), E, rev_app_distr. cbn [rev]. now rewrite <- app_assoc. }
  subst ls. clear E. revert n C. destruct r as [|q r]; cbn [rev app].
  - intros n C. apply C.
  - rewrite <- app_assoc. cbn [app]. induction (rev r) as [|y ys IH]; intros n C; cbn [app] in C.
    + apply C.
    + destruct C as (_ & _ & C). exact (IH _ C).
Qed.

Lemma learn_ok lm n truth input p : net_ok n -> out_layer n = Some p -> l_n_outputs p <= len truth -> nn_inputs n <= len input ->
  exists ls, neural_learn (f64_arith lm) n truth input = Ok (with_layers n ls) /\ net_ok (with_layers n ls) /\
    map dims ls = map dims (nn_layers n) /\ map l_output ls = map l_output (nn_layers n).
Proof.
  intros H O LT LI. pose proof H as (N & C & R). unfold neural_learn.
  destruct (omap_ok (zero_delta (f64_arith lm)) sound (fun l l' => sound l' /\ content l' = content l /\ l_output l' = l_output l) (nn_layers n)) as (l1 & E1 & F1).
  { intros l S. destruct (sound_out l S) as (LO & LD). destruct (sound_pos l S). destruct (zero_delta_ok (f64_arith lm) l) as (d & E & L & _); [lia|].
    exists (set_delta d l). split; [exact E|]. split; [apply sound_delta; [exact S|lia]|]. split; reflexivity. }
  { eapply chained_sound. exact C. }
  rewrite E1. cbn [obind].
  assert (D1 : map content l1 = map content (nn_layers n)) by (eapply map_of_forall2; [|exact F1]; intros x y (_ & X & _); exact X).
  assert (O1 : map l_output l1 = map l_output (nn_layers n)) by (eapply map_of_forall2; [|exact F1]; intros x y (_ & _ & X); exact X).
  assert (S1 : Forall sound l1) by (eapply forall_of_forall2; [|exact F1]; intros x y (X & _); exact X).
  assert (DD : map dims l1 = map dims (nn_layers n)) by (eapply map_of_forall2; [|exact F1]; intros x y (_ & X & _); now apply content_dims).
  assert (C1 : chained (nn_inputs n) l1) by (eapply chained_same; eassumption).
  pose proof (last_same _ _ _ DD) as LL. unfold out_layer in O. destruct (rev (nn_layers n)) as [|p0 r0]; [discriminate O|]. injection O as ->.
  destruct (rev l1) as [|q rest] eqn:RV; [discriminate LL|]. cbn [map] in LL. apply cons_eq in LL. destruct LL as (LQ & _). destruct (dims_eq _ _ LQ) as (_ & _ & _ & LQO & _).
  assert (SR : Forall sound (q :: rest)) by (rewrite <- RV; apply Forall_rev; exact S1).
  inversion SR as [|? ? SQ SR' X]; subst. destruct (sound_out q SQ) as (LO & LD). destruct (sound_pos q SQ) as (P1 & P2).
  destruct (output_delta_ok (f64_arith lm) q truth) as (d & E2 & L2 & _); [lia|lia|lia|lia|]. rewrite E2. cbn [obind].
  pose proof (chained_rev _ _ C1) as CR. rewrite RV in CR.
  destruct (backward_from_ok lm input rest (set_delta d q) (match rest with [] => len input | y :: _ => l_n_outputs y end)) as (ls & E3 & S3 & D3 & O3).
  - apply sound_delta; [exact SQ|lia].
  - exact SR'.
  - specialize (CR [] q rest eq_refl). change (l_n_inputs (set_delta d q)) with (l_n_inputs q). destruct rest; lia.
  - destruct rest; reflexivity.
  - intros a y r X. specialize (CR (q :: a) y r). cbn [app] in CR. rewrite X in CR. specialize (CR eq_refl). destruct r; lia.
  - rewrite E3. cbn [obind].
    destruct (omap_ok (layer_update (f64_arith lm)) sound (fun l l' => sound l' /\ dims l' = dims l /\ l_output l' = l_output l) (rev ls)) as (l4 & E4 & F4).
    { intros l S. destruct (update_ok lm l S) as (l' & E & S' & D' & O'). exists l'. auto. }
    { apply Forall_rev. exact S3. }
    rewrite E4. cbn [obind]. exists l4.
    assert (D4 : map dims l4 = map dims (nn_layers n)).
    { rewrite <- DD. rewrite <- (rev_involutive l1), RV. rewrite (map_of_forall2 dims _ _ _ (fun x y X => proj1 (proj2 X)) F4). rewrite !map_rev. f_equal.
      apply (f_equal (map (fun c => fst (fst (fst (fst (fst c)))))) ) in D3. rewrite !map_map in D3. exact D3. }
    assert (O4 : map l_output l4 = map l_output (nn_layers n)).
    { rewrite <- O1. rewrite <- (rev_involutive l1), RV. rewrite (map_of_forall2 l_output _ _ _ (fun x y X => proj2 (proj2 X)) F4). rewrite !map_rev. f_equal. exact O3. }
    split; [reflexivity|]. split; [|auto]. apply net_same; [exact H|exact D4|]. eapply forall_of_forall2; [|exact F4]. intros x y (X & _). exact X.
Qed.

Section Any.
Context (J : rng -> Prop) (lm : libm) (Zok : f64 -> Prop) (SR : src lm J Zok).
Notation rt := (rt J).

(** ** Creation *)
Fixpoint args_fit (cap : Z) (args : list largs) : Prop :=
  match args with
  | [] => True
  | a :: r => arg_ok cap a /\ args_fit (arg_max cap a) r
  end.
(** The number of outputs of the network. *)
Fixpoint args_outputs (n : Z) (args : list largs) : Z :=
  match args with [] => n | a :: r => args_outputs (arg_outputs n a) r end.
Fixpoint last_out (n : Z) (ls : list (layer f64)) : Z := match ls with [] => n | l :: r => last_out (l_n_outputs l) r end.
Lemma pass_arg_ok cap p a : arg_ok cap a -> arg_ok cap (pass_args (Some p) a).
Proof.
  unfold arg_ok. cbn [pass_args la_type la_n_max la_grow la_function la_n_init].
  intros [(T & H)|(T & H)]; [left|right]; [|auto]. rewrite T. change (passes CONNECTED) with false. cbn iota. auto.
Qed.
Lemma create_from_ok args : forall prev n cap, args_fit cap args -> 1 <= n <= cap ->
  match prev with Some p => l_n_outputs p = n | None => match args with [] => True | a :: _ => la_n_inputs a = n end end ->
  rt (create_from lm prev args) (fun ls => chained n ls /\ room cap ls /\ last_out n ls = args_outputs n args /\
    Forall2 (fun a l => l_type l = la_type a /\ (l_type l = CONNECTED -> l_options l = layer_args_opt a)) args ls).
Proof.
  induction args as [|a r IH]; intros prev n cap F N HP; cbn [create_from].
  - apply rt_ret. cbn. auto.
  - destruct F as (FA & F). set (a' := pass_args prev a).
    assert (FA' : arg_ok cap a') by (unfold a'; destruct prev as [p|]; [now apply pass_arg_ok|exact FA]).
    assert (NA : la_n_inputs a' = n) by (unfold a'; destruct prev as [p|]; exact HP).
    assert (AT : la_type a' = la_type a) by (unfold a'; destruct prev; reflexivity).
    assert (AI : la_type a = CONNECTED -> la_n_init a' = la_n_init a).
    { intros T. unfold a'; destruct prev; [|reflexivity]. cbn [pass_args la_n_init]. rewrite T. reflexivity. }
    assert (AM : la_n_max a' = la_n_max a) by (unfold a'; destruct prev; reflexivity).
    assert (AO : layer_args_opt a' = layer_args_opt a) by (unfold a'; destruct prev; reflexivity).
    clearbody a'.
    eapply rt_bind; [apply (init_ok J lm Zok SR cap a' FA'); lia|]. intros l (S & T & NI & NO & MX & OP). rewrite NA in *.
    assert (EO : arg_outputs n a' = arg_outputs n a).
    { unfold arg_outputs. rewrite AT. destruct (Z.eqb_spec (la_type a) CONNECTED) as [X|X]; [now apply AI|reflexivity]. }
    assert (BO : 1 <= l_n_outputs l <= arg_max cap a).
    { destruct (sound_pos l S) as (_ & P). split; [exact P|]. unfold arg_max. rewrite <- AT, <- AM, <- T.
      destruct (out_of l S cap ltac:(lia)) as [(E & B)|(E & B)]; rewrite E; [|exact B]. rewrite <- MX by now apply Z.eqb_eq. lia. }
    eapply rt_bind; [apply (IH (Some l) (l_n_outputs l) (arg_max cap a) F BO eq_refl)|].
    intros ls (C & R & LO & F2). apply rt_ret. cbn [chained room last_out args_outputs].
    split; [auto|]. split; [|split].
    + unfold arg_max in R. rewrite <- AT, <- T in R. destruct (Z.eqb_spec (l_type l) CONNECTED) as [X|X].
      * rewrite MX by exact X. rewrite AM. split; [|exact R]. destruct FA as [(_ & _ & _ & H & _)|(H & _)]; [exact H|].
        rewrite <- AT, <- T, X in H. destruct H as [H|[H|H]]; discriminate H.
      * split; [|exact R]. destruct FA as [(H & _)|(_ & H)]; [congruence|exact H].
    + rewrite <- EO, <- NO. exact LO.
    + constructor; [|exact F2]. split; [congruence|]. intros X. rewrite (OP X). exact AO.
Qed.
Lemma last_out_spec ls : forall n, last_out n ls = match rev ls with [] => n | p :: _ => l_n_outputs p end.
Proof.
  induction ls as [|l r IH]; intros n; [reflexivity|]. cbn [last_out rev]. rewrite IH. destruct (rev r); reflexivity.
Qed.
Lemma create_ok args n : args <> [] -> match args with a :: _ => la_n_inputs a = n | [] => True end -> 1 <= n -> args_fit n args ->
  rt (neural_create lm args) (fun c => net_ok c /\ faces c /\ nn_inputs c = n /\ nn_outputs c = args_outputs n args /\
    Forall2 (fun a l => l_type l = la_type a /\ (l_type l = CONNECTED -> l_options l = layer_args_opt a)) args (nn_layers c)).
Proof.
  intros NE HN P F. unfold neural_create. eapply rt_bind; [apply (create_from_ok args None n n F ltac:(lia)); destruct args; auto|].
  intros ls (C & R & LO & F2). cbv zeta.
  assert (NL : ls <> []) by (intros ->; inversion F2; subst; contradiction).
  assert (NI : nn_inputs (of_layers ls) = n) by (unfold of_layers; cbn [nn_inputs]; destruct ls as [|l r]; [contradiction|]; apply C).
  assert (NO : exists p, out_layer (of_layers ls) = Some p /\ nn_outputs (of_layers ls) = l_n_outputs p /\ sound p /\ last_out n ls = l_n_outputs p).
  { rewrite last_out_spec. unfold out_layer, of_layers. cbn [nn_layers nn_outputs]. pose proof (Forall_rev (chained_sound _ _ C)) as SS. destruct (rev ls) as [|p r] eqn:X.
    - apply (f_equal (@rev _)) in X. rewrite rev_involutive in X. contradiction.
    - exists p. inversion SS; subst. auto. }
  destruct NO as (p & OL & NO & SP & LP). destruct (sound_pos p SP) as (_ & PO). rewrite NO, NI.
  assert (B : (Z.of_nat (length ls) <? 1) || (l_n_outputs p <? 1) || (n <? 1) = false).
  { apply orb_false_intro; [apply orb_false_intro|]; apply Z.ltb_ge; try lia. destruct ls; [contradiction|]. cbn [length]. lia. }
  rewrite B. apply rt_ret. split; [|split; [|split; [exact NI|split; [rewrite NO, <- LP; exact LO|exact F2]]]].
  - unfold net_ok. rewrite NI. cbn [nn_layers of_layers]. auto.
  - exists p. auto.
Qed.

(** ** Randomising and propagation *)
Lemma rmap_ok {X Y} (f : X -> RM Y) (P : X -> Prop) (Q : X -> Y -> Prop) xs :
  (forall x, P x -> rt (f x) (Q x)) -> Forall P xs -> rt (rmap f xs) (fun ys => Forall2 Q xs ys).
Proof.
  intros H F. induction F as [|x r Px F IH]; cbn [rmap]; [apply rt_ret; constructor|].
  eapply rt_bind; [apply H; exact Px|]. intros y Hy. eapply rt_bind; [exact IH|]. intros ys F2. apply rt_ret. constructor; assumption.
Qed.
Lemma net_rand_ok n : net_ok n -> rt (neural_rand lm n) (fun n' => exists ls, n' = with_layers n ls /\ net_ok n' /\ map dims ls = map dims (nn_layers n)).
Proof.
  intros H. pose proof H as (_ & C & _). unfold neural_rand.
  eapply rt_bind; [apply (rmap_ok (layer_rand lm) sound (fun l l' => sound l' /\ dims l' = dims l)); [intros l S; now apply (rand_ok J lm Zok SR)|eapply chained_sound; exact C]|].
  intros ls F. apply rt_ret. exists ls. split; [reflexivity|].
  assert (D : map dims ls = map dims (nn_layers n)) by (eapply map_of_forall2; [|exact F]; intros x y (_ & X); exact X).
  split; [|exact D]. apply net_same; [exact H|exact D|]. eapply forall_of_forall2; [|exact F]. intros x y (X & _). exact X.
Qed.
Lemma forward_from_ok train ls : forall n x, chained n ls -> n <= len x ->
  rt (forward_from lm train ls x) (fun ls' => Forall sound ls' /\ Forall2 passed ls ls').
Proof.
  induction ls as [|l r IH]; intros n x C L; cbn [forward_from]; [apply rt_ret; auto|].
  destruct C as (S & NI & C). eapply rt_bind; [apply (forward_ok J lm Zok SR train l x S); lia|]. intros l' PS.
  pose proof (passed_sound l l' S PS) as S'. destruct (sound_out l' S') as (LO & _).
  assert (NO : l_n_outputs l' = l_n_outputs l) by (destruct PS as (st & out & -> & _); reflexivity).
  eapply rt_bind; [apply (IH (l_n_outputs l) (l_output l') C); lia|]. intros r' (F1 & F2). apply rt_ret. auto.
Qed.
Lemma passed_content l l' : passed l l' -> content l' = content l.
Proof. intros (st & out & -> & _). reflexivity. Qed.
Lemma propagate_ok train n x : net_ok n -> nn_inputs n <= len x ->
  rt (neural_propagate lm train n x) (fun n' => exists ls, n' = with_layers n ls /\ net_ok n' /\ map content ls = map content (nn_layers n)).
Proof.
  intros H L. pose proof H as (_ & C & _). unfold neural_propagate. eapply rt_bind; [apply (forward_from_ok train _ _ x C L)|].
  intros ls (F1 & F2). apply rt_ret. exists ls. split; [reflexivity|].
  assert (D : map content ls = map content (nn_layers n)) by (eapply map_of_forall2; [|exact F2]; intros a b X; now apply passed_content).
  split; [|exact D]. apply net_same; [exact H| |exact F1].
  eapply map_of_forall2; [|exact F2]. intros a b X. apply content_dims. now apply passed_content.
Qed.
Lemma output_ok n i : net_ok n -> faces n -> 0 <= i < nn_outputs n -> exists p, out_layer n = Some p /\ neural_output n i = Ok (at_ f0 (l_output p) i).
Proof.
  intros (N & C & R) (p & O & E) HI. exists p. split; [exact O|]. unfold neural_output.
  destruct (Z.ltb_spec i 0); [lia|]. destruct (Z.leb_spec (nn_outputs n) i); [lia|]. cbn [orb].
  pose proof (Forall_rev (chained_sound _ _ C)) as SS. unfold out_layer in O. destruct (rev (nn_layers n)) as [|q r]; [discriminate O|]. injection O as ->.
  inversion SS; subst. destruct (sound_out p) as (LO & _); [assumption|]. apply rd_ok. lia.
Qed.

(** ** Mutation and resizing *)
(** What evolution never changes. *)
Definition kind (l : layer f64) := (l_type l, l_options l).
Definition evolves (l : layer f64) : Prop := l_type l = CONNECTED /\ has l EVOLVE_NEURONS = true.
Lemma mutate_from_ok bad fuel ls : forall prev n n' cap,
  (Exists evolves ls -> casts_ok Zok bad /\ bad OutOfFuel) -> (1 <= fuel)%nat -> chained n ls -> room cap ls -> 1 <= n <= cap -> 1 <= n' <= cap ->
  match prev with None => n' = n | Some (p, b) => l_n_outputs p = n' /\ (b = false <-> n' = n) end ->
  rxj J bad (mutate_from lm fuel prev ls) (fun r => chained n' (fst r) /\ room cap (fst r) /\ map kind (fst r) = map kind ls /\
    (n' = n -> ~ Exists evolves ls -> map dims (fst r) = map dims ls)).
Proof.
  induction ls as [|l r IH]; intros prev n n' cap B FU C R N N' HP; cbn [mutate_from]; [apply rxj_ret; cbn; auto|].
  destruct C as (S & NI & C). cbn [room] in R.
  assert (CAPO : cap <= N_OUTPUTS_MAX \/ l_type l = CONNECTED).
  { destruct (Z.eqb_spec (l_type l) CONNECTED) as [X|X]; [now right|left; apply R]. }
  assert (MX : l_type l = CONNECTED -> l_max_outputs l * cap <= N_WEIGHTS_MAX).
  { intros X. rewrite X in R. apply R. }
  assert (MP : l_type l = CONNECTED -> 1 <= l_max_outputs l).
  { intros X. destruct S as [(_ & _ & _ & G & _)|(Y & _)]; [destruct G; lia|]. rewrite X in Y. destruct Y as [Y|[Y|Y]]; discriminate Y. }
  eapply rxj_bind with (P := fun l1 => sound l1 /\ l_type l1 = l_type l /\ l_options l1 = l_options l /\ l_n_inputs l1 = n' /\
     (l_type l = CONNECTED -> l_n_outputs l1 = l_n_outputs l /\ l_max_outputs l1 = l_max_outputs l) /\ (n' = n -> l1 = l)).
  { assert (SAME : n' = n -> rxj J bad (ret l) (fun l1 => sound l1 /\ l_type l1 = l_type l /\ l_options l1 = l_options l /\ l_n_inputs l1 = n' /\
     (l_type l = CONNECTED -> l_n_outputs l1 = l_n_outputs l /\ l_max_outputs l1 = l_max_outputs l) /\ (n' = n -> l1 = l))).
    { intros E. apply rxj_ret. split; [exact S|]. split; [reflexivity|]. split; [reflexivity|]. split; [lia|]. auto. }
    destruct prev as [(p, [|])|]; [|apply SAME, HP; reflexivity|apply SAME, HP].
    destruct HP as (HP & HD). apply rxj_rt. eapply rt_mono; [apply (resize_layer_ok J lm Zok SR fuel l p FU S)|].
    - lia.
    - intros X. destruct CAPO as [Y|Y]; [lia|contradiction].
    - intros X. rewrite HP. specialize (MX X). specialize (MP X). nia.
    - intros l1 (R1 & R2 & R3 & R4 & R5). rewrite HP in *. split; [exact R1|]. split; [exact R2|]. split; [exact R3|]. split; [exact R4|].
      split; [|intros E; apply HD in E; discriminate E]. destruct (Z.eqb_spec (l_type l) CONNECTED) as [X|X]; [tauto|contradiction]. }
  intros l1 (S1 & T1 & O1 & N1 & D1 & E1).
  assert (HB : l_type l1 = CONNECTED -> has l1 EVOLVE_NEURONS = true -> casts_ok Zok bad /\ bad OutOfFuel).
  { intros X Y. apply B. left. split; [congruence|]. unfold has in *. now rewrite O1 in Y. }
  eapply rxj_bind; [apply (mutate_ok J lm Zok SR bad fuel l1 HB FU S1)|]. intros (l2, b) M. cbn [fst] in M. destruct M as (S2 & T2 & O2 & I2 & X2 & E2). cbv iota beta.
  assert (L2 : l_type l = CONNECTED -> l_max_outputs l2 = l_max_outputs l) by (intros X; rewrite X2; now apply D1).
  set (cap' := if l_type l =? CONNECTED then l_max_outputs l else cap).
  assert (RR : room cap' r) by (unfold cap'; destruct (l_type l =? CONNECTED); apply R).
  assert (BN : 1 <= l_n_outputs l <= cap').
  { destruct (sound_pos l S) as (_ & P). split; [exact P|]. unfold cap'. destruct (out_of l S cap ltac:(lia)) as [(E & X)|(E & X)]; rewrite E; lia. }
  assert (BN2 : 1 <= l_n_outputs l2 <= cap').
  { destruct (sound_pos l2 S2) as (_ & P). split; [exact P|]. unfold cap'. destruct (out_of l2 S2 cap ltac:(lia)) as [(E & X)|(E & X)]; rewrite T2, T1 in E; rewrite E; [|exact X].
    rewrite <- L2 by now apply Z.eqb_eq. lia. }
  eapply rxj_bind; [apply (IH (Some (l2, negb (l_n_outputs l2 =? l_n_outputs l))) (l_n_outputs l) (l_n_outputs l2) cap'); try assumption|].
  - intros X. apply B. now right.
  - split; [reflexivity|]. rewrite negb_false_iff. apply Z.eqb_eq.
  - intros (r', b') (C' & R' & K' & DM). cbn [fst] in *. cbv iota beta. apply rxj_ret. cbn [fst chained room map].
    split; [|split; [|split]].
    + split; [exact S2|]. split; [congruence|exact C'].
    + rewrite T2, T1. unfold cap' in R'. destruct (Z.eqb_spec (l_type l) CONNECTED) as [X|X]; [rewrite L2 by exact X|]; (split; [apply R|exact R']).
    + rewrite K'. f_equal. unfold kind. congruence.
    + intros E NE. specialize (E1 E). subst l1. assert (EO : l_n_outputs l2 = l_n_outputs l).
      { apply E2. destruct (Z.eq_dec (l_type l) CONNECTED) as [X|X]; [left|now right].
        destruct (has l EVOLVE_NEURONS) eqn:Y; [|reflexivity]. exfalso. apply NE. left. split; assumption. }
      rewrite DM; [|exact EO|intros X; apply NE; now right]. f_equal. unfold dims. congruence.
Qed.
Lemma net_mutate_ok bad fuel n : (Exists evolves (nn_layers n) -> casts_ok Zok bad /\ bad OutOfFuel) -> (1 <= fuel)%nat -> net_ok n ->
  rxj J bad (neural_mutate lm fuel n) (fun r => exists ls, fst r = with_layers n ls /\ net_ok (fst r) /\ map kind ls = map kind (nn_layers n) /\
    (~ Exists evolves (nn_layers n) -> map dims ls = map dims (nn_layers n))).
Proof.
  intros B FU (N & C & R). unfold neural_mutate.
  assert (P : 1 <= nn_inputs n).
  { destruct (nn_layers n) as [|l r]; [contradiction|]. destruct C as (S & <- & _). apply (sound_pos l S). }
  eapply rxj_bind; [apply (mutate_from_ok bad fuel (nn_layers n) None (nn_inputs n) (nn_inputs n) (nn_inputs n) B FU C R ltac:(lia) ltac:(lia) eq_refl)|].
  intros (ls, b) (C' & R' & K & D). cbn [fst] in *. cbv iota beta. apply rxj_ret. cbn [fst]. exists ls. split; [reflexivity|].
  split; [|split; [exact K|auto]]. split; [eapply same_nil; eassumption|]. split; [exact C'|exact R'].
Qed.
Lemma resize_from_ok fuel ls : forall prev n cap, (1 <= fuel)%nat -> Forall sound ls -> room cap ls -> 1 <= n <= cap ->
  match prev with None => match ls with [] => True | l :: _ => l_n_inputs l = n end | Some p => l_n_outputs p = n end ->
  rt (resize_from lm fuel prev ls) (fun ls' => chained n ls' /\ room cap ls' /\ map kind ls' = map kind ls).
Proof.
  induction ls as [|l r IH]; intros prev n cap FU F R N HP; cbn [resize_from]; [apply rt_ret; cbn; auto|].
  inversion F as [|? ? S F' X]; subst. cbn [room] in R.
  eapply rt_bind with (P := fun l1 => sound l1 /\ kind l1 = kind l /\ l_n_inputs l1 = n /\ (l_type l = CONNECTED -> l_max_outputs l1 = l_max_outputs l)).
  { assert (SAME : l_n_inputs l = n -> rt (ret l) (fun l1 => sound l1 /\ kind l1 = kind l /\ l_n_inputs l1 = n /\ (l_type l = CONNECTED -> l_max_outputs l1 = l_max_outputs l))).
    { intros E. apply rt_ret. auto. }
    destruct prev as [p|]; [|apply SAME; exact HP]. destruct (Z.eqb_spec (l_n_inputs l) (l_n_outputs p)) as [E|E]; [apply SAME; congruence|].
    eapply rt_mono; [apply (resize_layer_ok J lm Zok SR fuel l p FU S)|].
    - lia.
    - intros X. destruct (Z.eqb_spec (l_type l) CONNECTED); [contradiction|lia].
    - intros X. rewrite HP. rewrite X in R. destruct R as (R & _). destruct S as [(_ & _ & _ & G & _)|(Y & _)]; [destruct G|rewrite X in Y; destruct Y as [Y|[Y|Y]]; discriminate Y]. nia.
    - intros l1 (R1 & R2 & R3 & R4 & R5). split; [exact R1|]. split; [unfold kind; congruence|]. split; [congruence|].
      intros X. rewrite X in R5. apply R5. }
  intros l1 (S1 & K1 & N1 & M1). unfold kind in K1. injection K1 as T1 O1.
  set (cap' := if l_type l =? CONNECTED then l_max_outputs l else cap).
  assert (RR : room cap' r) by (unfold cap'; destruct (l_type l =? CONNECTED); apply R).
  assert (BN : 1 <= l_n_outputs l1 <= cap').
  { destruct (sound_pos l1 S1) as (_ & P). split; [exact P|]. unfold cap'. destruct (out_of l1 S1 cap ltac:(lia)) as [(E & X)|(E & X)]; rewrite T1 in E; rewrite E; [|exact X].
    rewrite <- M1 by now apply Z.eqb_eq. lia. }
  eapply rt_bind; [apply (IH (Some l1) (l_n_outputs l1) cap' FU F' RR BN eq_refl)|]. intros r' (C' & R' & K'). apply rt_ret. cbn [chained room map].
  split; [auto|]. split.
  - rewrite T1. unfold cap' in R'. destruct (Z.eqb_spec (l_type l) CONNECTED) as [X|X]; [rewrite M1 by exact X|]; (split; [apply R|exact R']).
  - rewrite K'. f_equal. unfold kind. congruence.
Qed.
End Any.
