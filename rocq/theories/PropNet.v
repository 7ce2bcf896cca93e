(** * Networks keep their shape and stay inside their arrays (property C66). *)
From Coq Require Import ZArith Bool List Lia.
From Verif Require Import Outcome F64 Rng RngFacts Sam SamFacts Pop PopSpec Arr ArrFacts Blas BlasFacts Clock Comp Dgp DgpFacts Act Image Layer LayerFacts MutFacts UpdFacts PropMut Net NetFacts NetLayer NetChain.
Import ListNotations.
Open Scope Z_scope.

(** The parameters describe a network with [n] inputs of connected, softmax, dropout and noise
    layers that stays within the limits however much it grows. *)
Definition args_ok (n : Z) (args : list largs) : Prop :=
  match args with [] => False | a :: _ => la_n_inputs a = n end /\ 1 <= n /\ args_fit n args.

Lemma C66_create_lemma (lm : libm) (args : list largs) (n : Z) (g : rng) : args_ok n args ->
  exists c g', neural_create lm args g = Ok (c, g') /\ net_ok c /\ faces c /\ nn_inputs c = n /\ nn_outputs c = args_outputs n args /\
    Forall2 (fun a l => l_type l = la_type a /\ (l_type l = CONNECTED -> l_options l = layer_args_opt a)) args (nn_layers c).
Proof.
  intros (H1 & H2 & H3). assert (N : args <> []) by (destruct args; [contradiction|discriminate]).
  destruct (create_ok _ lm _ (src_any lm) args n N) with (g := g) as (c & g' & E & _ & H); [destruct args; [exact I|exact H1]|exact H2|exact H3|exact I|].
  exists c, g'. auto.
Qed.
Lemma C66_copy_lemma (n : nn f64) : net_ok n ->
  exists n', neural_copy n = Ok n' /\ net_ok n' /\ faces n' /\ nn_inputs n' = nn_inputs n /\ map content (nn_layers n') = map content (nn_layers n).
Proof. apply net_copy_ok. Qed.
Lemma C66_rand_lemma (lm : libm) (n : nn f64) (g : rng) : net_ok n ->
  exists ls g', neural_rand lm n g = Ok (with_layers n ls, g') /\ net_ok (with_layers n ls) /\ map dims ls = map dims (nn_layers n).
Proof.
  intros H. destruct (net_rand_ok _ lm _ (src_any lm) n H g I) as (n' & g' & E & _ & ls & -> & H1 & H2). exists ls, g'. auto.
Qed.
Lemma C66_propagate_lemma (lm : libm) (train : bool) (n : nn f64) (x : list f64) (g : rng) : net_ok n -> nn_inputs n <= len x ->
  exists ls g', neural_propagate lm train n x g = Ok (with_layers n ls, g') /\ net_ok (with_layers n ls) /\ map content ls = map content (nn_layers n).
Proof.
  intros H L. destruct (propagate_ok _ lm _ (src_any lm) train n x H L g I) as (n' & g' & E & _ & ls & -> & H1 & H2). exists ls, g'. auto.
Qed.
Lemma C66_output_lemma (n : nn f64) (i : Z) : net_ok n -> faces n -> 0 <= i < nn_outputs n -> exists v, neural_output n i = Ok v.
Proof. intros H F HI. destruct (output_ok n i H F HI) as (p & _ & E). eauto. Qed.
Lemma C66_learn_lemma (lm : libm) (n : nn f64) (truth input : list f64) (p : layer f64) :
  net_ok n -> out_layer n = Some p -> l_n_outputs p <= len truth -> nn_inputs n <= len input ->
  exists ls, neural_learn (f64_arith lm) n truth input = Ok (with_layers n ls) /\ net_ok (with_layers n ls) /\
    map dims ls = map dims (nn_layers n) /\ map l_output ls = map l_output (nn_layers n).
Proof. apply learn_ok. Qed.
Lemma C66_mutate_lemma (lm : libm) (fuel : nat) (n : nn f64) (g : rng) : libm_ok lm -> gen_ok g -> (1 <= fuel)%nat -> net_ok n ->
  match neural_mutate lm fuel n g with
  | Ok (n', b, g') => gen_ok g' /\ exists ls, n' = with_layers n ls /\ net_ok n' /\ map kind ls = map kind (nn_layers n) /\
      (~ Exists evolves (nn_layers n) -> map dims ls = map dims (nn_layers n))
  | OutOfFuel => True
  | _ => False
  end.
Proof.
  intros LM G FU H. pose proof (net_mutate_ok _ lm _ (src_normal_ok lm LM) only_fuel fuel n (fun _ => conj (casts_normal lm LM) eq_refl) FU H g G) as X.
  destruct (neural_mutate lm fuel n g) as [((n', b), g')| | |]; try discriminate X; try exact I. exact X.
Qed.
(** With fixed numbers of neurons mutation always returns, whatever the generator. *)
Lemma C66_mutate_fixed_lemma (lm : libm) (fuel : nat) (n : nn f64) (g : rng) : (1 <= fuel)%nat -> net_ok n -> ~ Exists evolves (nn_layers n) ->
  exists ls b g', neural_mutate lm fuel n g = Ok (with_layers n ls, b, g') /\ net_ok (with_layers n ls) /\ map dims ls = map dims (nn_layers n).
Proof.
  intros FU H NE. pose proof (net_mutate_ok _ lm _ (src_any lm) (fun _ => False) fuel n (fun X => False_ind _ (NE X)) FU H g I) as X.
  destruct (neural_mutate lm fuel n g) as [((n', b), g')| |k|]; try contradiction. destruct X as (_ & ls & E & H1 & _ & H2). cbn [fst] in *. subst n'. exists ls, b, g'. auto.
Qed.
Lemma C66_resize_lemma (lm : libm) (fuel : nat) (n : nn f64) (g : rng) : (1 <= fuel)%nat -> nn_layers n <> [] -> Forall sound (nn_layers n) ->
  room (nn_inputs n) (nn_layers n) -> match nn_layers n with [] => True | l :: _ => l_n_inputs l = nn_inputs n end ->
  exists ls g', neural_resize lm fuel n g = Ok (with_layers n ls, g') /\ net_ok (with_layers n ls) /\ map kind ls = map kind (nn_layers n).
Proof.
  intros FU NE F R HN. assert (P : 1 <= nn_inputs n) by (destruct (nn_layers n) as [|l r]; [contradiction|]; inversion F; subst; rewrite <- HN; apply sound_pos; assumption).
  unfold neural_resize. destruct (resize_from_ok _ lm _ (src_any lm) fuel (nn_layers n) None (nn_inputs n) (nn_inputs n) FU F R ltac:(lia) HN g I) as (ls & g' & E & _ & C & R' & K).
  exists ls, g'. unfold bind. rewrite E. split; [reflexivity|]. split; [|exact K]. split; [eapply same_nil; eassumption|]. auto.
Qed.

(** Everything that can become of a network. *)
Inductive life (lm : libm) (args : list largs) : nn f64 -> Prop :=
| life_create g c g' : gen_ok g -> neural_create lm args g = Ok (c, g') -> life lm args c
| life_copy c c' : life lm args c -> neural_copy c = Ok c' -> life lm args c'
| life_rand c g c' g' : life lm args c -> gen_ok g -> neural_rand lm c g = Ok (c', g') -> life lm args c'
| life_mutate c fuel g c' b g' : life lm args c -> gen_ok g -> neural_mutate lm fuel c g = Ok (c', b, g') -> (1 <= fuel)%nat -> life lm args c'
| life_propagate c train x g c' g' : life lm args c -> gen_ok g -> nn_inputs c <= len x -> neural_propagate lm train c x g = Ok (c', g') -> life lm args c'
| life_learn c truth x c' p : life lm args c -> out_layer c = Some p -> l_n_outputs p <= len truth -> nn_inputs c <= len x ->
    neural_learn (f64_arith lm) c truth x = Ok c' -> life lm args c'.
Lemma C66_life_lemma (lm : libm) (args : list largs) (n : Z) (c : nn f64) : libm_ok lm -> args_ok n args -> life lm args c ->
  net_ok c /\ nn_inputs c = n /\ map l_type (nn_layers c) = map la_type args.
Proof.
  intros LM AO L.
  assert (KT : forall ls ls', map kind ls' = map kind ls -> map l_type ls' = map l_type ls).
  { intros ls ls' E. apply (f_equal (map fst)) in E. rewrite !map_map in E. exact E. }
  assert (DT : forall ls ls' : list (layer f64), map dims ls' = map dims ls -> map l_type ls' = map l_type ls).
  { intros ls ls' E. apply (f_equal (map (fun d => fst (fst (fst (fst d)))))) in E. rewrite !map_map in E. exact E. }
  assert (CT : forall ls ls' : list (layer f64), map content ls' = map content ls -> map l_type ls' = map l_type ls).
  { intros ls ls' E. apply (f_equal (map (fun d => fst (fst (fst (fst (fst (fst (fst (fst (fst d))))))))))) in E. rewrite !map_map in E. exact E. }
  induction L as [g c g' G E|c c' L IH E|c g c' g' L IH G E|c fuel g c' b g' L IH G E FU|c train x g c' g' L IH G LX E|c truth x c' p L IH O LT LX E].
  - destruct (C66_create_lemma lm args n g AO) as (c1 & g1 & E1 & H1 & _ & H2 & _ & F). rewrite E in E1. injection E1 as -> ->. split; [exact H1|]. split; [exact H2|].
    clear - F. induction F as [|a l r r' (T & _) F IH]; [reflexivity|]. cbn [map]. now rewrite T, IH.
  - destruct IH as (H & N & T). destruct (C66_copy_lemma c H) as (c1 & E1 & H1 & _ & H2 & H3). rewrite E in E1. injection E1 as ->. split; [exact H1|]. split; [congruence|]. rewrite <- T. now apply CT.
  - destruct IH as (H & N & T). destruct (C66_rand_lemma lm c g H) as (ls & g1 & E1 & H1 & H3). rewrite E in E1. injection E1 as -> ->. split; [exact H1|]. split; [exact N|]. rewrite <- T. now apply DT.
  - destruct IH as (H & N & T). pose proof (C66_mutate_lemma lm fuel c g LM G FU H) as X. rewrite E in X. destruct X as (_ & ls & -> & H1 & H2 & _). split; [exact H1|]. split; [exact N|]. rewrite <- T. now apply KT.
  - destruct IH as (H & N & T). destruct (C66_propagate_lemma lm train c x g H LX) as (ls & g1 & E1 & H1 & H3). rewrite E in E1. injection E1 as -> ->. split; [exact H1|]. split; [exact N|]. rewrite <- T. now apply CT.
  - destruct IH as (H & N & T). destruct (C66_learn_lemma lm c truth x p H O LT LX) as (ls & E1 & H1 & H3 & _). rewrite E in E1. injection E1 as ->. split; [exact H1|]. split; [exact N|]. rewrite <- T. now apply DT.
Qed.

(** ** Where the code goes wrong *)
Definition one_layer : nn f64 := mkNn [diag_layer 5] 2 2.
Lemma one_layer_ok : net_ok one_layer /\ faces one_layer.
Proof.
  destruct (diag_ok 5 ltac:(lia)) as (C & T & G & W). split; [|exists (diag_layer 5); split; reflexivity].
  split; [discriminate|]. split; [|vm_compute; intuition congruence]. split; [|split; [reflexivity|exact I]].
  left. split; [reflexivity|]. split; [exact C|]. split; [exact T|]. split; [exact G|]. vm_compute; intuition congruence.
Qed.
(** The output layer loses a neuron, the network still says it has two outputs. *)
Lemma C66_refuted_outputs_lemma : exists (lm : libm) (n n' : nn f64) (fuel : nat) (b : bool) (g g' : rng),
  net_ok n /\ faces n /\ neural_mutate lm fuel n g = Ok (n', b, g') /\ 1 < nn_outputs n' /\ neural_output n' 1 = UB OutOfBounds.
Proof.
  assert (X : match neural_mutate const_lm 1 one_layer tape3 with Ok (n', b, g') => (nn_outputs n', neural_output n' 1) = (2, UB OutOfBounds) | _ => False end) by (vm_compute; reflexivity).
  destruct one_layer_ok as (H1 & H2). exists const_lm, one_layer. revert X. destruct (neural_mutate const_lm 1 one_layer tape3) as [((n', b), g')| | |] eqn:E; intros X; try contradiction X.
  exists n', 1%nat, b, tape3, g'. injection X as X1 X2. split; [exact H1|]. split; [exact H2|]. split; [exact E|]. split; [rewrite X1; reflexivity|exact X2].
Qed.
(** A network with more outputs than there are targets reads past them when it learns; computing a
    prediction only checks that there are not fewer outputs. *)
Lemma C66_refuted_targets_lemma (lm : libm) : exists (n : nn f64) (truth x : list f64),
  net_ok n /\ faces n /\ len truth <= nn_outputs n /\ nn_inputs n <= len x /\ neural_learn (f64_arith lm) n truth x = UB OutOfBounds.
Proof. destruct one_layer_ok as (H1 & H2). exists one_layer, [f1], [f1; f1]. split; [exact H1|]. split; [exact H2|]. split; [vm_compute; discriminate|]. split; [vm_compute; discriminate|]. vm_compute. reflexivity. Qed.
(** Connected layer, then max pooling over single values of the 1 x 2 image it puts out. *)
Definition pool_args : largs := mkLargs MAXPOOL 2 2 2 0 0 1 2 1 1 1 0 f0 f0 f0 f0 f0 f0 false false false false false false.
Definition with_pool : outcome (nn f64) :=
  (p <- maxpool_init pool_args ;; Ok (mkNn [set_out_w 2 (set_out_h 1 (set_out_c 1 (diag_layer 5))); p] 2 2))%out.
(** The connected layer loses a neuron but still says its image is two wide: the resized pooling
    layer reads past its output. *)
Lemma C66_refuted_image_lemma : exists (lm : libm) (n n' : nn f64) (fuel : nat) (b : bool) (g g' : rng) (x : list f64),
  with_pool = Ok n /\ len x = nn_inputs n /\ (exists n1 g1, neural_propagate lm false n x g = Ok (n1, g1)) /\
  neural_mutate lm fuel n g = Ok (n', b, g') /\ neural_propagate lm false n' x g' = UB OutOfBounds.
Proof.
  assert (X : match with_pool with
    | Ok n => (nn_inputs n, match neural_propagate const_lm false n [f1; f1] tape3 with Ok _ => true | _ => false end,
       match neural_mutate const_lm 1 n tape3 with Ok (n', b, g') => match neural_propagate const_lm false n' [f1; f1] g' with UB OutOfBounds => true | _ => false end | _ => false end) = (2, true, true)
    | _ => False end) by (vm_compute; reflexivity).
  exists const_lm. destruct with_pool as [n| | |]; try contradiction X. exists n. injection X as X1 X2 X3.
  destruct (neural_mutate const_lm 1 n tape3) as [((n', b), g')| | |] eqn:E; try discriminate X3.
  exists n', 1%nat, b, tape3, g', [f1; f1]. split; [reflexivity|]. split; [symmetry; exact X1|].
  split; [destruct (neural_propagate const_lm false n [f1; f1] tape3) as [(n1, g1)| | |]; try discriminate X2; eauto|].
  split; [exact E|]. destruct (neural_propagate const_lm false n' [f1; f1] g') as [ | |k|]; try discriminate X3. destruct k; try discriminate X3. reflexivity.
Qed.
