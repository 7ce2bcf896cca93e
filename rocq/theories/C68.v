(** * C68 A network is trained by the gradient of its error. *)
From Coq Require Import ZArith Bool List Reals Lra Lia.
From Flocq Require Import Core BinarySingleNaN.
From Verif Require Import Outcome F64 F64Facts F64Bounds Rng Arr ArrFacts Blas BlasFacts Exact Act ActFacts Image Layer LayerFacts PropConn PoolFacts PropPool Net PropBack.
Import ListNotations.
Open Scope Z_scope.

(** Networks of connected layers in exact arithmetic, of any depth and size. [learned_net E x ls
    ls']: in every layer the updates accumulated by ls' are those of ls plus the partial derivatives
    of E after the whole network, and nothing but updates and errors differs. Learning returns the
    layers after one update each. *)
Theorem C68 :
  forall (ls : list (layer R)) (x y : list R) (a b : Z),
  ls <> [] ->
  Forall conn_layer ls ->
  fits (len x) ls ->
  width (len x) ls <= len y ->
  smooth_net ls x ->
  exists ls1 back fin : list (layer R),
    propagate R_arith ls x = Ok ls1 /\
    Forall2 visited ls ls1 /\
    run ls1 x = run ls x /\
    neural_learn R_arith {| nn_layers := ls1; nn_inputs := a; nn_outputs := b |} y x =
    Ok {| nn_layers := fin; nn_inputs := a; nn_outputs := b |} /\
    learned_net (squared y) x ls1 back /\
    Forall2 (fun l' l'' : layer R => layer_update R_arith l' = Ok l'') back fin.
Proof. exact @C68_lemma. Qed.
Print Assumptions C68.

(** The forward pass above is the code: on networks of connected layers, in doubles,
    neural_propagate runs exactly it and draws nothing. *)
Theorem C68_code :
  forall (lm : libm) (train : bool) (n : nn f64) (x : list f64) (g : rng),
  Forall (fun l : layer f64 => l_type l = CONNECTED) (nn_layers n) ->
  neural_propagate lm train n x g =
  match propagate (f64_arith lm) (nn_layers n) x with
  | Ok ls => Ok (with_layers n ls, g)
  | Exit => Exit
  | UB k => UB k
  | OutOfFuel => OutOfFuel
  end.
Proof. exact @C68_code_lemma. Qed.
Print Assumptions C68_code.

(** The hypotheses are met: two inputs, two linear neurons, one logistic neuron. *)
Definition hidden : layer R :=
  mkLayer CONNECTED 8 LINEAR 2 2 2 0 4 2 4 1%R 1%R 0%R 0%R 0%R 0%R 0%R 0 0 0 0 2 1 1 0 0 0
    [0%R; 0%R] [0%R; 0%R] [1%R; (-2)%R; (/ 2)%R; 3%R] [0%R; 0%R; 0%R; 0%R] [0%R; 1%R] [0%R; 0%R] [0%R; 0%R] []
    [true; true; true; true] [] [].
Definition top : layer R :=
  mkLayer CONNECTED 8 LOGISTIC 2 1 1 0 2 1 2 1%R 1%R 0%R 0%R 0%R 0%R 0%R 0 0 0 0 1 1 1 0 0 0
    [0%R] [0%R] [1%R; 2%R] [0%R; 0%R] [1%R] [0%R] [0%R] []
    [true; true] [] [].
Lemma top_shape : conn_layer top.
Proof. split; [reflexivity|]. split; [constructor; try reflexivity; vm_compute; congruence|]. unfold NUM_ACTIVATIONS; vm_compute; intuition congruence. Qed.
Lemma hidden_shape : conn_layer hidden.
Proof. split; [reflexivity|]. split; [constructor; try reflexivity; vm_compute; congruence|]. unfold NUM_ACTIVATIONS; vm_compute; intuition congruence. Qed.
Lemma hidden_net x : net hidden (l_weights hidden) (l_biases hidden) x 0 = (at_ 0 x 0 - 2 * at_ 0 x 1)%R /\
  net hidden (l_weights hidden) (l_biases hidden) x 1 = (1 + (/ 2 * at_ 0 x 0 + 3 * at_ 0 x 1))%R.
Proof.
  unfold net. change (l_n_inputs hidden) with 2. change (rsum 2) with (sumn 2). cbn [sumn Z.of_nat Pos.of_succ_nat]. split.
  - transitivity (0 + (0 + 1 * at_ 0 x 0 + (-2) * at_ 0 x 1))%R; [reflexivity|lra].
  - transitivity (1 + (0 + / 2 * at_ 0 x 0 + 3 * at_ 0 x 1))%R; [reflexivity|lra].
Qed.
Lemma top_net x : net top (l_weights top) (l_biases top) x 0 = (1 + (at_ 0 x 0 + 2 * at_ 0 x 1))%R.
Proof.
  unfold net. change (l_n_inputs top) with 2. change (rsum 2) with (sumn 2). cbn [sumn Z.of_nat Pos.of_succ_nat].
  transitivity (1 + (0 + 1 * at_ 0 x 0 + 2 * at_ 0 x 1))%R; [reflexivity|lra].
Qed.
Lemma linear_id : denotes (neural_activate R_arith) LINEAR (fun v => v).
Proof. intros v. reflexivity. Qed.
Lemma hidden_out : at_ 0%R (out_of hidden [1%R; (-1)%R]) 0 = 3%R /\ at_ 0%R (out_of hidden [1%R; (-1)%R]) 1 = (- 3 / 2)%R.
Proof.
  destruct hidden_shape as (_ & CS & FN).
  destruct (forward_R hidden (l_weights hidden) (l_biases hidden) [1%R; (-1)%R] (fun v => v) CS ltac:(reflexivity) ltac:(reflexivity) ltac:(vm_compute; congruence) linear_id) as (st & out & E & _ & _ & HF).
  change (set_weights (l_weights hidden) (set_biases (l_biases hidden) hidden)) with hidden in E.
  unfold out_of. rewrite E. cbn [l_output set_state set_output]. destruct (hidden_net [1%R; (-1)%R]) as (N0 & N1).
  destruct (HF 0 ltac:(vm_compute; intuition congruence)) as (A0 & B0). destruct (HF 1 ltac:(vm_compute; intuition congruence)) as (A1 & B1).
  change (at_ 0%R [1%R; (-1)%R] 0) with 1%R in N0, N1. change (at_ 0%R [1%R; (-1)%R] 1) with (-1)%R in N0, N1.
  rewrite rclamp_in in A0, A1 by lra. lra.
Qed.
Example C68_example : Forall conn_layer [hidden; top] /\ fits 2 [hidden; top] /\ width 2 [hidden; top] <= len [1%R] /\
  smooth_net [hidden; top] [1%R; (-1)%R].
Proof.
  split; [apply Forall_cons; [exact hidden_shape|apply Forall_cons; [exact top_shape|apply Forall_nil]]|]. split; [repeat split|]. split; [vm_compute; congruence|].
  destruct hidden_shape as (_ & _ & FH). destruct top_shape as (_ & _ & FT). destruct hidden_out as (O0 & O1).
  split; [|split; [|exact I]].
  - intros f F i HI. destruct (hidden_net [1%R; (-1)%R]) as (N0 & N1).
    change (at_ 0%R [1%R; (-1)%R] 0) with 1%R in N0, N1. change (at_ 0%R [1%R; (-1)%R] 1) with (-1)%R in N0, N1.
    change (l_n_outputs hidden) with 2 in HI. assert (C : i = 0 \/ i = 1) by lia. split.
    + destruct C; subst i; [rewrite N0|rewrite N1]; lra.
    + apply (C46_where_lemma LINEAR f FH F). right. repeat split; discriminate.
  - intros f F i HI. change (l_n_outputs top) with 1 in HI. assert (i = 0) by lia. subst i. rewrite top_net, O0, O1. split; [lra|].
    apply (C46_where_lemma LOGISTIC f FT F). right. repeat split; discriminate.
Qed.
