(** * Activation functions over the reals: the gradient code is the derivative. *)
From Coq Require Import ZArith Bool List Lia Reals Lra.
From Flocq Require Import Core BinarySingleNaN.
From Verif Require Import Outcome F64 Rng Arr ArrFacts Blas BlasFacts Exact Act.
Import ListNotations.
Open Scope R_scope.

Definition rltb (x y : R) : bool := if Rlt_dec x y then true else false.
Definition rleb (x y : R) : bool := if Rle_dec x y then true else false.
Definition R_arith : arith R :=
  mkArith R R_num IZR rltb rleb exp (fun x => exp x - 1) (fun x => ln (1 + x)) tanh sin cos
    (fun p q => IZR p / IZR q) (- B2R dbl_max).

Lemma rltb_true x y : x < y -> rltb x y = true.
Proof. intros H. unfold rltb. destruct (Rlt_dec x y); [reflexivity|contradiction]. Qed.
Lemma rltb_false x y : y <= x -> rltb x y = false.
Proof. intros H. unfold rltb. destruct (Rlt_dec x y); [lra|reflexivity]. Qed.
Lemma rleb_true x y : x <= y -> rleb x y = true.
Proof. intros H. unfold rleb. destruct (Rle_dec x y); [reflexivity|contradiction]. Qed.
Lemma rleb_false x y : y < x -> rleb x y = false.
Proof. intros H. unfold rleb. destruct (Rle_dec x y); [lra|reflexivity]. Qed.

(** ** Derivatives *)
Lemma d_eq f x a b : a = b -> derivable_pt_lim f x a -> derivable_pt_lim f x b.
Proof. now intros ->. Qed.
Lemma d_comp f g x a b : derivable_pt_lim g x a -> derivable_pt_lim f (g x) b -> derivable_pt_lim (fun y => f (g y)) x (b * a).
Proof. apply (derivable_pt_lim_comp g f). Qed.
Lemma d_plus f g x a b : derivable_pt_lim f x a -> derivable_pt_lim g x b -> derivable_pt_lim (fun y => f y + g y) x (a + b).
Proof. apply (derivable_pt_lim_plus f g). Qed.
Lemma d_mult f g x a b : derivable_pt_lim f x a -> derivable_pt_lim g x b -> derivable_pt_lim (fun y => f y * g y) x (a * g x + f x * b).
Proof. apply (derivable_pt_lim_mult f g). Qed.
Lemma d_div f g x a b : derivable_pt_lim f x a -> derivable_pt_lim g x b -> g x <> 0 ->
  derivable_pt_lim (fun y => f y / g y) x ((a * g x - b * f x) / (g x * g x)).
Proof. apply (derivable_pt_lim_div f g). Qed.
Lemma d_id x : derivable_pt_lim (fun y => y) x 1. Proof. apply derivable_pt_lim_id. Qed.
Lemma d_const c x : derivable_pt_lim (fun _ => c) x 0. Proof. apply (derivable_pt_lim_const c). Qed.
Lemma d_opp x : derivable_pt_lim (fun y => - y) x (-1).
Proof. apply (derivable_pt_lim_opp (fun y => y)). apply d_id. Qed.
Lemma d_exp_opp x : derivable_pt_lim (fun y => exp (- y)) x (- exp (- x)).
Proof. eapply d_eq; [|apply (d_comp exp Ropp); [apply d_opp|apply derivable_pt_lim_exp]]. ring. Qed.
Lemma den_pos x : 0 < 1 + exp (- x). Proof. pose proof (exp_pos (- x)). lra. Qed.


Lemma logistic_d x : derivable_pt_lim (logistic_activate R_arith) x (logistic_gradient R_arith x).
Proof.
  unfold logistic_activate, logistic_gradient. cbn. pose proof (den_pos x).
  eapply d_eq; [|apply (d_div (fun _ => 1) (fun y => 1 + exp (- y)));
    [apply d_const|apply (d_plus (fun _ => 1) (fun y => exp (- y))); [apply d_const|apply d_exp_opp]|lra]].
  field. lra.
Qed.
Lemma loggy_d x : derivable_pt_lim (loggy_activate R_arith) x (loggy_gradient R_arith x).
Proof.
  unfold loggy_activate, loggy_gradient. cbn. pose proof (den_pos x).
  eapply d_eq; [|apply (derivable_pt_lim_minus (fun y => 2 / (1 + exp (- y))) (fun _ => 1));
    [apply (d_div (fun _ => 2) (fun y => 1 + exp (- y)));
     [apply d_const|apply (d_plus (fun _ => 1) (fun y => exp (- y))); [apply d_const|apply d_exp_opp]|lra]|apply d_const]].
  assert (E : exp (- x) = / exp x) by apply exp_Ropp. rewrite E. pose proof (exp_pos x). field. lra.
Qed.
Lemma gaussian_d x : derivable_pt_lim (gaussian_activate R_arith) x (gaussian_gradient R_arith x).
Proof.
  unfold gaussian_activate, gaussian_gradient. cbn.
  eapply d_eq; [|apply (d_comp exp (fun y => - y * y)); [apply (d_mult Ropp (fun y => y)); [apply d_opp|apply d_id]|apply derivable_pt_lim_exp]].
  ring.
Qed.
Lemma soft_plus_d x : derivable_pt_lim (soft_plus_activate R_arith) x (soft_plus_gradient R_arith x).
Proof.
  unfold soft_plus_activate, soft_plus_gradient. cbn. pose proof (exp_pos x). pose proof (den_pos x).
  eapply d_eq; [|apply (d_comp ln (fun y => 1 + exp y)); [apply (d_plus (fun _ => 1) exp); [apply d_const|apply derivable_pt_lim_exp]|apply derivable_pt_lim_ln; lra]].
  rewrite exp_Ropp. field. lra.
Qed.
Lemma cosh_pos x : 0 < cosh x.
Proof. unfold cosh. pose proof (exp_pos x). pose proof (exp_pos (- x)). lra. Qed.
Lemma tanh_d x : derivable_pt_lim (tanh_activate R_arith) x (tanh_gradient R_arith x).
Proof.
  unfold tanh_activate, tanh_gradient. cbn. pose proof (cosh_pos x).
  apply derivable_pt_lim_ext with (fun y => sinh y / cosh y); [intros; reflexivity|].
  eapply d_eq; [|apply (d_div sinh cosh); [apply derivable_pt_lim_sinh|apply derivable_pt_lim_cosh|lra]].
  unfold tanh. field. lra.
Qed.
Lemma sin_d x : derivable_pt_lim (sin_activate R_arith) x (sin_gradient R_arith x).
Proof. apply derivable_pt_lim_sin. Qed.
Lemma cos_d x : derivable_pt_lim (cos_activate R_arith) x (cos_gradient R_arith x).
Proof. apply derivable_pt_lim_cos. Qed.
Lemma linear_d x : derivable_pt_lim (linear_activate (T := R)) x (linear_gradient R_arith x).
Proof. apply d_id. Qed.

Lemma d_right f g x l : 0 < x -> (forall y, 0 < y -> f y = g y) -> derivable_pt_lim f x l -> derivable_pt_lim g x l.
Proof. intros H E. apply derivable_pt_lim_locally_ext with (a := 0) (b := x + 1); [lra|]. intros z Z'. apply E. lra. Qed.
Lemma d_left f g x l : x < 0 -> (forall y, y < 0 -> f y = g y) -> derivable_pt_lim f x l -> derivable_pt_lim g x l.
Proof. intros H E. apply derivable_pt_lim_locally_ext with (a := x - 1) (b := 0); [lra|]. intros z Z'. apply E. lra. Qed.
Lemma d_scal c x : derivable_pt_lim (fun y => c * y) x c.
Proof. eapply d_eq; [|apply (d_mult (fun _ => c) (fun y => y)); [apply d_const|apply d_id]]. ring. Qed.

Lemma relu_d x : x <> 0 -> derivable_pt_lim (relu_activate R_arith) x (relu_gradient R_arith x).
Proof.
  intros N. unfold relu_gradient. cbn [a_lt a_Z R_arith truth]. destruct (Rlt_le_dec 0 x) as [P|P].
  - rewrite rltb_true by exact P. apply d_right with (fun y => y); [exact P| |apply d_id].
    intros y Y. unfold relu_activate, truth. cbn. rewrite rltb_true by exact Y. ring.
  - rewrite rltb_false by exact P. apply d_left with (fun _ => 0); [lra| |apply d_const].
    intros y Y. unfold relu_activate, truth. cbn. rewrite rltb_false by lra. ring.
Qed.
Lemma leaky_d x : x <> 0 -> derivable_pt_lim (leaky_activate R_arith) x (leaky_gradient R_arith x).
Proof.
  intros N. unfold leaky_gradient. cbn. destruct (Rlt_le_dec 0 x) as [P|P].
  - rewrite rltb_false by lra. apply d_right with (fun y => y); [exact P| |apply d_id].
    intros y Y. unfold leaky_activate. cbn. now rewrite rltb_true by exact Y.
  - rewrite rltb_true by lra. apply d_left with (fun y => 1 / 10 * y); [lra| |apply d_scal].
    intros y Y. unfold leaky_activate. cbn. now rewrite rltb_false by lra.
Qed.
Lemma selu_right y : 0 <= y -> selu_activate R_arith y = 10507 / 10000 * y.
Proof. intros Y. unfold selu_activate, truth. cbn. rewrite rleb_true, rltb_false by lra. ring. Qed.
Lemma selu_left y : y < 0 -> selu_activate R_arith y = 10507 / 10000 * (16732 / 10000) * (exp y - 1).
Proof. intros Y. unfold selu_activate, truth. cbn. rewrite rleb_false, rltb_true by lra. ring. Qed.
Lemma selu_d x : x <> 0 -> derivable_pt_lim (selu_activate R_arith) x (selu_gradient R_arith x).
Proof.
  intros N. unfold selu_gradient, truth. cbn. destruct (Rlt_le_dec 0 x) as [P|P].
  - rewrite rleb_true, rltb_false by lra. eapply d_eq; [|apply d_right with (fun y => 10507 / 10000 * y); [exact P| |apply d_scal]]; [ring|].
    intros y Y. symmetry. apply selu_right. lra.
  - rewrite rleb_false, rltb_true by lra.
    eapply d_eq; [|apply d_left with (fun y => 10507 / 10000 * (16732 / 10000) * (exp y - 1)); [lra| |]].
    3: { apply (d_mult (fun _ => 10507 / 10000 * (16732 / 10000)) (fun y => exp y - 1)); [apply d_const|].
         apply (derivable_pt_lim_minus exp (fun _ => 1)); [apply derivable_pt_lim_exp|apply d_const]. }
    + cbn. ring.
    + intros y Y. symmetry. now apply selu_left.
Qed.

(** ** Kinks: a function with two different one-sided slopes at 0 has no derivative there. *)
Lemma kink f a b : f 0 = 0 -> (forall e, 0 < e -> exists d, 0 < d /\ forall h, 0 < h < d -> Rabs (f h / h - a) < e) ->
  (forall e, 0 < e -> exists d, 0 < d /\ forall h, - d < h < 0 -> Rabs (f h / h - b) < e) ->
  a <> b -> forall l, ~ derivable_pt_lim f 0 l.
Proof.
  intros F0 HA HB N l D. set (e := Rabs (a - b) / 4). assert (E : 0 < e) by (unfold e; pose proof (Rabs_pos_lt (a - b)); lra).
  destruct (D e E) as (dd & DD). destruct (HA e E) as (da & Da & A). destruct (HB e E) as (db & Db & B).
  set (m := Rmin dd (Rmin da db)). assert (M : 0 < m <= dd /\ m <= da /\ m <= db).
  { unfold m. pose proof (cond_pos dd). pose proof (Rmin_l dd (Rmin da db)). pose proof (Rmin_r dd (Rmin da db)).
    pose proof (Rmin_l da db). pose proof (Rmin_r da db). repeat split; try lra. apply Rmin_pos; [lra|apply Rmin_pos; lra]. }
  pose proof (DD (m / 2) ltac:(lra) ltac:(rewrite Rabs_right; lra)) as D1.
  pose proof (DD (- (m / 2)) ltac:(lra) ltac:(rewrite Rabs_left; lra)) as D2.
  pose proof (A (m / 2) ltac:(lra)) as A1. pose proof (B (- (m / 2)) ltac:(lra)) as B1.
  rewrite Rplus_0_l, F0, Rminus_0_r in D1, D2.
  assert (Rabs (a - b) < 4 * e).
  { replace (a - b) with (- (f (m / 2) / (m / 2) - a) + (f (m / 2) / (m / 2) - l) - (f (- (m / 2)) / - (m / 2) - l) + (f (- (m / 2)) / - (m / 2) - b)) by ring.
    apply Rabs_def2 in D1, D2, A1, B1. apply Rabs_def1; lra. }
  unfold e in H. lra.
Qed.
Lemma slope_right (f : R -> R) a : (forall y, 0 < y -> f y = a * y) ->
  forall e, 0 < e -> exists d, 0 < d /\ forall h, 0 < h < d -> Rabs (f h / h - a) < e.
Proof.
  intros F e E. exists 1. split; [lra|]. intros h H. rewrite F by lra. replace (a * h / h - a) with 0 by (field; lra).
  rewrite Rabs_R0. exact E.
Qed.
Lemma slope_left (f : R -> R) a : (forall y, y < 0 -> f y = a * y) ->
  forall e, 0 < e -> exists d, 0 < d /\ forall h, - d < h < 0 -> Rabs (f h / h - a) < e.
Proof.
  intros F e E. exists 1. split; [lra|]. intros h H. rewrite F by lra. replace (a * h / h - a) with 0 by (field; lra).
  rewrite Rabs_R0. exact E.
Qed.
Lemma relu_kink l : ~ derivable_pt_lim (relu_activate R_arith) 0 l.
Proof.
  apply kink with (a := 1) (b := 0); [unfold relu_activate, truth; cbn; ring| | |lra].
  - apply slope_right. intros y Y. unfold relu_activate, truth. cbn. rewrite rltb_true by exact Y. ring.
  - apply slope_left. intros y Y. unfold relu_activate, truth. cbn. rewrite rltb_false by lra. ring.
Qed.
Lemma leaky_kink l : ~ derivable_pt_lim (leaky_activate R_arith) 0 l.
Proof.
  apply kink with (a := 1) (b := 1 / 10); [unfold leaky_activate; cbn; rewrite rltb_false by lra; ring| | |lra].
  - apply slope_right. intros y Y. unfold leaky_activate. cbn. rewrite rltb_true by exact Y. ring.
  - apply slope_left. intros y Y. unfold leaky_activate. cbn. now rewrite rltb_false by lra.
Qed.
Lemma selu_kink l : ~ derivable_pt_lim (selu_activate R_arith) 0 l.
Proof.
  apply kink with (a := 10507 / 10000) (b := 10507 / 10000 * (16732 / 10000)).
  - rewrite selu_right by lra. ring.
  - apply slope_right. intros y Y. apply selu_right. lra.
  - intros e E. set (c := 10507 / 10000 * (16732 / 10000)). assert (C : 0 < c) by (unfold c; lra).
    destruct (derivable_pt_lim_exp 0 (e / c)) as (d & D); [apply Rdiv_lt_0_compat; lra|].
    exists d. split; [apply cond_pos|]. intros h H. rewrite selu_left by lra. fold c.
    specialize (D h ltac:(lra) ltac:(rewrite Rabs_left; lra)). rewrite Rplus_0_l, exp_0 in D.
    replace (c * (exp h - 1) / h - c) with (c * ((exp h - 1) / h - 1)) by (field; lra).
    rewrite Rabs_mult, (Rabs_right c) by lra. apply Rmult_lt_reg_r with (/ c); [apply Rinv_0_lt_compat; exact C|].
    replace (c * Rabs ((exp h - 1) / h - 1) * / c) with (Rabs ((exp h - 1) / h - 1)) by (field; lra). exact D.
  - lra.
Qed.

(** The function an activation code denotes, and the gradient the code computes. *)
Definition denotes (code : Z -> R -> outcome R) (a : Z) (f : R -> R) : Prop := forall x, code a x = Ok (f x).

Lemma act_cases a : (0 <= a < NUM_ACTIVATIONS)%Z ->
  a = LOGISTIC \/ a = RELU \/ a = TANH \/ a = LINEAR \/ a = GAUSSIAN \/ a = SIN \/ a = COS \/ a = SOFT_PLUS \/ a = LEAKY \/ a = SELU \/ a = LOGGY.
Proof. unfold NUM_ACTIVATIONS, LOGISTIC, RELU, TANH, LINEAR, GAUSSIAN, SIN, COS, SOFT_PLUS, LEAKY, SELU, LOGGY. lia. Qed.

Lemma C46_lemma a : (0 <= a < NUM_ACTIVATIONS)%Z -> exists f g,
  denotes (neural_activate R_arith) a f /\ denotes (neural_gradient R_arith) a g /\
  (forall x, (exists l, derivable_pt_lim f x l) -> derivable_pt_lim f x (g x)) /\
  (forall x, x <> 0 -> exists l, derivable_pt_lim f x l).
Proof.
  intros A. destruct (act_cases a A) as [->|[->|[->|[->|[->|[->|[->|[->|[->|[->| ->]]]]]]]]]].
  - exists (logistic_activate R_arith), (logistic_gradient R_arith). repeat (split; [intro; reflexivity|]). split; intros; [apply logistic_d|eexists; apply logistic_d].
  - exists (relu_activate R_arith), (relu_gradient R_arith). repeat (split; [intro; reflexivity|]). split.
    + intros x (l & D). destruct (Req_dec x 0) as [->|N]; [now apply relu_kink in D|now apply relu_d].
    + intros x N. eexists. now apply relu_d.
  - exists (tanh_activate R_arith), (tanh_gradient R_arith). repeat (split; [intro; reflexivity|]). split; intros; [apply tanh_d|eexists; apply tanh_d].
  - exists (linear_activate (T := R)), (linear_gradient R_arith). repeat (split; [intro; reflexivity|]). split; intros; [apply linear_d|eexists; apply linear_d].
  - exists (gaussian_activate R_arith), (gaussian_gradient R_arith). repeat (split; [intro; reflexivity|]). split; intros; [apply gaussian_d|eexists; apply gaussian_d].
  - exists (sin_activate R_arith), (sin_gradient R_arith). repeat (split; [intro; reflexivity|]). split; intros; [apply sin_d|eexists; apply sin_d].
  - exists (cos_activate R_arith), (cos_gradient R_arith). repeat (split; [intro; reflexivity|]). split; intros; [apply cos_d|eexists; apply cos_d].
  - exists (soft_plus_activate R_arith), (soft_plus_gradient R_arith). repeat (split; [intro; reflexivity|]). split; intros; [apply soft_plus_d|eexists; apply soft_plus_d].
  - exists (leaky_activate R_arith), (leaky_gradient R_arith). repeat (split; [intro; reflexivity|]). split.
    + intros x (l & D). destruct (Req_dec x 0) as [->|N]; [now apply leaky_kink in D|now apply leaky_d].
    + intros x N. eexists. now apply leaky_d.
  - exists (selu_activate R_arith), (selu_gradient R_arith). repeat (split; [intro; reflexivity|]). split.
    + intros x (l & D). destruct (Req_dec x 0) as [->|N]; [now apply selu_kink in D|now apply selu_d].
    + intros x N. eexists. now apply selu_d.
  - exists (loggy_activate R_arith), (loggy_gradient R_arith). repeat (split; [intro; reflexivity|]). split; intros; [apply loggy_d|eexists; apply loggy_d].
Qed.

(** The training pass multiplies each error by the derivative at the neuron's state. *)
Lemma C46_array_lemma a f state delta n : (0 <= a < NUM_ACTIVATIONS)%Z -> denotes (neural_activate R_arith) a f ->
  (0 <= n <= ArrFacts.len state)%Z -> (n <= ArrFacts.len delta)%Z ->
  exists delta', neural_gradient_array R_arith state delta n a = Ok delta' /\ ArrFacts.len delta' = ArrFacts.len delta /\
    (forall i, (0 <= i < n)%Z -> forall l, derivable_pt_lim f (ArrFacts.at_ 0 state i) l ->
       ArrFacts.at_ 0 delta' i = ArrFacts.at_ 0 delta i * l) /\
    (forall i, (n <= i)%Z -> ArrFacts.at_ 0 delta' i = ArrFacts.at_ 0 delta i).
Proof.
  intros A F N D. destruct (C46_lemma a A) as (f' & g & Df & Dg & G & _).
  assert (E : forall x, f x = f' x) by (intros x; pose proof (F x); pose proof (Df x); congruence).
  destruct (ArrFacts.ofor_ind (fun i d' => ArrFacts.len d' = ArrFacts.len delta /\
     (forall k, (0 <= k < i)%Z -> ArrFacts.at_ 0 d' k = ArrFacts.at_ 0 delta k * g (ArrFacts.at_ 0 state k)) /\
     (forall k, (i <= k)%Z -> ArrFacts.at_ 0 d' k = ArrFacts.at_ 0 delta k))
    (fun i delta => obind (rd state i) (fun s => obind (neural_gradient R_arith a s) (fun g => modify_at delta i (fun d => d * g)))) n delta)
    as (d' & E1 & L & H1 & H2).
  - lia.
  - split; [reflexivity|]. split; [intros k K; lia|auto].
  - intros i d1 I (L & H1 & H2). rewrite (ArrFacts.rd_ok 0) by lia. cbn [obind]. rewrite Dg. cbn [obind].
    unfold modify_at. rewrite (ArrFacts.rd_ok 0) by lia. cbn [obind].
    destruct (ArrFacts.wr_ok d1 i (ArrFacts.at_ 0 d1 i * g (ArrFacts.at_ 0 state i)) ltac:(lia)) as (d2 & W & W1 & W2 & W3 & _).
    exists d2. split; [exact W|]. split; [lia|]. split.
    + intros k K. destruct (Z.eq_dec k i) as [->|NE]; [rewrite W2, H2 by lia; reflexivity|rewrite W3 by lia; apply H1; lia].
    + intros k K. rewrite W3 by lia. apply H2. lia.
  - exists d'. split; [exact E1|]. split; [exact L|]. split; [|exact H2].
    intros i I l Dl. rewrite H1 by exact I. f_equal.
    assert (Dl' : derivable_pt_lim f' (ArrFacts.at_ 0 state i) l) by (apply derivable_pt_lim_ext with f; [exact E|exact Dl]).
    eapply uniqueness_limite; [apply G; eauto|exact Dl'].
Qed.

(** Where the activation functions are differentiable. *)
Lemma C46_where_lemma a f : (0 <= a < NUM_ACTIVATIONS)%Z -> denotes (neural_activate R_arith) a f -> forall x,
  (exists l, derivable_pt_lim f x l) <-> (x <> 0 \/ (a <> RELU /\ a <> LEAKY /\ a <> SELU)).
Proof.
  intros A F x.
  assert (T : forall g, denotes (neural_activate R_arith) a g -> forall l, derivable_pt_lim f x l <-> derivable_pt_lim g x l).
  { intros g G l. assert (E : forall y, f y = g y) by (intros y; pose proof (F y); pose proof (G y); congruence).
    split; apply derivable_pt_lim_ext; [exact E|intros; symmetry; apply E]. }
  destruct (C46_lemma a A) as (f' & g & Df & _ & _ & O). split.
  - intros (l & D). destruct (Req_dec x 0) as [->|N]; [right|now left].
    repeat split; intros ->.
    + rewrite (T (relu_activate R_arith)) in D by (intro; reflexivity). now apply relu_kink in D.
    + rewrite (T (leaky_activate R_arith)) in D by (intro; reflexivity). now apply leaky_kink in D.
    + rewrite (T (selu_activate R_arith)) in D by (intro; reflexivity). now apply selu_kink in D.
  - intros [N|N].
    + destruct (O x N) as (l & D). exists l. apply (T f' Df). exact D.
    + destruct (act_cases a A) as [E|[E|[E|[E|[E|[E|[E|[E|[E|[E|E]]]]]]]]]]; subst a;
        try (exfalso; destruct N as (N1 & N2 & N3); now (apply N1 || apply N2 || apply N3)).
      * eexists. apply (T (logistic_activate R_arith)); [intro; reflexivity|apply logistic_d].
      * eexists. apply (T (tanh_activate R_arith)); [intro; reflexivity|apply tanh_d].
      * eexists. apply (T (linear_activate (T := R))); [intro; reflexivity|apply linear_d].
      * eexists. apply (T (gaussian_activate R_arith)); [intro; reflexivity|apply gaussian_d].
      * eexists. apply (T (sin_activate R_arith)); [intro; reflexivity|apply sin_d].
      * eexists. apply (T (cos_activate R_arith)); [intro; reflexivity|apply cos_d].
      * eexists. apply (T (soft_plus_activate R_arith)); [intro; reflexivity|apply soft_plus_d].
      * eexists. apply (T (loggy_activate R_arith)); [intro; reflexivity|apply loggy_d].
Qed.

(** The functions themselves, in closed form. *)
Lemma C46_values_lemma x :
  neural_activate R_arith LOGISTIC x = Ok (1 / (1 + exp (- x))) /\
  neural_activate R_arith RELU x = Ok (Rmax 0 x) /\
  neural_activate R_arith TANH x = Ok (sinh x / cosh x) /\
  neural_activate R_arith LINEAR x = Ok x /\
  neural_activate R_arith GAUSSIAN x = Ok (exp (- (x * x))) /\
  neural_activate R_arith SIN x = Ok (sin x) /\
  neural_activate R_arith COS x = Ok (cos x) /\
  neural_activate R_arith SOFT_PLUS x = Ok (ln (1 + exp x)) /\
  neural_activate R_arith LEAKY x = Ok (Rmax x (x / 10)) /\
  neural_activate R_arith SELU x = Ok (10507 / 10000 * (if Rlt_dec x 0 then 16732 / 10000 * (exp x - 1) else x)) /\
  neural_activate R_arith LOGGY x = Ok (2 / (1 + exp (- x)) - 1) /\
  (forall a, ~ (0 <= a < NUM_ACTIVATIONS)%Z -> neural_activate R_arith a x = Exit /\ neural_gradient R_arith a x = Exit).
Proof.
  assert (EO : forall a b : R, a = b -> Ok a = Ok b) by (now intros a b ->).
  split; [reflexivity|]. split.
  { apply (EO (relu_activate R_arith x)). unfold relu_activate, truth. cbn. destruct (Rlt_dec 0 x).
    - rewrite rltb_true by lra. rewrite Rmax_right by lra. ring.
    - rewrite rltb_false by lra. rewrite Rmax_left by lra. ring. }
  split; [reflexivity|]. split; [reflexivity|]. split.
  { apply (EO (gaussian_activate R_arith x)). unfold gaussian_activate. cbn. f_equal. ring. }
  split; [reflexivity|]. split; [reflexivity|]. split; [reflexivity|]. split.
  { apply (EO (leaky_activate R_arith x)). unfold leaky_activate. cbn. destruct (Rlt_dec 0 x).
    - rewrite rltb_true by lra. rewrite Rmax_left by lra. reflexivity.
    - rewrite rltb_false by lra. rewrite Rmax_right by lra. lra. }
  split.
  { apply (EO (selu_activate R_arith x)). unfold selu_activate, truth. cbn. destruct (Rlt_dec x 0).
    - rewrite rltb_true, rleb_false by lra. lra.
    - rewrite rltb_false, rleb_true by lra. lra. }
  split; [reflexivity|].
  intros a N. unfold neural_activate, neural_gradient, LOGISTIC, RELU, GAUSSIAN, TANH, SIN, COS, SOFT_PLUS, LINEAR, LEAKY, SELU, LOGGY, NUM_ACTIVATIONS in *.
  repeat match goal with |- context [(a =? ?k)%Z] => destruct (Z.eqb_spec a k); [lia|] end. split; reflexivity.
Qed.
