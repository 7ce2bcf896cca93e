(** * Connected layers in exact arithmetic: backpropagation (C50). *)
From Coq Require Import ZArith Bool List Lia Reals Lra.
From Verif Require Import Outcome F64 Rng Sam Arr ArrFacts Blas BlasFacts Exact Clock Dgp Act ActFacts Image Layer LayerFacts.
Import ListNotations.
Open Scope R_scope.

Notation at0 := (at_ 0%R).

(** [d] is the gradient of [E] at [o]: the chain rule holds along every differentiable curve
    of vectors through [o]. *)
Definition gradient (E : list R -> R) (o d : list R) : Prop :=
  forall (c : R -> list R) (c' : Z -> R) t0, c t0 = o -> (forall t, len (c t) = len o) ->
    (forall i, (0 <= i < len o)%Z -> derivable_pt_lim (fun t => at0 (c t) i) t0 (c' i)) ->
    derivable_pt_lim (fun t => E (c t)) t0 (rsum (len o) (fun i => at0 d i * c' i)).

(** The weighted sum of neuron [i]. *)
Definition net (l : layer R) (w b x : list R) (i : Z) : R :=
  at0 b i + rsum (l_n_inputs l) (fun j => at0 w (i * l_n_inputs l + j) * at0 x j).

(** What the layer, with weights [w] and biases [b], makes of input [x], judged by [E]. *)
Definition loss (E : list R -> R) (l : layer R) (w b x : list R) : R :=
  match connected_forward R_arith (set_weights w (set_biases b l)) x with
  | Ok l' => E (l_output l')
  | _ => 0
  end.

Definition rclamp (x : R) : R := aclamp R_arith x (-100) 100.

(** ** Derivatives *)
Lemma d_ext f g x l : (forall y, f y = g y) -> derivable_pt_lim f x l -> derivable_pt_lim g x l.
Proof. intros E D. apply derivable_pt_lim_ext with f; assumption. Qed.
Lemma d_sumn n (F : Z -> R -> R) (F' : Z -> R) t : (forall j, (0 <= j < Z.of_nat n)%Z -> derivable_pt_lim (F j) t (F' j)) ->
  derivable_pt_lim (fun s => sumn n (fun j => F j s)) t (sumn n F').
Proof.
  induction n as [|n IH]; intros H; cbn [sumn].
  - apply d_const.
  - apply (d_plus (fun s => sumn n (fun j => F j s)) (F (Z.of_nat n))); [apply IH; intros; apply H; lia|apply H; lia].
Qed.
Lemma d_rsum n (F : Z -> R -> R) (F' : Z -> R) t : (forall j, (0 <= j < n)%Z -> derivable_pt_lim (F j) t (F' j)) ->
  derivable_pt_lim (fun s => rsum n (fun j => F j s)) t (rsum n F').
Proof. intros H. apply d_sumn. intros j J. apply H. lia. Qed.
Lemma d_clamp x : -100 < x < 100 -> derivable_pt_lim rclamp x 1.
Proof.
  intros (Lo & Hi) eps He. assert (D : 0 < Rmin (x + 100) (100 - x)) by (apply Rmin_glb_lt; lra).
  exists (mkposreal _ D). intros h H0 Hd. cbn in Hd.
  assert (V : forall y, -100 <= y <= 100 -> rclamp y = y).
  { intros y Hy. unfold rclamp, aclamp. cbn. now rewrite !rltb_false by lra. }
  pose proof (Rmin_l (x + 100) (100 - x)). pose proof (Rmin_r (x + 100) (100 - x)).
  assert (- Rmin (x + 100) (100 - x) < h < Rmin (x + 100) (100 - x)) by (split; [apply Rabs_def2 in Hd; lra|apply Rabs_def2 in Hd; lra]).
  rewrite !V by lra. replace ((x + h - x) / h - 1) with 0 by (field; exact H0). rewrite Rabs_R0. exact He.
Qed.
Lemma rclamp_in x : -100 <= x <= 100 -> rclamp x = x.
Proof. intros H. unfold rclamp, aclamp. cbn. now rewrite !rltb_false by lra. Qed.

(** ** The passes *)
Lemma net_in_R l x i : (0 <= l_n_inputs l)%Z -> net_in R_arith l x i = net l (l_weights l) (l_biases l) x i.
Proof.
  intros N. unfold net_in. cbn [a_num a_Z R_arith]. rewrite gemm_entry_R by exact N. unfold net, op_at.
  rewrite Rmult_1_l, Rmult_1_l, Rplus_comm. f_equal. apply rsum_ext. intros k _. rewrite Rmult_comm. reflexivity.
Qed.
Lemma shape_set l w b : conn_shape l -> len w = l_n_weights l -> len b = l_n_outputs l ->
  conn_shape (T := R) (set_weights w (set_biases b l)).
Proof. intros C W B. destruct C. constructor; assumption. Qed.
Lemma forward_R l w b x f : conn_shape l -> len w = l_n_weights l -> len b = l_n_outputs l -> (l_n_inputs l <= len x)%Z ->
  denotes (neural_activate R_arith) (l_function l) f ->
  exists st out, connected_forward R_arith (set_weights w (set_biases b l)) x = Ok (set_state st (set_output out (set_weights w (set_biases b l)))) /\
    len st = l_n_outputs l /\ len out = l_n_outputs l /\
    (forall i, (0 <= i < l_n_outputs l)%Z -> at0 st i = rclamp (net l w b x i) /\ at0 out i = f (at0 st i)).
Proof.
  intros C W B X F. pose proof (shape_set l w b C W B) as C'.
  destruct (connected_forward_ok R_arith (set_weights w (set_biases b l)) x f C' X F) as (st & out & E & L1 & L2 & H).
  exists st, out. split; [exact E|]. split; [exact L1|]. split; [exact L2|]. intros i I. destruct (H i I) as (E1 & E2).
  split; [|exact E2]. cbn [n0 a_num R_arith R_num] in E1. rewrite net_in_R in E1 by (destruct C; assumption). exact E1.
Qed.

(** Along a differentiable curve of parameters and inputs, the loss changes by the chain rule. *)
Lemma chain E l f (w b x : R -> list R) t0 (n' : Z -> R) d : conn_shape l ->
  (forall t, len (w t) = l_n_weights l) -> (forall t, len (b t) = l_n_outputs l) -> (forall t, (l_n_inputs l <= len (x t))%Z) ->
  denotes (neural_activate R_arith) (l_function l) f ->
  (forall st, connected_forward R_arith (set_weights (w t0) (set_biases (b t0) l)) (x t0) = Ok st -> gradient E (l_output st) d) ->
  (forall i, (0 <= i < l_n_outputs l)%Z -> derivable_pt_lim (fun t => net l (w t) (b t) (x t) i) t0 (n' i)) ->
  (forall i, (0 <= i < l_n_outputs l)%Z -> -100 < net l (w t0) (b t0) (x t0) i < 100) ->
  forall g : Z -> R, (forall i, (0 <= i < l_n_outputs l)%Z -> derivable_pt_lim f (net l (w t0) (b t0) (x t0) i) (g i)) ->
  derivable_pt_lim (fun t => loss E l (w t) (b t) (x t)) t0 (rsum (l_n_outputs l) (fun i => at0 d i * g i * n' i)).
Proof.
  intros C W B X F G N I g Hg.
  set (c := fun t => match connected_forward R_arith (set_weights (w t) (set_biases (b t) l)) (x t) with Ok l' => l_output l' | _ => [] end).
  assert (FW : forall t, exists st out, connected_forward R_arith (set_weights (w t) (set_biases (b t) l)) (x t) =
      Ok (set_state st (set_output out (set_weights (w t) (set_biases (b t) l)))) /\ c t = out /\ len out = l_n_outputs l /\
      (forall i, (0 <= i < l_n_outputs l)%Z -> at0 out i = f (rclamp (net l (w t) (b t) (x t) i)))).
  { intros t. destruct (forward_R l (w t) (b t) (x t) f C (W t) (B t) (X t) F) as (st & out & E1 & _ & L2 & H).
    exists st, out. split; [exact E1|]. split; [unfold c; rewrite E1; reflexivity|]. split; [exact L2|].
    intros i Hi. destruct (H i Hi) as (E2 & ->). now rewrite E2. }
  assert (LC : forall t, len (c t) = l_n_outputs l) by (intros t; destruct (FW t) as (st & out & _ & -> & L & _); exact L).
  apply d_ext with (fun t => E (c t)).
  { intros t. destruct (FW t) as (st & out & E1 & E2 & _). unfold loss. rewrite E1, E2. reflexivity. }
  destruct (FW t0) as (st0 & out0 & E0 & Ec0 & L0 & _).
  pose proof (G _ E0) as G0. cbn [l_output set_state set_output] in G0.
  specialize (G0 c (fun i => g i * n' i) t0 Ec0). rewrite L0 in G0.
  rewrite (rsum_ext _ _ (fun i => at0 d i * (g i * n' i))) by (intros; ring).
  apply G0; [exact LC|]. intros i Hi.
  apply d_ext with (fun t => f (rclamp (net l (w t) (b t) (x t) i))).
  { intros t. destruct (FW t) as (st & out & _ & -> & _ & H). symmetry. apply H, Hi. }
  apply (d_comp f (fun t => rclamp (net l (w t) (b t) (x t) i))).
  - eapply d_eq; [|apply (d_comp rclamp (fun t => net l (w t) (b t) (x t) i)); [apply N, Hi|apply d_clamp, I, Hi]]. ring.
  - rewrite rclamp_in by (pose proof (I i Hi); lra). apply Hg, Hi.
Qed.

Lemma d_put l k t0 j : (0 <= k < len l)%Z -> (0 <= j < len l)%Z ->
  derivable_pt_lim (fun t => at0 (set_nth l (Z.to_nat k) t) j) t0 (if (j =? k)%Z then 1 else 0).
Proof.
  intros K J. apply d_ext with (fun t => if (j =? k)%Z then t else at0 l j).
  { intros t. symmetry. apply set_nth_at; lia. }
  destruct (j =? k)%Z; [apply d_id|apply d_const].
Qed.
Lemma put_same l k : (0 <= k < len l)%Z -> set_nth l (Z.to_nat k) (at0 l k) = l.
Proof.
  intros K. apply (list_ext 0%R); [apply set_nth_len|]. intros i I. rewrite set_nth_len in I. rewrite set_nth_at by lia.
  destruct (Z.eqb_spec i k) as [->|]; reflexivity.
Qed.
Lemma rsum_0 n : rsum n (fun _ => 0) = 0.
Proof. rewrite (rsum_ext n _ (fun _ => 0 * 0)) by (intros; ring). rewrite rsum_scal. ring. Qed.

Lemma has_delta {T} (dd : list T) l k : has (set_delta dd l) k = has l k. Proof. reflexivity. Qed.

Lemma C50_lemma E l x d f l1 od :
  (* a connected layer with one of the activation functions *)
  conn_shape l -> (0 <= l_function l < NUM_ACTIVATIONS)%Z -> denotes (neural_activate R_arith) (l_function l) f ->
  (l_n_inputs l <= len x)%Z ->
  (* that has processed x *)
  connected_forward R_arith l x = Ok l1 ->
  (* not at the limits of the neuron states, nor at a kink of the activation function *)
  (forall i, (0 <= i < l_n_outputs l)%Z -> -100 < net l (l_weights l) (l_biases l) x i < 100 /\
     exists g, derivable_pt_lim f (net l (l_weights l) (l_biases l) x i) g) ->
  (* d is the gradient of the objective at the outputs of the layer *)
  gradient E (l_output l1) d -> len d = l_n_outputs l ->
  (forall dl, od = Some dl -> len dl = l_n_inputs l) ->
  exists l2 od', connected_backward R_arith (set_delta d l1) x od = Ok (l2, od') /\
    (* weights: the update array has received the partial derivatives *)
    (forall k, (0 <= k < l_n_weights l)%Z ->
       if has l SGD_WEIGHTS then
         derivable_pt_lim (fun t => loss E l (set_nth (l_weights l) (Z.to_nat k) t) (l_biases l) x) (at0 (l_weights l) k)
           (at0 (l_weight_updates l2) k - at0 (l_weight_updates l) k)
       else at0 (l_weight_updates l2) k = at0 (l_weight_updates l) k) /\
    (* biases *)
    (forall k, (0 <= k < l_n_biases l)%Z ->
       if has l SGD_WEIGHTS then
         derivable_pt_lim (fun t => loss E l (l_weights l) (set_nth (l_biases l) (Z.to_nat k) t) x) (at0 (l_biases l) k)
           (at0 (l_bias_updates l2) k - at0 (l_bias_updates l) k)
       else at0 (l_bias_updates l2) k = at0 (l_bias_updates l) k) /\
    (* inputs *)
    match od with
    | None => od' = None
    | Some dl => exists dl', od' = Some dl' /\ len dl' = len dl /\
        forall j, (0 <= j < l_n_inputs l)%Z ->
          derivable_pt_lim (fun t => loss E l (l_weights l) (l_biases l) (set_nth x (Z.to_nat j) t)) (at0 x j) (at0 dl' j - at0 dl j)
    end /\
    (* nothing else changes *)
    exists dd bu wu, l2 = set_delta dd (set_bias_updates bu (set_weight_updates wu l1)) /\ conn_shape l2.
Proof.
  intros C A F X FW N G LD LDL.
  destruct (C46_lemma (l_function l) A) as (f' & g & Df & Dg & HG & _).
  assert (EF : forall y, f y = f' y) by (intros y; pose proof (F y); pose proof (Df y); congruence).
  destruct (forward_R l (l_weights l) (l_biases l) x f C (cs_weights _ C) (cs_biases _ C) X F) as (st & out & E1 & L1 & L2 & H1).
  assert (ES : set_weights (l_weights l) (set_biases (l_biases l) l) = l) by (destruct l; reflexivity).
  rewrite ES in E1. rewrite FW in E1. injection E1 as ->. cbn [l_output set_state set_output] in G.
  assert (HGi : forall i, (0 <= i < l_n_outputs l)%Z -> derivable_pt_lim f (net l (l_weights l) (l_biases l) x i) (g (at0 st i))).
  { intros i Hi. destruct (H1 i Hi) as (-> & _). destruct (N i Hi) as (R1 & gi & D). rewrite rclamp_in by lra.
    apply d_ext with f'; [intros; symmetry; apply EF|]. apply HG. exists gi. apply d_ext with f; [exact EF|exact D]. }
  assert (CS : conn_shape (set_delta d (set_state st (set_output out l)))) by (destruct C; constructor; assumption).
  destruct (connected_backward_ok R_arith (set_delta d (set_state st (set_output out l))) x od g CS X Dg
    ltac:(intros dl E2; rewrite (LDL dl E2); apply Z.le_refl)) as (l2 & od' & EB & dd & bu & wu & El2 & Ldd & Lbu & Lwu & Hdd & HS & HD).
  cbn [n0 a_num R_arith R_num a_Z nne n1 nmul nadd l_delta l_state l_n_outputs l_n_inputs l_weights l_weight_updates l_bias_updates l_n_weights l_n_biases set_delta set_state set_output] in Hdd, HS, HD, Ldd, Lbu, Lwu.
  rewrite !has_delta in HS. change (has (set_state st (set_output out l)) SGD_WEIGHTS) with (has l SGD_WEIGHTS) in HS.
  exists l2, od'. split; [exact EB|].
  pose proof (cs_in _ C) as NI. pose proof (cs_out _ C) as NO. pose proof (cs_w _ C) as NW. pose proof (cs_b _ C) as NB.
  pose proof (cs_weights _ C) as LW. pose proof (cs_biases _ C) as LB.
  assert (GR : forall st', connected_forward R_arith (set_weights (l_weights l) (set_biases (l_biases l) l)) x = Ok st' -> gradient E (l_output st') d).
  { intros st' E2. rewrite ES, FW in E2. injection E2 as <-. exact G. }
  split; [|split; [|split]].
  - intros k K. subst l2. cbn [l_weight_updates set_delta set_bias_updates set_weight_updates]. destruct (has l SGD_WEIGHTS); [|destruct HS as (_ & ->); reflexivity].
    destruct HS as (_ & HW).
    assert (Z1 : (0 < l_n_inputs l)%Z) by nia.
    pose proof (Z.div_mod k (l_n_inputs l) ltac:(lia)) as DM. pose proof (Z.mod_pos_bound k (l_n_inputs l) Z1) as MB.
    assert (DB : (0 <= k / l_n_inputs l < l_n_outputs l)%Z) by (split; [apply Z.div_pos; lia|apply Z.div_lt_upper_bound; lia]).
    set (i0 := (k / l_n_inputs l)%Z) in *. set (j0 := (k mod l_n_inputs l)%Z) in *.
    pose proof (HW i0 j0 DB MB) as HWk. replace (i0 * l_n_inputs l + j0)%Z with k in HWk by lia.
    cbn [l_weight_updates set_delta set_state set_output] in HWk. rewrite HWk. rewrite gemm_entry_R by lia.
    change (rsum 1) with (sumn 1). cbn [sumn]. unfold op_at. cbn [n0 R_num]. cbv iota.
    change (Z.of_nat 0) with 0%Z. replace (0 * l_n_outputs l + i0)%Z with i0 by lia. replace (0 * l_n_inputs l + j0)%Z with j0 by lia.
    rewrite (Hdd i0 DB).
    eapply d_eq; [|apply (chain E l f (fun t => set_nth (l_weights l) (Z.to_nat k) t) (fun _ => l_biases l) (fun _ => x) (at0 (l_weights l) k)
      (fun i => 0 + rsum (l_n_inputs l) (fun j => (if (i * l_n_inputs l + j =? k)%Z then 1 else 0) * at0 x j)) d) with (g := fun i => g (at0 st i))];
      try (intros; (assumption || (rewrite ?set_nth_len; assumption)));
      try (cbn beta; rewrite put_same by lia); try assumption.
    + rewrite (rsum_ext _ _ (fun i => if (i0 =? i)%Z then at0 d i * g (at0 st i) * at0 x j0 else 0)).
      * rewrite rsum_delta by exact DB. ring.
      * intros i Hi. destruct (Z.eqb_spec i0 i) as [<-|NE].
        -- rewrite (rsum_ext _ _ (fun j => if (j0 =? j)%Z then at0 x j else 0)); [rewrite rsum_delta by lia; ring|].
           intros j Hj. destruct (Z.eqb_spec j0 j) as [<-|NE].
           ++ replace (i0 * l_n_inputs l + j0 =? k)%Z with true by (symmetry; apply Z.eqb_eq; lia). ring.
           ++ replace (i0 * l_n_inputs l + j =? k)%Z with false by (symmetry; apply Z.eqb_neq; lia). ring.
        -- rewrite (rsum_ext _ _ (fun _ => 0)); [rewrite rsum_0; ring|]. intros j Hj.
           replace (i * l_n_inputs l + j =? k)%Z with false by (symmetry; apply Z.eqb_neq; nia). ring.
    + intros i Hi. unfold net. apply (d_plus (fun _ => at0 (l_biases l) i)); [apply d_const|].
      apply (d_rsum _ (fun j t => at0 (set_nth (l_weights l) (Z.to_nat k) t) (i * l_n_inputs l + j) * at0 x j)).
      intros j Hj. eapply d_eq; [|apply d_mult; [apply d_put; nia|apply d_const]]. cbn beta. ring.
    + intros i Hi. apply N, Hi.
  - intros k K. rewrite NB in K. subst l2. cbn [l_bias_updates set_delta set_bias_updates set_weight_updates]. destruct (has l SGD_WEIGHTS); [|destruct HS as (-> & _); reflexivity].
    destruct HS as (HB & _). rewrite (HB k K). rewrite (Hdd k K).
    destruct (Req_EM_T 1 1) as [_|B]; [|now elim B].
    eapply d_eq; [|apply (chain E l f (fun _ => l_weights l) (fun t => set_nth (l_biases l) (Z.to_nat k) t) (fun _ => x) (at0 (l_biases l) k)
      (fun i => (if (i =? k)%Z then 1 else 0) + 0) d) with (g := fun i => g (at0 st i))];
      try (intros; (assumption || (rewrite ?set_nth_len; assumption)));
      try (cbn beta; rewrite put_same by lia); try assumption.
    + rewrite (rsum_ext _ _ (fun i => if (k =? i)%Z then at0 d i * g (at0 st i) else 0)).
      * rewrite rsum_delta by exact K. ring.
      * intros i Hi. rewrite (Z.eqb_sym i k). destruct (k =? i)%Z; ring.
    + intros i Hi. unfold net. apply (d_plus (fun t => at0 (set_nth (l_biases l) (Z.to_nat k) t) i)); [apply d_put; lia|apply d_const].
    + intros i Hi. apply N, Hi.
  - destruct od as [dl|]; [|exact HD]. destruct HD as (dl' & -> & LL & HJ & _). exists dl'. split; [reflexivity|]. split; [exact LL|].
    intros j J. rewrite (HJ j J). rewrite gemm_entry_R by lia.
    eapply d_eq; [|apply (chain E l f (fun _ => l_weights l) (fun _ => l_biases l) (fun t => set_nth x (Z.to_nat j) t) (at0 x j)
      (fun i => 0 + rsum (l_n_inputs l) (fun q => at0 (l_weights l) (i * l_n_inputs l + q) * (if (q =? j)%Z then 1 else 0))) d) with (g := fun i => g (at0 st i))];
      try (intros; (assumption || (rewrite ?set_nth_len; assumption)));
      try (cbn beta; rewrite put_same by lia); try assumption.
    + rewrite Rmult_1_l, Rmult_1_l. match goal with |- _ = ?a + ?b - ?b => replace (a + b - b) with a by ring end.
      apply rsum_ext. intros i Hi. rewrite (rsum_ext _ _ (fun q => if (j =? q)%Z then at0 (l_weights l) (i * l_n_inputs l + q) else 0)).
      * rewrite rsum_delta by exact J. unfold op_at. cbn [n0 R_num]. replace (0 * l_n_outputs l + i)%Z with i by lia. rewrite (Hdd i Hi). ring.
      * intros q Hq. rewrite (Z.eqb_sym q j). destruct (j =? q)%Z; ring.
    + intros i Hi. unfold net. apply (d_plus (fun _ => at0 (l_biases l) i)); [apply d_const|].
      apply (d_rsum _ (fun q t => at0 (l_weights l) (i * l_n_inputs l + q) * at0 (set_nth x (Z.to_nat j) t) q)).
      intros q Hq. eapply d_eq; [|apply d_mult; [apply d_const|apply d_put; lia]]. cbn beta. ring.
    + intros i Hi. apply N, Hi.
  - exists dd, bu, wu. split; [exact El2|]. subst l2. destruct C. constructor; cbn; assumption || lia.
Qed.

(** ** What the objective is: minus half the squared error (neural.c:neural_learn) *)
Definition squared (y o : list R) : R := - (rsum (len o) (fun i => (at0 y i - at0 o i) * (at0 y i - at0 o i)) / 2).

Lemma C50_squared_lemma y o d : len d = len o -> (forall i, (0 <= i < len o)%Z -> at0 d i = at0 y i - at0 o i) -> gradient (squared y) o d.
Proof.
  intros L H c c' t0 E0 LC D. unfold squared.
  apply d_ext with (fun t => (-1 / 2) * rsum (len o) (fun i => (at0 y i - at0 (c t) i) * (at0 y i - at0 (c t) i))).
  { intros t. rewrite LC. lra. }
  eapply d_eq; [|apply d_mult; [apply d_const|]].
  2: { apply (d_rsum _ (fun i t => (at0 y i - at0 (c t) i) * (at0 y i - at0 (c t) i)) (fun i => (-2) * (at0 d i * c' i))).
       intros i Hi.
       assert (DI : derivable_pt_lim (fun t => at0 y i - at0 (c t) i) t0 (- c' i)).
       { eapply d_eq; [|apply (derivable_pt_lim_minus (fun _ => at0 y i) (fun t => at0 (c t) i)); [apply d_const|apply D, Hi]]. ring. }
       eapply d_eq; [|apply d_mult; exact DI]. cbn beta. rewrite E0. rewrite (H i Hi). ring. }
  cbn beta. rewrite rsum_scal. lra.
Qed.

(** ** The limits of the neuron states are ignored *)

(** One linear neuron with weight 10 and no bias; trained. *)
Definition flat_layer : layer R :=
  mkLayer CONNECTED 8 LINEAR 1 1 1 0 1 1 1 1 1 0 0 0 0 0 0 0 0 0 1 1 1 0 0 0 [0] [0] [10] [0] [0] [0] [0] [] [true] [] [].
Lemma flat_shape : conn_shape flat_layer.
Proof. constructor; try reflexivity; vm_compute; congruence. Qed.
Lemma first_gradient o1 : gradient (fun o => at0 o 0) [o1] [1].
Proof.
  intros c c' t0 E0 LC D. change (len [o1]) with 1%Z in *. eapply d_eq; [|apply D; lia].
  change (rsum 1) with (sumn 1). cbn [sumn]. change (Z.of_nat 0) with 0%Z. change (at0 [1] 0) with 1. ring.
Qed.

Lemma C50_refuted_lemma : exists E l x d l1 l2,
  conn_shape l /\ denotes (neural_activate R_arith) (l_function l) (fun v => v) /\ len x = l_n_inputs l /\
  connected_forward R_arith l x = Ok l1 /\ gradient E (l_output l1) d /\ len d = l_n_outputs l /\ has l SGD_WEIGHTS = true /\
  connected_backward R_arith (set_delta d l1) x None = Ok (l2, None) /\
  derivable_pt_lim (fun t => loss E l (set_nth (l_weights l) 0 t) (l_biases l) x) (at0 (l_weights l) 0) 0 /\
  at0 (l_weight_updates l2) 0 - at0 (l_weight_updates l) 0 = 20.
Proof.
  assert (DN : denotes (neural_activate R_arith) LINEAR (fun v => v)) by (intro; reflexivity).
  assert (FW : forall t, exists st out, connected_forward R_arith (set_weights [t] (set_biases [0] flat_layer)) [20] =
     Ok (set_state st (set_output out (set_weights [t] (set_biases [0] flat_layer)))) /\ len st = 1%Z /\ len out = 1%Z /\ at0 st 0 = rclamp (t * 20) /\ at0 out 0 = rclamp (t * 20)).
  { intros t. destruct (forward_R flat_layer [t] [0] [20] (fun v => v) flat_shape ltac:(reflexivity) ltac:(reflexivity) ltac:(vm_compute; intuition congruence) DN)
      as (st & out & E1 & L1 & L2 & H). exists st, out. split; [exact E1|]. split; [exact L1|]. split; [exact L2|].
    destruct (H 0%Z ltac:(vm_compute; intuition congruence)) as (-> & H2). rewrite H2.
    replace (net flat_layer [t] [0] [20] 0) with (t * 20); [auto|].
    unfold net. change (l_n_inputs flat_layer) with 1%Z. change (rsum 1) with (sumn 1). cbn [sumn]. change (Z.of_nat 0) with 0%Z.
    change (0 * 1 + 0)%Z with 0%Z. change (at0 [0] 0) with 0. change (at0 [t] 0) with t. change (at0 [20] 0) with 20. ring. }
  destruct (FW 10) as (st & out & E1 & L1 & L2 & H1 & H2).
  change (set_weights [10] (set_biases [0] flat_layer)) with flat_layer in E1.
  set (l1 := set_state st (set_output out flat_layer)) in *.
  assert (CS : conn_shape (set_delta [1] l1)) by (constructor; try assumption; try reflexivity; vm_compute; congruence).
  destruct (connected_backward_ok R_arith (set_delta [1] l1) [20] None (fun _ => 1) CS ltac:(vm_compute; intuition congruence) ltac:(intro; reflexivity) ltac:(discriminate))
    as (l2 & od' & EB & dd & bu & wu & El2 & Ldd & Lbu & Lwu & Hdd & HS & ->).
  exists (fun o => at0 o 0), flat_layer, [20], [1], l1, l2.
  split; [exact flat_shape|]. split; [exact DN|]. split; [reflexivity|]. split; [exact E1|]. split.
  { change (l_output l1) with out. destruct out as [|o1 [|? ?]]; try discriminate L2; [apply first_gradient|exfalso; unfold len in L2; cbn [length] in L2; lia]. }
  split; [reflexivity|]. split; [reflexivity|]. split; [exact EB|]. split.
  - intros eps He. exists (mkposreal 1 Rlt_0_1). intros h H0 Hh. cbn [pos] in Hh. apply Rabs_def2 in Hh.
    assert (LV : forall t, loss (fun o => at0 o 0) flat_layer [t] [0] [20] = rclamp (t * 20)).
    { intros t. destruct (FW t) as (st' & out' & E' & _ & _ & _ & H'). unfold loss. rewrite E'. exact H'. }
    change (at0 (l_weights flat_layer) 0) with 10. change (l_biases flat_layer) with [0].
    change (set_nth (l_weights flat_layer) 0 (10 + h)) with [10 + h]. change (set_nth (l_weights flat_layer) 0 10) with [10]. rewrite !LV.
    assert (V : forall y, 100 < y -> rclamp y = 100) by (intros y Hy; unfold rclamp, aclamp; cbn; rewrite rltb_false, rltb_true by lra; reflexivity).
    rewrite !V by lra. replace ((100 - 100) / h - 0) with 0 by (field; exact H0). rewrite Rabs_R0. exact He.
  - subst l2. cbn [l_weight_updates set_delta set_bias_updates set_weight_updates].
    change (has (set_delta [1] l1) SGD_WEIGHTS) with true in HS. destruct HS as (_ & HW).
    pose proof (HW 0%Z 0%Z ltac:(vm_compute; intuition congruence) ltac:(vm_compute; intuition congruence)) as HW0. pose proof (Hdd 0%Z ltac:(vm_compute; intuition congruence)) as H0.
    change (l_n_inputs (set_delta [1] l1)) with 1%Z in HW0. change (l_n_outputs (set_delta [1] l1)) with 1%Z in HW0. change (0 * 1 + 0)%Z with 0%Z in HW0.
    cbn [n0 a_num a_Z R_arith R_num nmul] in HW0, H0. rewrite HW0, gemm_entry_R by lia. change (rsum 1) with (sumn 1). cbn [sumn].
    unfold op_at. cbn [n0 R_num]. change (Z.of_nat 0) with 0%Z. change (0 * 1 + 0)%Z with 0%Z. rewrite H0.
    change (at0 (l_delta (set_delta [1] l1)) 0) with 1. change (at0 [20] 0) with 20.
    change (at0 (l_weight_updates (set_delta [1] l1)) 0) with 0. change (at0 (l_weight_updates flat_layer) 0) with 0. ring.
Qed.
