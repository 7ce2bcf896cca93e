(** * Recurrent layers (C74). *)
From Coq Require Import ZArith Bool List Lia.
From Verif Require Import Outcome F64 Rng RngFacts Sam SamFacts Pop PopSpec Arr ArrFacts Blas BlasFacts Clock Comp Dgp DgpFacts Act Image Layer LayerFacts MutFacts UpdFacts PropMut Net NetFacts NetLayer PropFlag File FileFacts Recur RecFacts.
Import ListNotations.
Open Scope Z_scope.

(** The three layers fit each other, the arrays have the sizes the fields say. *)
Record rsound (r : rlayer f64) : Prop := {
  rs_type : l_type (r_l r) = RECURRENT;
  rs_in : part (l_n_inputs (r_l r)) (l_n_outputs (r_l r)) (l_max_outputs (r_l r)) (l_options (r_l r)) LINEAR (r_in r);
  rs_self : part (l_n_outputs (r_l r)) (l_n_outputs (r_l r)) (l_max_outputs (r_l r)) (l_options (r_l r)) LINEAR (r_self r);
  rs_out : part (l_n_outputs (r_l r)) (l_n_outputs (r_l r)) (l_max_outputs (r_l r)) (l_options (r_l r)) (l_function (r_l r)) (r_out r);
  rs_state : len (l_state (r_l r)) = l_n_outputs (r_l r);
  rs_prev : len (r_prev r) = l_n_outputs (r_l r);
  rs_mu : len (l_mu (r_l r)) = 6;
  rs_linked : r_linked r = true;
  rs_room : l_max_outputs (r_l r) * l_max_outputs (r_l r) <= N_WEIGHTS_MAX;
  rs_eta : l_eta_min (r_l r) = f0 /\ l_eta_max (r_l r) = f0
}.
(** The number of active weights is that of the three layers. *)
Definition counted (r : rlayer f64) : Prop := l_n_active (r_l r) = l_n_active (r_in r) + l_n_active (r_self r) + l_n_active (r_out r).
(** Parameters of a recurrent layer within the limits. *)
Definition rarg_ok (a : largs) : Prop :=
  1 <= la_n_inputs a /\ 1 <= la_n_init a <= la_n_max a /\ la_n_max a <= N_OUTPUTS_MAX /\ la_n_max a * la_n_inputs a <= N_WEIGHTS_MAX /\
  la_n_max a * la_n_max a <= N_WEIGHTS_MAX /\ Z.abs (la_grow a) <= 1000000000 /\ 0 <= la_function a < NUM_ACTIVATIONS.

Lemma linear_range : 0 <= LINEAR < NUM_ACTIVATIONS.
Proof. unfold LINEAR, NUM_ACTIVATIONS. lia. Qed.
Lemma guard_out l : 1 <= l_n_outputs l <= N_OUTPUTS_MAX -> @layer_guard_outputs f64 l = Ok tt.
Proof. intros H. unfold layer_guard_outputs. apply FileFacts.guard_ok. exact H. Qed.
Lemma mu_schemes : Forall scheme_ok layer_mu_type.
Proof. unfold layer_mu_type. repeat (apply Forall_cons || apply Forall_nil); unfold scheme_ok; auto. Qed.
Lemma rs_range r : rsound r -> 1 <= l_n_inputs (r_l r) /\ 1 <= l_n_outputs (r_l r) <= l_max_outputs (r_l r) /\ l_max_outputs (r_l r) <= N_OUTPUTS_MAX /\ 0 <= l_function (r_l r) < NUM_ACTIVATIONS.
Proof. intros S. pose proof (part_dims _ _ _ _ _ _ (rs_in _ S)). pose proof (part_conn _ _ _ _ _ _ (rs_out _ S)) as (_ & _ & _ & F). repeat split; lia. Qed.

Section Any.
Context (J : rng -> Prop) (lm : libm) (Zok : f64 -> Prop) (SR : src lm J Zok).
Notation rt := (rt J).

Lemma recurrent_init_ok a : rarg_ok a -> rt (recurrent_init lm a) (fun r => rsound r /\ counted r /\
  (l_n_inputs (r_l r), l_n_outputs (r_l r), l_max_outputs (r_l r), l_options (r_l r), l_function (r_l r)) = (la_n_inputs a, la_n_init a, la_n_max a, layer_args_opt a, la_function a) /\
  l_state (r_l r) = zeros f0 (la_n_init a) /\ (l_eta (r_l r) = l_eta (r_in r) /\ l_eta (r_self r) = l_eta (r_in r) /\ l_eta (r_out r) = l_eta (r_in r))).
Proof.
  intros (A1 & A2 & A3 & A4 & A5 & A6 & A7). unfold recurrent_init. cbv zeta.
  eapply rt_bind; [apply (part_init J lm Zok SR a (la_n_inputs a) LINEAR); try assumption; apply linear_range|]. intros i Pi.
  eapply rt_bind; [apply (part_init J lm Zok SR a (la_n_init a) LINEAR); try assumption; try apply linear_range; nia|]. intros s Ps.
  eapply rt_bind; [apply (part_init J lm Zok SR a (la_n_init a) (la_function a)); try assumption; nia|]. intros o Po.
  eapply rt_bind_lift; [apply guard_out; cbn [l_n_outputs set_options set_function set_n_inputs set_n_outputs]; unfold N_OUTPUTS_MAX in *; lia|].
  eapply rt_bind; [apply (sam_init_len J lm Zok SR); apply mu_schemes|]. intros mu LM. apply rt_ret.
  assert (LMU : len mu = 6) by (unfold len; rewrite LM; reflexivity). generalize (layer_args_opt a), (l_eta i) at 1 2 3 4, Pi, Ps, Po. intros op e Pi' Ps' Po'.
  split; [|split; [reflexivity|split; [reflexivity|split; [reflexivity|auto]]]].
  constructor; cbn [r_l r_in r_self r_out r_prev r_linked]; try reflexivity.
  - exact Pi'.
  - apply part_eta. exact Ps'.
  - apply part_eta. exact Po'.
  - change (len (zeros f0 (la_n_init a)) = la_n_init a). apply len_zeros. lia.
  - change (len (zeros f0 (la_n_init a)) = la_n_init a). apply len_zeros. lia.
  - exact LMU.
  - exact A5.
  - split; reflexivity.
Qed.

Lemma recurrent_rand_ok r : rsound r -> rt (recurrent_rand lm r) (fun r' => rsound r' /\ r_l r' = r_l r /\ r_prev r' = r_prev r).
Proof.
  intros S. unfold recurrent_rand. eapply rt_bind; [apply (part_rand J lm Zok SR), (rs_in _ S)|]. intros i Pi.
  eapply rt_bind; [apply (part_rand J lm Zok SR), (rs_self _ S)|]. intros s Ps. eapply rt_bind; [apply (part_rand J lm Zok SR), (rs_out _ S)|]. intros o Po.
  apply rt_ret. split; [|split; reflexivity]. destruct S. constructor; assumption.
Qed.
Lemma recurrent_resize_ok fuel r p : (1 <= fuel)%nat -> rsound r -> 1 <= l_n_outputs p -> l_max_outputs (r_l r) * l_n_outputs p <= N_WEIGHTS_MAX ->
  rt (recurrent_resize lm fuel r p) (fun r' => rsound r' /\ counted r' /\ l_n_inputs (r_l r') = l_n_outputs p /\ l_n_outputs (r_l r') = l_n_outputs (r_l r) /\
    l_state (r_l r') = l_state (r_l r) /\ r_self r' = r_self r /\ r_out r' = r_out r).
Proof.
  intros FU S P W. unfold recurrent_resize. eapply rt_bind; [apply (part_resize J lm Zok SR fuel _ _ _ _ _ _ p FU (rs_in _ S) P W)|]. intros i Pi. cbv zeta. apply rt_ret.
  pose proof (pt_in _ _ _ _ _ _ Pi) as E. split; [|split; [reflexivity|split; [exact E|repeat split; reflexivity]]].
  destruct S. constructor; try assumption. cbn [r_l r_in]. change (part (l_n_inputs i) (l_n_outputs (r_l r)) (l_max_outputs (r_l r)) (l_options (r_l r)) LINEAR i). rewrite E. exact Pi.
Qed.
End Any.

(** ** Copies *)
Lemma recurrent_copy_ok r : rsound r -> exists r', recurrent_copy r = Ok r' /\ rsound r' /\ (counted r -> counted r') /\
  content (r_in r') = content (r_in r) /\ content (r_self r') = content (r_self r) /\ content (r_out r') = content (r_out r) /\
  (l_eta (r_l r'), l_mu (r_l r')) = (l_eta (r_l r), l_mu (r_l r)) /\ dims (r_l r') = dims (r_l r) /\ l_function (r_l r') = l_function (r_l r) /\
  r_prev r' = r_prev r /\ l_state (r_l r') = zeros f0 (l_n_outputs (r_l r)) /\ l_output (r_out r') = zeros f0 (l_n_outputs (r_l r)).
Proof.
  intros S. destruct (rs_range r S) as (N1 & N2 & N3 & N4). unfold recurrent_copy. rewrite (rs_type _ S), Z.eqb_refl. cbn [negb]. cbv zeta.
  destruct (part_copy _ _ _ _ _ _ (rs_in _ S)) as (i & Ei & Pi & Ci). destruct (part_copy _ _ _ _ _ _ (rs_self _ S)) as (s & Es & Ps & Cs).
  destruct (part_copy _ _ _ _ _ _ (rs_out _ S)) as (o & Eo & Po & Co).
  destruct (copy_rest _ _ (pt_type _ _ _ _ _ _ (rs_in _ S)) Ei) as (Ri & _). destruct (copy_rest _ _ (pt_type _ _ _ _ _ _ (rs_self _ S)) Es) as (Rs & _).
  destruct (copy_rest _ _ (pt_type _ _ _ _ _ _ (rs_out _ S)) Eo) as (Ro & Oo).
  rewrite Ei. cbn [obind]. rewrite Es. cbn [obind]. rewrite Eo. cbn [obind].
  rewrite guard_out by (cbn [l_n_outputs set_type set_options set_function set_n_inputs set_n_outputs]; unfold N_OUTPUTS_MAX in *; lia). cbn [obind].
  rewrite (copy_all 6 (l_mu (r_l r))) by (try apply (rs_mu _ S); try apply len_zeros; lia). cbn [obind].
  rewrite (copy_all (l_n_outputs (r_l r)) (r_prev r)) by (try apply (rs_prev _ S); try apply len_zeros; lia). cbn [obind].
  eexists. split; [reflexivity|]. cbn [r_l r_in r_self r_out r_prev].
  injection Ri as _ Ai _ _. injection Rs as _ As _ _. injection Ro as _ Ao _ _.
  split; [|split; [|split; [exact Ci|split; [exact Cs|split; [exact Co|split; [reflexivity|split; [unfold dims; cbn; rewrite (rs_type _ S); reflexivity|split; [reflexivity|split; [reflexivity|split; [reflexivity|]]]]]]]]]].
  - destruct S. constructor; cbn [r_l r_in r_self r_out r_prev r_linked]; try assumption; try reflexivity.
    + change (len (zeros f0 (l_n_outputs (r_l r))) = l_n_outputs (r_l r)). apply len_zeros. lia.
    + split; reflexivity.
  - unfold counted. intros K. cbn [r_l r_in r_self r_out]. rewrite Ai, As, Ao. exact K.
  - rewrite Oo, (pt_out _ _ _ _ _ _ (rs_out _ S)). reflexivity.
Qed.

(** ** Passes *)
Section Pass.
Context (lm : libm).
Let A := f64_arith lm.

(** The parameters are those of [r]: only what passes write differs. *)
Definition same_net (r r' : rlayer f64) : Prop :=
  content (r_in r') = content (r_in r) /\ content (r_self r') = content (r_self r) /\ content (r_out r') = content (r_out r) /\
  dims (r_l r') = dims (r_l r) /\ l_function (r_l r') = l_function (r_l r) /\ l_eta (r_l r') = l_eta (r_l r) /\ l_mu (r_l r') = l_mu (r_l r).

Lemma axpy_one (x y : list f64) n : 0 <= n -> len x = n -> len y = n -> exists y', blas_axpy (a_num A) n (a_Z A 1) x 1 y 0 1 = Ok y' /\ len y' = n /\
  (forall i, 0 <= i < n -> at_ f0 y' i = fadd (at_ f0 y i) (at_ f0 x i)).
Proof.
  intros N LX LY. destruct (blas_axpy_ok (a_num A) n (a_Z A 1) x 1 y 0 1) as (y' & E & L & H & _); [lia|lia|apply stride1; lia|apply stride1; lia|].
  exists y'. split; [exact E|]. split; [lia|]. intros i I. specialize (H i I). rewrite Z.mul_1_r, Z.add_0_l in H. exact H.
Qed.

Lemma recurrent_forward_ok r x (f : f64 -> f64) : rsound r -> l_n_inputs (r_l r) <= len x -> (forall v, neural_activate A (l_function (r_l r)) v = Ok (f v)) ->
  exists r', recurrent_forward A r x = Ok r' /\ rsound r' /\ (counted r -> counted r') /\ same_net r r' /\ r_prev r' = l_state (r_l r) /\
    (forall i, 0 <= i < l_n_outputs (r_l r) -> at_ f0 (l_state (r_l r')) i = fadd (pre A (r_in r) x i) (pre A (r_self r) (l_output (r_out r)) i)) /\
    (forall i, 0 <= i < l_n_outputs (r_l r) -> at_ f0 (l_output (r_out r')) i = f (pre A (r_out r) (l_state (r_l r')) i)).
Proof.
  intros S LX F. destruct (rs_range r S) as (N1 & N2 & N3 & N4). unfold recurrent_forward. cbv zeta.
  rewrite (copy_all (l_n_outputs (r_l r)) (l_state (r_l r))) by (try apply (rs_state _ S); try apply (rs_prev _ S); lia). cbn [obind].
  destruct (part_forward lm _ _ _ _ _ (r_in r) x (fun v => v) (rs_in _ S) LX (linear_id A)) as (i & Ei & Pi & Ai & Ci & Hi).
  destruct (part_dims _ _ _ _ _ _ (rs_out _ S)) as (_ & _ & _ & _ & LO & _).
  destruct (part_forward lm _ _ _ _ _ (r_self r) (l_output (r_out r)) (fun v => v) (rs_self _ S) ltac:(lia) (linear_id A)) as (s & Es & Ps & As & Cs & Hs).
  fold A in Ei, Es. rewrite Ei. cbn [obind]. rewrite Es. cbn [obind].
  destruct (part_dims _ _ _ _ _ _ Pi) as (_ & _ & _ & _ & LI & _). destruct (part_dims _ _ _ _ _ _ Ps) as (_ & _ & _ & _ & LS & _).
  rewrite (copy_all (l_n_outputs (r_l r)) (l_output i)) by (try apply (rs_state _ S); lia). cbn [obind].
  destruct (axpy_one (l_output s) (l_output i) (l_n_outputs (r_l r)) ltac:(lia) LS LI) as (st & Est & Lst & Hst). rewrite Est. cbn [obind].
  destruct (part_forward lm _ _ _ _ _ (r_out r) st f (rs_out _ S) ltac:(lia) F) as (o & Eo & Po & Ao & Co & Ho). fold A in Eo. rewrite Eo. cbn [obind].
  eexists. split; [reflexivity|]. cbn [r_l r_in r_self r_out r_prev]. split; [|split; [|split; [|split; [reflexivity|split]]]].
  - pose proof (rs_state _ S) as RS. destruct S. constructor; assumption.
  - unfold counted. cbn [r_l r_in r_self r_out]. rewrite Ai, As, Ao. exact (fun H => H).
  - unfold same_net. cbn [r_l r_in r_self r_out]. repeat split; try assumption; reflexivity.
  - intros k K. change (at_ f0 st k = fadd (pre A (r_in r) x k) (pre A (r_self r) (l_output (r_out r)) k)). rewrite Hst, Hi, Hs by exact K. reflexivity.
  - intros k K. apply Ho. exact K.
Qed.

(** Learning with input [x]: the error is added to the pending change of the bias, its product
    with the input to that of the weight. *)
Definition learned (x : list f64) (l l' : layer f64) : Prop :=
  if has l SGD_WEIGHTS
  then (forall i, 0 <= i < l_n_outputs l -> at_ f0 (l_bias_updates l') i = fadd (at_ f0 (l_bias_updates l) i) (at_ f0 (l_delta l') i)) /\
       (forall i j, 0 <= i < l_n_outputs l -> 0 <= j < l_n_inputs l -> at_ f0 (l_weight_updates l') (i * l_n_inputs l + j) =
          fadd (at_ f0 (l_weight_updates l) (i * l_n_inputs l + j)) (fmul (at_ f0 (l_delta l') i) (at_ f0 x j)))
  else l_bias_updates l' = l_bias_updates l /\ l_weight_updates l' = l_weight_updates l.
Lemma entry_one (d x : list f64) no ni c i j : gemm_entry (a_num A) true false 1 (a_Z A 1) d no x ni (a_Z A 1) i j c = fadd c (fmul (at_ f0 d i) (at_ f0 x j)).
Proof.
  unfold gemm_entry. change (sum_from (a_num A) (fmul c f1) 1 (fun k => fmul (fmul f1 (op_at (a_num A) true d no i k)) (op_at (a_num A) false x ni k j)) = fadd c (fmul (at_ f0 d i) (at_ f0 x j))).
  rewrite fmul_1_r. change (sum_from (a_num A) c 1 (fun k => fmul (fmul f1 (op_at (a_num A) true d no i k)) (op_at (a_num A) false x ni k j))) with (fadd c (fmul (fmul f1 (op_at (a_num A) true d no i 0)) (op_at (a_num A) false x ni 0 j))).
  rewrite fmul_1_l. unfold op_at. rewrite !Z.mul_0_l, !Z.add_0_l. reflexivity.
Qed.
Lemma part_learn ni no mx op fn l x od (g : f64 -> f64) : part ni no mx op fn l -> ni <= len x -> (forall d, od = Some d -> ni <= len d) ->
  (forall v, neural_gradient A fn v = Ok (g v)) ->
  exists l' od', connected_backward A l x od = Ok (l', od') /\ part ni no mx op fn l' /\ l_n_active l' = l_n_active l /\ content l' = content l /\ l_output l' = l_output l /\
    learned x l l' /\ (forall i, 0 <= i < no -> at_ f0 (l_delta l') i = fmul (at_ f0 (l_delta l) i) (g (at_ f0 (l_state l) i))) /\
    match od with
    | Some d => exists d', od' = Some d' /\ len d' = len d /\ (forall j, 0 <= j < ni -> at_ f0 d' j =
        gemm_entry (a_num A) false false no (a_Z A 1) (l_delta l') no (l_weights l) ni (a_Z A 1) 0 j (at_ f0 d j))
    | None => od' = None
    end.
Proof.
  intros P L LD G. destruct (part_conn _ _ _ _ _ _ P) as (C & TI & GR & F). pose proof P as P'. destruct P' as [Ps Pt pt_in0 pt_out0 Pm Po pt_fn0].
  destruct (connected_backward_ok A l x od g C) as (l' & od' & E & dd & bu & wu & -> & L1 & L2 & L3 & DD & UP & OD); [lia|rewrite pt_fn0; exact G|intros d D; rewrite pt_in0; auto|].
  eexists _, od'. split; [exact E|]. split; [|split; [reflexivity|split; [reflexivity|split; [reflexivity|split; [|split]]]]].
  - split; try assumption. apply sound_updates; assumption.
  - unfold learned. destruct (has l SGD_WEIGHTS); [|exact UP]. destruct UP as (UB & UW). split; [exact UB|].
    intros i j I Hj. refine (eq_trans (UW i j I Hj) _). apply entry_one.
  - intros i I. apply DD. lia.
  - destruct od as [d|]; [|exact OD]. destruct OD as (d' & E1 & E2 & E3 & _). exists d'. split; [exact E1|]. split; [exact E2|]. intros j Hj. rewrite <- pt_in0, <- pt_out0. apply E3. lia.
Qed.

Lemma recurrent_backward_ok r x od (g : f64 -> f64) : rsound r -> l_n_inputs (r_l r) <= len x -> (forall d, od = Some d -> l_n_inputs (r_l r) <= len d) ->
  (forall v, neural_gradient A (l_function (r_l r)) v = Ok (g v)) ->
  exists r' od', recurrent_backward A r x od = Ok (r', od') /\ rsound r' /\ (counted r -> counted r') /\ same_net r r' /\
    (r_l r' = r_l r /\ r_prev r' = r_prev r /\ l_output (r_out r') = l_output (r_out r)) /\
    match od with Some d => exists d', od' = Some d' /\ len d' = len d | None => od' = None end /\
    (let n := l_n_outputs (r_l r) in
     (forall i, 0 <= i < n -> at_ f0 (l_delta (r_out r')) i = fmul (at_ f0 (l_delta (r_out r)) i) (g (at_ f0 (l_state (r_out r)) i))) /\
     (exists e, len e = n /\ (forall j, 0 <= j < n -> at_ f0 e j =
         gemm_entry (a_num A) false false n (a_Z A 1) (l_delta (r_out r')) n (l_weights (r_out r)) n (a_Z A 1) 0 j f0) /\
       (forall j, 0 <= j < n -> at_ f0 (l_delta (r_in r')) j = at_ f0 e j /\ at_ f0 (l_delta (r_self r')) j = at_ f0 e j))) /\
    learned x (r_in r) (r_in r') /\ learned (r_prev r) (r_self r) (r_self r') /\ learned (l_state (r_l r)) (r_out r) (r_out r').
Proof.
  intros S LX LD G. destruct (rs_range r S) as (N1 & N2 & N3 & N4). unfold recurrent_backward. cbv zeta.
  destruct (part_dims _ _ _ _ _ _ (rs_in _ S)) as (_ & _ & _ & _ & _ & DI & _). destruct (part_dims _ _ _ _ _ _ (rs_self _ S)) as (_ & _ & _ & _ & _ & DS & _).
  destruct (clear_ok (a_Z A 0) (l_n_outputs (r_l r)) (l_delta (r_in r)) ltac:(lia)) as (di & -> & Ldi & _). cbn [obind].
  destruct (clear_ok (a_Z A 0) (l_n_outputs (r_l r)) (l_delta (r_self r)) ltac:(lia)) as (ds & -> & Lds & Zds). cbn [obind].
  destruct (part_learn _ _ _ _ _ (r_out r) (l_state (r_l r)) (Some ds) g (rs_out _ S)) as (o & od1 & Eo & Po & Ao & Co & Oo & Uo & Do & e & -> & Le & He).
  { rewrite (rs_state _ S). lia. } { intros d E. injection E as <-. lia. } { exact G. }
  rewrite Eo. cbn [obind snd fst]. rewrite (copy_all (l_n_outputs (r_l r)) e) by lia. cbn [obind].
  destruct (part_learn _ _ _ _ _ (set_delta e (r_self r)) (r_prev r) None (fun _ => f1) (part_delta e _ _ _ _ _ _ (rs_self _ S) ltac:(lia))) as (s & od2 & Es & Ps & As & Cs & _ & Us & Ds & ->).
  { rewrite (rs_prev _ S). lia. } { discriminate. } { reflexivity. }
  rewrite Es. cbn [obind fst snd].
  destruct (part_learn _ _ _ _ _ (set_delta e (r_in r)) x od (fun _ => f1) (part_delta e _ _ _ _ _ _ (rs_in _ S) ltac:(lia)) LX LD) as (i & od3 & Ei & Pi & Ai & Ci & _ & Ui & Di & OD).
  { reflexivity. }
  rewrite Ei. cbn [obind fst snd]. eexists _, od3. split; [reflexivity|]. cbn [r_l r_in r_self r_out r_prev].
  split; [|split; [|split; [|split; [auto|split; [|split; [split; [exact Do|]|split; [exact Ui|split; [exact Us|exact Uo]]]]]]]].
  - destruct S. constructor; assumption.
  - unfold counted. cbn [r_l r_in r_self r_out]. rewrite Ai, As, Ao. exact (fun H => H).
  - unfold same_net. cbn [r_l r_in r_self r_out]. repeat split; try reflexivity; [exact Ci|exact Cs|exact Co].
  - destruct od as [d|]; [|exact OD]. destruct OD as (d' & E1 & E2 & _). exists d'. auto.
  - exists e. split; [lia|]. split.
    + intros j Hj. rewrite He by exact Hj. change f0 with (a_Z A 0). rewrite Zds by exact Hj. reflexivity.
    + intros j Hj. rewrite (Di j Hj), (Ds j Hj), !fmul_1_r. split; reflexivity.
Qed.

Lemma recurrent_update_ok r : rsound r -> exists r', recurrent_update A r = Ok r' /\ rsound r' /\ (counted r -> counted r') /\ r_l r' = r_l r /\ r_prev r' = r_prev r /\ l_output (r_out r') = l_output (r_out r).
Proof.
  intros S. unfold recurrent_update. destruct (has (r_l r) SGD_WEIGHTS && a_lt A (a_Z A 0) (l_eta (r_l r))); [|exists r; auto 10].
  destruct (part_update lm _ _ _ _ _ _ (rs_in _ S)) as (i & Ei & Pi & Ai & Oi). destruct (part_update lm _ _ _ _ _ _ (rs_self _ S)) as (s & Es & Ps & As & Os).
  destruct (part_update lm _ _ _ _ _ _ (rs_out _ S)) as (o & Eo & Po & Ao & Oo). fold A in Ei, Es, Eo. rewrite Ei. cbn [obind]. rewrite Es. cbn [obind]. rewrite Eo. cbn [obind].
  eexists. split; [reflexivity|]. cbn [r_l r_in r_self r_out r_prev]. split; [|split; [|auto]].
  - destruct S. constructor; assumption.
  - unfold counted. cbn [r_l r_in r_self r_out]. rewrite Ai, As, Ao. exact (fun H => H).
Qed.
End Pass.

(** ** Mutation *)
Section Mutate.
Context (J : rng -> Prop) (lm : libm) (Zok : f64 -> Prop) (SR : src lm J Zok) (bad : outcome unit -> Prop).
Context (junk : f64) (fuel : nat).
Notation rxj := (rxj J bad).

Record rkept (r r' : rlayer f64) : Prop := {
  rk_sound : rsound r';
  rk_counted : counted r -> counted r';
  rk_in : l_n_inputs (r_l r') = l_n_inputs (r_l r);
  rk_max : l_max_outputs (r_l r') = l_max_outputs (r_l r);
  rk_opt : l_options (r_l r') = l_options (r_l r);
  rk_out : has (r_l r) EVOLVE_NEURONS = false -> l_n_outputs (r_l r') = l_n_outputs (r_l r);
  rk_eta : flt f0 (l_eta (r_l r)) = false -> flt f0 (l_eta (r_l r')) = false
}.
Lemma rkept_refl r : rsound r -> rkept r r.
Proof. intros S. split; auto. Qed.
Lemma rkept_trans r1 r2 r3 : rkept r1 r2 -> rkept r2 r3 -> rkept r1 r3.
Proof.
  intros A B. destruct A, B. split; try congruence; auto. intros H. rewrite rk_out1; auto. unfold has in *. rewrite rk_opt0. exact H.
Qed.
Lemma clamp_zero v : flt f0 (clamp v f0 f0) = false.
Proof. unfold clamp. destruct (flt v f0) eqn:E; [reflexivity|]. destruct (fgt v f0) eqn:G; [reflexivity|]. exact G. Qed.

Lemma r_mutate_eta_ok r : rsound r -> rt J (r_mutate_eta lm r) (fun p => rkept r (fst p) /\ (has (r_l r) EVOLVE_ETA = true -> flt f0 (l_eta (r_l (fst p))) = false)).
Proof.
  intros S. unfold r_mutate_eta. destruct (has (r_l r) EVOLVE_ETA); [|apply rt_ret; split; [apply rkept_refl, S|discriminate]].
  eapply rt_bind_lift; [apply (rd_ok f0); rewrite (rs_mu _ S); lia|]. eapply rt_bind; [apply (mutate_eta_ok J lm Zok SR)|]. intros (l, b) (e & E & z & _ & Ez). cbn [fst] in E. subst l.
  destruct (rs_eta _ S) as (E1 & E2). rewrite E1, E2 in Ez.
  assert (C : flt f0 e = false) by (rewrite Ez; apply clamp_zero).
  destruct b; apply rt_ret; cbn [fst]; (split; [|intros _; exact C]).
  - split; try reflexivity; [|intros H; exact H|intros _; exact C].
    destruct S. constructor; try assumption; cbn [r_l r_in r_self r_out]; apply part_eta; assumption.
  - split; try reflexivity; [|intros H; exact H|intros _; exact C]. destruct S. constructor; assumption.
Qed.
Lemma r_mutate_functions_ok r : rsound r -> rt J (r_mutate_functions r) (fun p => rkept r (fst p)).
Proof.
  intros S. unfold r_mutate_functions. destruct (has (r_l r) EVOLVE_FUNCTIONS); [|apply rt_ret, rkept_refl, S].
  eapply rt_bind_lift; [apply (rd_ok f0); rewrite (rs_mu _ S); lia|]. eapply rt_bind; [apply (mutate_functions_ok J lm Zok SR)|].
  intros (l, b) (f & E & F & B). cbn [fst snd] in E, B. destruct (rs_range r S) as (_ & _ & _ & N4).
  assert (FR : 0 <= f < NUM_ACTIVATIONS) by (destruct F; lia).
  destruct b; apply rt_ret; cbn [fst].
  - subst l. split; try reflexivity; [|intros H; exact H|intros H; exact H].
    destruct S. constructor; try assumption. cbn [r_l r_out]. change (l_function (set_function f (r_l r))) with f. apply part_function with (1 := rs_out0). exact FR.
  - rewrite (B eq_refl) in *. split; try reflexivity; [|intros H; exact H|intros H; exact H]. destruct S. constructor; assumption.
Qed.
Lemma r_mutate_weights_ok r : rsound r -> rt J (r_mutate_weights lm r) (fun p => rkept r (fst p)).
Proof.
  intros S. unfold r_mutate_weights. destruct (has (r_l r) EVOLVE_WEIGHTS); [|apply rt_ret, rkept_refl, S].
  eapply rt_bind_lift; [apply (rd_ok f0); rewrite (rs_mu _ S); lia|].
  eapply rt_bind; [apply (part_weights J lm Zok SR _ _ _ _ _ _ _ (rs_in _ S))|]. intros (i, b1) (Pi & Ai).
  eapply rt_bind; [apply (part_weights J lm Zok SR _ _ _ _ _ _ _ (rs_self _ S))|]. intros (s, b2) (Ps & As).
  eapply rt_bind; [apply (part_weights J lm Zok SR _ _ _ _ _ _ _ (rs_out _ S))|]. intros (o, b3) (Po & Ao).
  apply rt_ret. cbn [fst] in *. split; try reflexivity; [|unfold counted; cbn [r_l r_in r_self r_out]; rewrite Ai, As, Ao; exact (fun H => H)|intros H; exact H].
  destruct S. constructor; assumption.
Qed.
Lemma r_mutate_connectivity_ok r : rsound r -> rt J (r_mutate_connectivity lm r) (fun p => rkept r (fst p)).
Proof.
  intros S. unfold r_mutate_connectivity. destruct (has (r_l r) EVOLVE_CONNECT); [|apply rt_ret, rkept_refl, S].
  eapply rt_bind_lift; [apply (rd_ok f0); rewrite (rs_mu _ S); lia|]. eapply rt_bind_lift; [apply (rd_ok f0); rewrite (rs_mu _ S); lia|].
  eapply rt_bind; [apply (part_connectivity J lm Zok SR _ _ _ _ _ _ _ _ (rs_in _ S))|]. intros (i, b1) Pi.
  eapply rt_bind; [apply (part_connectivity J lm Zok SR _ _ _ _ _ _ _ _ (rs_self _ S))|]. intros (s, b2) Ps.
  eapply rt_bind; [apply (part_connectivity J lm Zok SR _ _ _ _ _ _ _ _ (rs_out _ S))|]. intros (o, b3) Po.
  apply rt_ret. cbn [fst] in *. split; try reflexivity; [|intros H; exact H]. destruct S. constructor; assumption.
Qed.
Lemma r_mutate_neurons_ok r : (1 <= fuel)%nat -> casts_ok Zok bad -> bad OutOfFuel -> rsound r -> rxj (r_mutate_neurons lm junk fuel r) (fun p => rkept r (fst p) /\
   exists k, l_state (r_l (fst p)) = (if k =? l_n_outputs (r_l r) then l_state (r_l r) else realloc junk k (l_state (r_l r))) /\ k = l_n_outputs (r_l (fst p))).
Proof.
  intros FU CA FO S. unfold r_mutate_neurons.
  assert (RF : rkept r r /\ exists k, l_state (r_l r) = (if k =? l_n_outputs (r_l r) then l_state (r_l r) else realloc junk k (l_state (r_l r))) /\ k = l_n_outputs (r_l r)).
  { split; [apply rkept_refl, S|]. exists (l_n_outputs (r_l r)). rewrite Z.eqb_refl. auto. }
  destruct (has (r_l r) EVOLVE_NEURONS) eqn:EN; [|apply rxj_ret; exact RF].
  destruct (rs_range r S) as (N1 & N2 & N3 & N4). pose proof (rs_room _ S) as RR. pose proof (rs_self _ S) as PS. destruct (part_conn _ _ _ _ _ _ PS) as (_ & _ & G & _).
  pose proof (part_dims _ _ _ _ _ _ (rs_in _ S)) as (_ & _ & _ & WI & _).
  eapply rxj_bind; [apply rxj_rt; eapply rt_lift with (Q := fun _ => True); [apply (rd_ok f0); rewrite (rs_mu _ S); lia|exact Logic.I]|]. intros mu _.
  eapply rxj_bind; [apply (mutate_count_ok J lm Zok SR bad); try assumption; [apply G|rewrite (pt_out _ _ _ _ _ _ PS); unfold N_OUTPUTS_MAX in N3; lia|rewrite (pt_max _ _ _ _ _ _ PS); lia]|].
  intros n RN. rewrite (pt_out _ _ _ _ _ _ PS), (pt_max _ _ _ _ _ _ PS) in RN. destruct (Z.eqb_spec n 0) as [->|NZ]; [apply rxj_ret; exact RF|]. destruct RN as [RN|RN]; [contradiction|].
  apply rxj_rt.
  eapply rt_bind; [apply (part_add J lm Zok SR n _ _ _ _ _ _ (rs_in _ S) RN)|]. intros i Pi.
  eapply rt_bind; [apply (part_add J lm Zok SR n _ _ _ _ _ _ PS RN)|]. intros s Ps.
  eapply rt_bind; [apply (part_add J lm Zok SR n _ _ _ _ _ _ (rs_out _ S) RN)|]. intros o Po.
  pose proof (pt_out _ _ _ _ _ _ Pi) as NI.
  eapply rt_bind; [apply (part_resize J lm Zok SR fuel _ _ _ _ _ _ i FU Ps); [lia|rewrite NI; nia]|]. intros s' Ps'.
  eapply rt_bind; [apply (part_resize J lm Zok SR fuel _ _ _ _ _ _ i FU Po); [lia|rewrite NI; nia]|]. intros o' Po'. cbv zeta.
  rewrite NI in Ps', Po'. pose proof (pt_out _ _ _ _ _ _ Po') as NO. rewrite NO.
  eapply rt_bind_lift; [apply guard_out; cbn [l_n_outputs set_out_w set_out_h set_out_c set_n_outputs]; lia|]. apply rt_ret. cbn [fst].
  split.
  - split; try reflexivity.
    + destruct S. constructor; try assumption; cbn [r_l r_in r_self r_out r_prev r_linked]; try reflexivity.
      * change (len (realloc junk (l_n_outputs (r_l r) + n) (l_state (r_l r))) = l_n_outputs (r_l r) + n). apply len_realloc. lia.
      * change (len (realloc junk (l_n_outputs (r_l r) + n) (r_prev r)) = l_n_outputs (r_l r) + n). apply len_realloc. lia.
    + congruence.
    + intros H. exact H.
  - exists (l_n_outputs (r_l r) + n). split; [|reflexivity]. destruct (Z.eqb_spec (l_n_outputs (r_l r) + n) (l_n_outputs (r_l r))); [lia|reflexivity].
Qed.
Lemma recurrent_mutate_ok r : (1 <= fuel)%nat -> casts_ok Zok bad -> bad OutOfFuel -> rsound r ->
  rxj (recurrent_mutate lm junk fuel r) (fun p => rkept r (fst p) /\ (has (r_l r) EVOLVE_ETA = true -> flt f0 (l_eta (r_l (fst p))) = false)).
Proof.
  intros FU CA FO S. unfold recurrent_mutate.
  eapply rxj_bind; [apply rxj_rt, (sam_adapt_len J lm Zok SR); [apply mu_schemes|]|].
  { pose proof (rs_mu _ S) as L. unfold len in L. unfold layer_mu_type. cbn [length]. lia. }
  intros mu LM. cbv zeta. set (r0 := mkRec _ _ _ _ _ _).
  assert (S0 : rsound r0). { destruct S. constructor; try assumption. change (len mu = 6). unfold len. rewrite LM. reflexivity. }
  assert (K0 : rkept r r0) by (split; try reflexivity; try assumption; intros H; exact H).
  assert (H0 : has (r_l r0) EVOLVE_ETA = has (r_l r) EVOLVE_ETA) by reflexivity. clearbody r0.
  eapply rxj_bind; [apply rxj_rt, (r_mutate_eta_ok r0 S0)|]. intros (r1, b0) (K1 & E1). cbn [fst] in *. rewrite H0 in E1.
  eapply rxj_bind; [apply (r_mutate_neurons_ok r1 FU CA FO (rk_sound _ _ K1))|]. intros (r2, b1) (K2 & _). cbn [fst] in *.
  eapply rxj_bind; [apply rxj_rt, (r_mutate_connectivity_ok r2 (rk_sound _ _ K2))|]. intros (r3, b2) K3. cbn [fst] in *.
  eapply rxj_bind; [apply rxj_rt, (r_mutate_weights_ok r3 (rk_sound _ _ K3))|]. intros (r4, b3) K4. cbn [fst] in *.
  eapply rxj_bind; [apply rxj_rt, (r_mutate_functions_ok r4 (rk_sound _ _ K4))|]. intros (r5, b4) K5. cbn [fst] in *.
  apply rxj_ret. cbn [fst]. split; [exact (rkept_trans _ _ _ K0 (rkept_trans _ _ _ K1 (rkept_trans _ _ _ K2 (rkept_trans _ _ _ K3 (rkept_trans _ _ _ K4 K5)))))|].
  intros E. apply (rk_eta _ _ K5), (rk_eta _ _ K4), (rk_eta _ _ K3), (rk_eta _ _ K2), E1, E.
Qed.
End Mutate.

(** ** A layer with one neuron *)
Definition unit_layer (opts mx : Z) (w : f64) : layer f64 :=
  mkLayer CONNECTED opts LINEAR 1 1 mx 1 1 1 1 f1 f1 f0 f0 f0 f0 f0 0 0 0 0 1 1 1 0 0 0
    [f0] [f0] [w] [f0] [f0] [f0] [f0] [] [true] low_mu [].
Definition unit_rec (opts mx : Z) (wi ws wo : f64) : rlayer f64 :=
  mkRec (set_n_active 3 (set_n_weights 3 (set_n_biases 3 (set_eta f1 (set_mu low_mu (set_state [f0] (set_function LINEAR (set_options opts
     (set_n_inputs 1 (set_n_outputs 1 (set_max_outputs mx (set_out_w 1 (set_out_h 1 (set_out_c 1 (set_type RECURRENT layer_defaults)))))))))))))))
    [f0] (unit_layer opts mx wi) (unit_layer opts mx ws) (unit_layer opts mx wo) true.
Lemma unit_part opts mx w : 1 <= mx <= 10 -> part 1 1 mx opts LINEAR (unit_layer opts mx w).
Proof.
  intros M. apply (part_made (unit_layer opts mx w)); [reflexivity| | | |exact linear_range].
  - constructor; (reflexivity || discriminate).
  - split; [|reflexivity]. intros k K. cbn in K. assert (k = 0) as -> by lia. discriminate.
  - constructor; cbn; unfold N_OUTPUTS_MAX, N_WEIGHTS_MAX; try reflexivity; lia.
Qed.
Lemma unit_sound opts mx wi ws wo : 1 <= mx <= 10 -> rsound (unit_rec opts mx wi ws wo) /\ counted (unit_rec opts mx wi ws wo).
Proof.
  intros M. split; [|reflexivity]. constructor; try reflexivity; try (apply unit_part; exact M); [|split; reflexivity].
  cbn. unfold N_WEIGHTS_MAX. nia.
Qed.
Definition learn_opts : Z := 2 ^ SGD_WEIGHTS.

(** The output after the inputs [xs], one after the other. *)
Fixpoint steps (lm : libm) (r : rlayer f64) (xs : list (list f64)) : outcome (rlayer f64) :=
  match xs with [] => Ok r | x :: xs => (r <- recurrent_forward (f64_arith lm) r x ;; steps lm r xs)%out end.
Definition first_output (o : outcome (rlayer f64)) : outcome f64 := (r <- o ;; out <- recurrent_output r ;; rd out 0)%out.

(** ** Copies start afresh *)
Lemma C74_copy_differs_lemma : exists lm r x r1 r2 y1 y2, rsound r /\ steps lm r [x] = Ok r1 /\ recurrent_copy r1 = Ok r2 /\
  first_output (steps lm r1 [x]) = Ok y1 /\ first_output (steps lm r2 [x]) = Ok y2 /\ feq y1 y2 = false.
Proof.
  set (r := unit_rec 0 1 f1 f1 f1).
  assert (X : match steps const_lm r [[f1]] with
    | Ok r1 => match recurrent_copy r1 with
      | Ok r2 => match first_output (steps const_lm r1 [[f1]]), first_output (steps const_lm r2 [[f1]]) with Ok y1, Ok y2 => feq y1 y2 = false | _, _ => False end
      | _ => False end
    | _ => False end) by (vm_compute; reflexivity).
  destruct (steps const_lm r [[f1]]) as [r1| | |] eqn:E1; try contradiction. destruct (recurrent_copy r1) as [r2| | |] eqn:E2; try contradiction.
  destruct (first_output (steps const_lm r1 [[f1]])) as [y1| | |] eqn:E3; try contradiction. destruct (first_output (steps const_lm r2 [[f1]])) as [y2| | |] eqn:E4; try contradiction.
  exists const_lm, r, [f1], r1, r2, y1, y2. split; [apply unit_sound; lia|]. auto.
Qed.

(** What forward computes depends on the parameters and on the last output only. *)
Lemma pre_content A l l' x i : content l' = content l -> pre A l' x i = @pre f64 A l x i.
Proof.
  intros C. unfold content, dims in C. injection C as Cd _ Cw Cb _. unfold pre, net_in. congruence.
Qed.
Lemma same_state lm r r' x : rsound r -> rsound r' -> same_net r r' -> l_output (r_out r') = l_output (r_out r) -> l_n_inputs (r_l r) <= len x ->
  exists q q', recurrent_forward (f64_arith lm) r x = Ok q /\ recurrent_forward (f64_arith lm) r' x = Ok q' /\ rsound q /\ rsound q' /\ same_net q q' /\
    l_state (r_l q') = l_state (r_l q) /\ l_output (r_out q') = l_output (r_out q).
Proof.
  intros S S' N OE LX. pose proof N as (N1 & N2 & N3 & N4 & N5 & N6 & N7). unfold dims in N4. injection N4 as D1 D2 D3 D4 D5.
  destruct (rs_range r S) as (R1 & R2 & R3 & R4).
  destruct (act_defined (f64_arith lm) _ R4) as ((f & F) & _).
  destruct (recurrent_forward_ok lm r x f S LX F) as (q & E & Q1 & _ & Q2 & _ & Q3 & Q4).
  destruct (recurrent_forward_ok lm r' x f S') as (q' & E' & Q1' & _ & Q2' & _ & Q3' & Q4'); [lia|rewrite N5; exact F|].
  assert (SN : same_net q q').
  { destruct Q2 as (A1 & A2 & A3 & A4 & A5 & A6 & A7), Q2' as (B1 & B2 & B3 & B4 & B5 & B6 & B7), N as (M1 & M2 & M3 & M4 & M5 & M6 & M7). unfold same_net. repeat split; congruence. }
  assert (NQ : l_n_outputs (r_l q) = l_n_outputs (r_l r)) by (destruct Q2 as (_ & _ & _ & A4 & _); unfold dims in A4; injection A4; auto).
  assert (NQ' : l_n_outputs (r_l q') = l_n_outputs (r_l r)) by (destruct Q2' as (_ & _ & _ & A4 & _); unfold dims in A4; injection A4; intros; congruence).
  assert (SE : l_state (r_l q') = l_state (r_l q)).
  { apply (list_ext f0); [rewrite (rs_state _ Q1), (rs_state _ Q1'); congruence|]. intros i I. rewrite (rs_state _ Q1'), NQ' in I.
    rewrite Q3, Q3' by lia. rewrite OE. f_equal; apply pre_content; assumption. }
  exists q, q'. split; [exact E|split; [exact E'|split; [exact Q1|split; [exact Q1'|split; [exact SN|split; [exact SE|]]]]]].
  apply (list_ext f0).
  - destruct (part_dims _ _ _ _ _ _ (rs_out _ Q1)) as (_ & _ & _ & _ & -> & _). destruct (part_dims _ _ _ _ _ _ (rs_out _ Q1')) as (_ & _ & _ & _ & -> & _). congruence.
  - intros i I. destruct (part_dims _ _ _ _ _ _ (rs_out _ Q1')) as (_ & _ & _ & _ & L & _). rewrite L, NQ' in I. rewrite Q4, Q4' by lia. rewrite SE. f_equal. apply pre_content. assumption.
Qed.
Lemma steps_same lm xs : forall r r', rsound r -> rsound r' -> same_net r r' -> l_output (r_out r') = l_output (r_out r) -> Forall (fun x => l_n_inputs (r_l r) <= len x) xs ->
  exists q q', steps lm r xs = Ok q /\ steps lm r' xs = Ok q' /\ recurrent_output q = recurrent_output q' /\ rsound q /\ rsound q'.
Proof.
  induction xs as [|x xs IH]; intros r r' S S' N OE F; cbn [steps].
  - exists r, r'. split; [reflexivity|split; [reflexivity|split; [|split; assumption]]]. unfold recurrent_output. rewrite (rs_linked _ S), (rs_linked _ S'), OE. reflexivity.
  - inversion F as [|? ? F1 F2]; subst. destruct (same_state lm r r' x S S' N OE F1) as (q & q' & E & E' & Q & Q' & QN & _ & QO). rewrite E, E'. cbn [obind].
    apply IH; try assumption. destruct (rs_range r S) as (R1 & R2 & R3 & R4). destruct (act_defined (f64_arith lm) _ R4) as ((f & FF) & _).
    destruct (recurrent_forward_ok lm r x f S F1 FF) as (q0 & E0 & _ & _ & Q2 & _). rewrite E in E0. apply Ok_inj in E0. subst q0.
    destruct Q2 as (_ & _ & _ & A4 & _). unfold dims in A4. injection A4 as A1 A2 A3 A4 A5. rewrite A3. exact F2.
Qed.
(** A copy computes what the layer would compute had its last output been zero. *)
Lemma C74_copy_lemma lm r xs : rsound r -> Forall (fun x => l_n_inputs (r_l r) <= len x) xs ->
  exists c, recurrent_copy r = Ok c /\ rsound c /\ same_net r c /\ r_prev c = r_prev r /\ l_state (r_l c) = zeros f0 (l_n_outputs (r_l r)) /\
    (forall r0, rsound r0 -> same_net r r0 -> l_output (r_out r0) = zeros f0 (l_n_outputs (r_l r)) ->
      exists q q', steps lm r0 xs = Ok q /\ steps lm c xs = Ok q' /\ recurrent_output q = recurrent_output q').
Proof.
  intros S F. destruct (recurrent_copy_ok r S) as (c & E & C & _ & K1 & K2 & K3 & K4 & K5 & K6 & K7 & K8 & K9). injection K4 as K4 K4'.
  assert (SN : same_net r c) by (unfold same_net; repeat split; assumption).
  exists c. split; [exact E|split; [exact C|split; [exact SN|split; [assumption|split; [assumption|]]]]]. intros r0 S0 N0 O0.
  assert (NN : same_net r0 c).
  { destruct SN as (A1 & A2 & A3 & A4 & A5 & A6 & A7), N0 as (B1 & B2 & B3 & B4 & B5 & B6 & B7). unfold same_net. repeat split; congruence. }
  destruct (steps_same lm xs r0 c S0 C NN ltac:(congruence)) as (q & q' & E1 & E2 & E3 & _).
  { destruct N0 as (_ & _ & _ & B4 & _). unfold dims in B4. injection B4 as D1 D2 D3 D4 D5. rewrite D3. exact F. }
  exists q, q'. auto.
Qed.

(** ** Backward is not the gradient *)
(** backward with the error [e] at the only neuron. *)
Definition rec_learn (lm : libm) (r : rlayer f64) (x : list f64) (e : f64) : outcome (rlayer f64) :=
  (let r := mkRec (r_l r) (r_prev r) (r_in r) (r_self r) (set_delta [e] (r_out r)) (r_linked r) in
   p <- recurrent_backward (f64_arith lm) r x None ;; Ok (fst p))%out.
Definition self_update (o : outcome (rlayer f64)) : outcome f64 := (r <- o ;; rd (l_weight_updates (r_self r)) 0)%out.

(** With weights 1, [w] and 2 and the input 1 twice, the output is 2 + 4 w: its slope is 4.  The update of the
    weight for an error of one is 2. *)
Definition rec_w (w : f64) : rlayer f64 := unit_rec learn_opts 1 f1 w (of_Z 2).
Definition twice : list (list f64) := [[f1]; [f1]].
Lemma C74_gradient_lemma : exists lm r x, (forall w, rsound (r w) /\ l_weights (r_self (r w)) = [w]) /\ (forall w, set_weights [] (r_self (r w)) = set_weights [] (r_self (r f0)) /\ r_in (r w) = r_in (r f0) /\ r_out (r w) = r_out (r f0) /\ r_l (r w) = r_l (r f0)) /\
   (exists y0 y1 y2, first_output (steps lm (r f0) x) = Ok y0 /\ first_output (steps lm (r f1) x) = Ok y1 /\ first_output (steps lm (r (of_Z 2)) x) = Ok y2 /\
      feq (fsub y1 y0) (of_Z 4) = true /\ feq (fsub y2 y1) (of_Z 4) = true) /\
   (exists q u, steps lm (r f1) x = Ok q /\ self_update (rec_learn lm q (last x []) f1) = Ok u /\ feq u (of_Z 2) = true).
Proof.
  exists const_lm, rec_w, twice. split; [|split; [|split]].
  - intros w. split; [apply unit_sound; lia|reflexivity].
  - intros w. repeat split; reflexivity.
  - assert (X : match first_output (steps const_lm (rec_w f0) twice), first_output (steps const_lm (rec_w f1) twice), first_output (steps const_lm (rec_w (of_Z 2)) twice) with
      | Ok y0, Ok y1, Ok y2 => feq (fsub y1 y0) (of_Z 4) = true /\ feq (fsub y2 y1) (of_Z 4) = true | _, _, _ => False end) by (vm_compute; auto).
    destruct (first_output (steps const_lm (rec_w f0) twice)) as [y0| | |]; try contradiction.
    destruct (first_output (steps const_lm (rec_w f1) twice)) as [y1| | |]; try contradiction.
    destruct (first_output (steps const_lm (rec_w (of_Z 2)) twice)) as [y2| | |]; try contradiction.
    exists y0, y1, y2. auto.
  - assert (X : match steps const_lm (rec_w f1) twice with Ok q => match self_update (rec_learn const_lm q (last twice []) f1) with Ok u => feq u (of_Z 2) = true | _ => False end | _ => False end) by (vm_compute; reflexivity).
    destruct (steps const_lm (rec_w f1) twice) as [q| | |]; try contradiction.
    destruct (self_update (rec_learn const_lm q (last twice []) f1)) as [u| | |] eqn:E; try contradiction.
    exists q, u. auto.
Qed.

(** ** Learning stops when rates evolve *)
Lemma C74_eta_lemma lm junk fuel r g r' b g' : (1 <= fuel)%nat -> rsound r -> has (r_l r) EVOLVE_ETA = true ->
  recurrent_mutate lm junk fuel r g = Ok ((r', b), g') ->
  rsound r' /\ flt f0 (l_eta (r_l r')) = false /\
  (forall q, r_l q = r_l r' -> recurrent_update (f64_arith lm) q = Ok q).
Proof.
  intros FU S E M.
  pose proof (rxj_ok _ _ _ _ _ _ _ (recurrent_mutate_ok (fun _ => True) lm _ (src_any lm) anything junk fuel r FU (or_intror Logic.I) Logic.I S) Logic.I M) as (K & H).
  cbn [fst] in K, H. specialize (H E). split; [exact (rk_sound _ _ K)|]. split; [exact H|].
  intros q Q. unfold recurrent_update. rewrite Q. change (a_lt (f64_arith lm) (a_Z (f64_arith lm) 0) (l_eta (r_l r'))) with (flt f0 (l_eta (r_l r'))). rewrite H, andb_false_r. reflexivity.
Qed.

(** ** Files *)
Definition rec_restored (r : rlayer f64) : rlayer f64 :=
  let l := r_l r in
  mkRec (set_state (l_state l) (set_mu (l_mu l) (set_n_inputs (l_n_inputs l) (set_n_outputs (l_n_outputs l) (set_max_outputs (l_max_outputs l) (set_options (l_options l)
     (set_function (l_function l) (set_eta (l_eta l) (set_n_active (l_n_active l) (set_out_w (l_n_outputs l) (set_out_c 1 (set_out_h 1 (set_type RECURRENT layer_defaults)))))))))))))
    (r_prev r) (conn_restored (r_in r)) (conn_restored (r_self r)) (conn_restored (r_out r)) false.
Lemma part_fits ni no mx op fn l : part ni no mx op fn l -> codec (layer_save l) layer_load (conn_restored l).
Proof.
  intros P. pose proof (part_conn _ _ _ _ _ _ P) as (C & TI & G & F). pose proof (weight_room l C G) as (W1 & W2). pose proof (pt_type _ _ _ _ _ _ P) as T.
  assert (E : conn_restored l = restored l) by (unfold restored; rewrite T; reflexivity). rewrite E. apply layer_codec. left. split; [exact T|].
  destruct C, G. constructor; try assumption; lia.
Qed.
Lemma C74_load_lemma r : rsound r -> codec (recurrent_save r) recurrent_load (rec_restored r) /\ recurrent_output (rec_restored r) = UB NullDeref.
Proof.
  intros S. split; [|reflexivity]. destruct (rs_range r S) as (N1 & N2 & N3 & N4). assert (NN : 0 <= l_n_outputs (r_l r)) by lia. unfold recurrent_save, recurrent_load. cbv zeta. rewrite (rs_type _ S). rd1. cbn [Z.eqb negb RECURRENT].
  do 7 rd1. eapply codec_lift; [apply guard_out; change (1 <= l_n_outputs (r_l r) <= N_OUTPUTS_MAX); lia|]. cbv beta.
  refine (codec_cons _ _ _ _ _ _ (arr_dbl _ _ _ (rs_mu _ S) (len_dbls 6 ltac:(lia))) _). cbv beta.
  refine (codec_cons _ _ _ _ _ _ (arr_dbl _ _ _ (rs_state _ S) (zeros_len _ _ NN)) _). cbv beta.
  refine (codec_cons _ _ _ _ _ _ (arr_dbl _ _ _ (rs_prev _ S) (zeros_len _ _ NN)) _). cbv beta.
  refine (codec_cons _ _ _ _ _ _ (part_fits _ _ _ _ _ _ (rs_in _ S)) _). cbv beta.
  refine (codec_cons _ _ _ _ _ _ (part_fits _ _ _ _ _ _ (rs_self _ S)) _). cbv beta.
  refine (codec_cons _ _ _ _ _ _ (part_fits _ _ _ _ _ _ (rs_out _ S)) _). cbv beta.
  apply codec_nil.
Qed.

(** ** Growth leaves states unset *)
Lemma at_realloc_new {A} (d j : A) n l i : 0 <= i < n -> len l <= i -> at_ d (realloc j n l) i = j.
Proof.
  intros H L. unfold len in L. unfold at_, realloc. rewrite app_nth2; rewrite firstn_length; [|lia]. rewrite (nth_indep _ d j); [apply nth_repeat|rewrite repeat_length; lia].
Qed.
Lemma C74_growth_lemma lm junk fuel r g r' b g' : (1 <= fuel)%nat -> rsound r -> r_mutate_neurons lm junk fuel r g = Ok ((r', b), g') ->
  rsound r' /\ (forall i, 0 <= i < l_n_outputs (r_l r') -> at_ f0 (l_state (r_l r')) i = if i <? l_n_outputs (r_l r) then at_ f0 (l_state (r_l r)) i else junk).
Proof.
  intros FU S M.
  pose proof (rxj_ok _ _ _ _ _ _ _ (r_mutate_neurons_ok (fun _ => True) lm _ (src_any lm) anything junk fuel r FU (or_intror Logic.I) Logic.I S) Logic.I M) as (K & k & H & ->).
  cbn [fst] in *. split; [exact (rk_sound _ _ K)|]. intros i I. rewrite H. pose proof (rs_state _ S) as L.
  destruct (Z.eqb_spec (l_n_outputs (r_l r')) (l_n_outputs (r_l r))) as [E|E].
  - destruct (Z.ltb_spec i (l_n_outputs (r_l r))); [reflexivity|lia].
  - destruct (Z.ltb_spec i (l_n_outputs (r_l r))); [apply at_realloc; lia|apply at_realloc_new; lia].
Qed.
(** The weights after growing, one step and one update, when the memory held [junk]. *)
Definition grown_rec (lm : libm) (r : rlayer f64) (x : list f64) (g : rng) (junk : f64) : outcome (list f64) :=
  (p <- recurrent_mutate lm junk 5 r g ;;
   r <- recurrent_forward (f64_arith lm) (fst (fst p)) x ;;
   let r := mkRec (r_l r) (r_prev r) (r_in r) (r_self r) (set_delta [f1; f1] (r_out r)) (r_linked r) in
   q <- recurrent_backward (f64_arith lm) r x None ;;
   r <- recurrent_update (f64_arith lm) (fst q) ;;
   Ok (l_weights (r_self r)))%out.
Definition grow_rec : rlayer f64 := unit_rec (Z.lor learn_opts (2 ^ EVOLVE_NEURONS)) 2 f1 f1 f1.
Lemma C74_junk_lemma : exists lm r x g w1 w2, rsound r /\ grown_rec lm r x g f0 = Ok w1 /\ grown_rec lm r x g f1 = Ok w2 /\ feq (at_ f0 w1 1) (at_ f0 w2 1) = false.
Proof.
  assert (X : match grown_rec const_lm grow_rec [f1] tape3 f0, grown_rec const_lm grow_rec [f1] tape3 f1 with
    | Ok w1, Ok w2 => feq (at_ f0 w1 1) (at_ f0 w2 1) = false | _, _ => False end) by (vm_compute; reflexivity).
  assert (S : rsound grow_rec) by (apply unit_sound; lia). exists const_lm, grow_rec, [f1], tape3. revert X. generalize (grown_rec const_lm grow_rec [f1] tape3). intros G X.
  destruct (G f0) as [w1| | |]; try contradiction. destruct (G f1) as [w2| | |]; try contradiction.
  exists w1, w2. auto.
Qed.

(** ** Any sequence of uses *)
Inductive rop := RForward (x : list f64) | RLearn (x : list f64) (e : Z -> f64) | RRand | RMutate (junk : f64) | RCopy.
Definition rop_ok (n : Z) (o : rop) : Prop := match o with RForward x | RLearn x _ => n <= len x | _ => True end.
Definition run_rop (lm : libm) (fuel : nat) (o : rop) (r : rlayer f64) : RM (rlayer f64) :=
  match o with
  | RForward x => lift (recurrent_forward (f64_arith lm) r x)
  | RLearn x e =>
      (p <- lift (recurrent_backward (f64_arith lm)
               (mkRec (r_l r) (r_prev r) (r_in r) (r_self r) (set_delta (map e (iota (l_n_outputs (r_l r)))) (r_out r)) (r_linked r)) x None) ;;
       lift (recurrent_update (f64_arith lm) (fst p)))%rng
  | RRand => recurrent_rand lm r
  | RMutate junk => (p <- recurrent_mutate lm junk fuel r ;; ret (fst p))%rng
  | RCopy => lift (recurrent_copy r)
  end.
Fixpoint run_rops (lm : libm) (fuel : nat) (os : list rop) (r : rlayer f64) : RM (rlayer f64) :=
  match os with [] => ret r | o :: os => (r <- run_rop lm fuel o r ;; run_rops lm fuel os r)%rng end.

Lemma len_map_iota {A} (e : Z -> A) n : 0 <= n -> len (map e (iota n)) = n.
Proof. intros H. unfold len, iota. rewrite !map_length, seq_length. lia. Qed.

Section Life.
Context (J : rng -> Prop) (lm : libm) (Zok : f64 -> Prop) (SR : src lm J Zok) (bad : outcome unit -> Prop) (fuel : nat) (FU : (1 <= fuel)%nat) (CA : casts_ok Zok bad) (FO : bad OutOfFuel).
Lemma same_in r r' : same_net r r' -> l_n_inputs (r_l r') = l_n_inputs (r_l r) /\ l_max_outputs (r_l r') = l_max_outputs (r_l r).
Proof. intros (_ & _ & _ & D & _). unfold dims in D. injection D as D1 D2 D3 D4 D5. auto. Qed.
Lemma run_rop_ok o r : rsound r -> rop_ok (l_n_inputs (r_l r)) o ->
  rxj J bad (run_rop lm fuel o r) (fun r' => rsound r' /\ l_n_inputs (r_l r') = l_n_inputs (r_l r) /\ l_max_outputs (r_l r') = l_max_outputs (r_l r)).
Proof.
  intros S O. destruct (rs_range r S) as (N1 & N2 & N3 & N4). assert (NN : 0 <= l_n_outputs (r_l r)) by lia. destruct (act_defined (f64_arith lm) _ N4) as ((f & F) & (h & H)).
  destruct o as [x|x e| |junk|]; cbn [run_rop rop_ok] in *.
  - destruct (recurrent_forward_ok lm r x f S O F) as (r' & E & S' & _ & Q & _). apply rxj_rt. eapply rt_lift; [exact E|]. split; [exact S'|]. apply same_in, Q.
  - set (r1 := mkRec _ _ _ _ _ _).
    assert (S1 : rsound r1). { destruct S. constructor; try assumption. apply (part_delta _ _ _ _ _ _ _ rs_out0). apply len_map_iota. exact NN. }
    assert (L1 : r_l r1 = r_l r) by reflexivity. clearbody r1.
    destruct (recurrent_backward_ok lm r1 x None h S1) as (r2 & od & E & S2 & _ & Q2 & _); [rewrite L1; exact O|discriminate|rewrite L1; exact H|].
    destruct (recurrent_update_ok lm r2 S2) as (r3 & E3 & S3 & _ & L3 & _). apply rxj_rt.
    eapply rt_bind_lift; [exact E|]. cbn [fst]. eapply rt_lift; [exact E3|]. split; [exact S3|]. rewrite L3, <- L1. apply same_in, Q2.
  - apply rxj_rt. eapply rt_mono; [apply (recurrent_rand_ok J lm Zok SR r S)|]. intros r' (S' & L & _). rewrite L. auto.
  - eapply rxj_bind; [apply (recurrent_mutate_ok J lm Zok SR bad junk fuel r FU CA FO S)|]. intros (r', b) (K & _). apply rxj_ret. cbn [fst] in *. destruct K. auto.
  - destruct (recurrent_copy_ok r S) as (r' & E & S' & _ & _ & _ & _ & _ & D & _). apply rxj_rt. eapply rt_lift; [exact E|]. split; [exact S'|].
    unfold dims in D. injection D as D1 D2 D3 D4 D5. auto.
Qed.
Lemma run_rops_ok os : forall r, rsound r -> Forall (rop_ok (l_n_inputs (r_l r))) os ->
  rxj J bad (run_rops lm fuel os r) (fun r' => rsound r' /\ l_n_inputs (r_l r') = l_n_inputs (r_l r) /\ l_max_outputs (r_l r') = l_max_outputs (r_l r)).
Proof.
  induction os as [|o os IH]; intros r S F; cbn [run_rops]; [apply rxj_ret; auto|]. inversion F as [|? ? F1 F2]; subst.
  eapply rxj_bind; [apply (run_rop_ok o r S F1)|]. intros r1 (S1 & L1 & L1'). eapply rxj_mono; [apply (IH r1 S1); rewrite L1; exact F2|].
  intros r2 (S2 & L2 & L2'). split; [exact S2|]. split; congruence.
Qed.
End Life.

Definition rec_life (lm : libm) (fuel : nat) (a : largs) (os : list rop) : RM (rlayer f64) := (r <- recurrent_init lm a ;; run_rops lm fuel os r)%rng.
Lemma C74_life_lemma lm fuel a os g : libm_ok lm -> gen_ok g -> (1 <= fuel)%nat -> rarg_ok a -> Forall (rop_ok (la_n_inputs a)) os ->
  match rec_life lm fuel a os g with
  | Ok (r, g') => rsound r /\ l_n_inputs (r_l r) = la_n_inputs a /\ 1 <= l_n_outputs (r_l r) <= la_n_max a /\ gen_ok g'
  | OutOfFuel => True
  | _ => False
  end.
Proof.
  intros L G FU A F. unfold rec_life.
  assert (X : rxj gen_ok only_fuel (r <- recurrent_init lm a ;; run_rops lm fuel os r)%rng (fun r => rsound r /\ l_n_inputs (r_l r) = la_n_inputs a /\ l_max_outputs (r_l r) = la_n_max a)).
  { eapply rxj_bind; [apply rxj_rt, (recurrent_init_ok gen_ok lm normal_ok (src_normal_ok lm L) a A)|]. intros r (S & _ & E & _). injection E as E1 E2 E3 E4 E5.
    eapply rxj_mono; [apply (run_rops_ok gen_ok lm normal_ok (src_normal_ok lm L) only_fuel fuel FU (casts_normal lm L) eq_refl os r S); rewrite E1; exact F|].
    intros r' (S' & L1 & L2). split; [exact S'|]. split; congruence. }
  specialize (X g G). revert X. destruct ((r <- recurrent_init lm a ;; run_rops lm fuel os r)%rng g) as [[r g']| | |]; intros X; try discriminate X; [|exact Logic.I].
  destruct X as (G' & S & E1 & E2). split; [exact S|]. split; [exact E1|]. split; [|exact G']. rewrite <- E2. apply (rs_range r S).
Qed.
Lemma C74_init_lemma lm a g : libm_ok lm -> gen_ok g -> rarg_ok a -> exists r g', recurrent_init lm a g = Ok (r, g') /\ gen_ok g' /\ rsound r /\ counted r /\
  (l_n_inputs (r_l r), l_n_outputs (r_l r), l_max_outputs (r_l r), l_options (r_l r), l_function (r_l r)) = (la_n_inputs a, la_n_init a, la_n_max a, layer_args_opt a, la_function a) /\
  l_state (r_l r) = zeros f0 (la_n_init a) /\ (l_eta (r_l r) = l_eta (r_in r) /\ l_eta (r_self r) = l_eta (r_in r) /\ l_eta (r_out r) = l_eta (r_in r)).
Proof. intros L G A. exact (recurrent_init_ok gen_ok lm normal_ok (src_normal_ok lm L) a A g G). Qed.
