(** * Convolution (C48). *)
From Coq Require Import ZArith Bool List Lia Reals Lra.
From Verif Require Import Outcome F64 F64Facts Rng Sam Arr ArrFacts Blas BlasFacts Exact Clock Dgp Act ActFacts Image Layer LayerFacts PropConn PoolFacts PropPool ConvFacts SamFacts Demo.
Import ListNotations.
Open Scope Z_scope.

Lemma lift_inv {A} (o : outcome A) r x r' : lift o r = Ok (x, r') -> o = Ok x /\ r' = r.
Proof. unfold lift. destruct o; try discriminate. intros H. injection H as <- <-. auto. Qed.
Lemma bind_inv {A B} (m : RM A) (k : A -> RM B) r b r2 : bind m k r = Ok (b, r2) -> exists a r1, m r = Ok (a, r1) /\ k a r1 = Ok (b, r2).
Proof. unfold bind. destruct (m r) as [(a & r1)| | |]; try discriminate. eauto. Qed.

Lemma ret_inv {A} (x y : A) r r' : ret x r = Ok (y, r') -> y = x /\ r' = r.
Proof. unfold ret. intros H. injection H as -> ->. auto. Qed.
Lemma ok_inv {A} (x y : A) : Ok x = Ok y -> y = x.
Proof. intros H. now injection H as ->. Qed.

Lemma init_eta_inv l r l' r' : layer_init_eta l r = Ok (l', r') -> exists e, l' = set_eta e l.
Proof.
  unfold layer_init_eta. destruct (has l EVOLVE_ETA).
  - intros H. apply bind_inv in H. destruct H as (e & r1 & _ & H). injection H as <- _. eauto.
  - intros H. injection H as <- _. eauto.
Qed.
Lemma draw_range_len lm from to sd w : 0 <= from <= to -> to <= len w ->
  rt (fun _ => True) (draw_range lm from to sd w) (fun w' => len w' = len w /\ forall i, 0 <= i < from -> at_ f0 w' i = at_ f0 w i).
Proof.
  intros F L. unfold draw_range. eapply rt_for_mono with (I := fun _ w' => len w' = len w /\ forall i, 0 <= i < from -> at_ f0 w' i = at_ f0 w i).
  - lia.
  - auto.
  - intros i w1 I (L1 & H1). eapply rt_bind; [apply (rt_normal _ lm _ (src_any lm))|]. intros x _.
    destruct (wr_ok w1 (from + i) x ltac:(lia)) as (w2 & -> & W1 & _ & W3 & _). eapply rt_lift; [reflexivity|]. split; [lia|]. intros j J. rewrite W3 by lia. apply H1, J.
  - auto.
Qed.
Lemma sam_init_any types : Forall scheme_ok types -> rt (fun _ => True) (sam_init types) (fun mu => length mu = length types).
Proof. intros F. eapply rt_mono; [apply (sam_init_ok _ _ _ (src_any demo_lm))|]; try exact F. intros mu (L & _). exact L. Qed.

Lemma conv_guard_inv {T} (l : layer T) u : conv_guard l = Ok u ->
  1 <= l_n_biases l <= N_OUTPUTS_MAX /\ 1 <= l_n_outputs l <= N_OUTPUTS_MAX /\ 1 <= l_n_weights l <= N_WEIGHTS_MAX.
Proof.
  unfold conv_guard, layer_guard_biases, layer_guard_outputs, layer_guard_weights, guard. intros H.
  repeat match goal with H : (obind (if ?b then _ else _) _) = _ |- _ => destruct b eqn:?E; [discriminate|]; cbn [obind] in H
    | H : (if ?b then _ else _) = _ |- _ => destruct b eqn:?E; [discriminate|] end.
  repeat match goal with H : (_ || _) = false |- _ => apply orb_false_elim in H; destruct H end. lia.
Qed.

Lemma workspace_inv {T} (l : layer T) ws : workspace_len l = Ok ws ->
  1 <= l_out_h l * l_out_w l * l_size l * l_size l * l_channels l <= 40000000000000 -> ws = l_out_h l * l_out_w l * l_size l * l_size l * l_channels l.
Proof.
  unfold workspace_len. generalize (l_out_h l * l_out_w l * l_size l * l_size l * l_channels l). intros z H B.
  rewrite Z.mod_small in H by lia. cbv zeta in H. destruct (z * 8 <? 1) eqn:E; [discriminate|]. rewrite Z.div_mul in H by lia. now injection H as <-.
Qed.
Lemma conv_malloc_inv l l1 : conv_malloc l = Ok l1 ->
  (1 <= l_n_biases l <= N_OUTPUTS_MAX /\ 1 <= l_n_outputs l <= N_OUTPUTS_MAX /\ 1 <= l_n_weights l <= N_WEIGHTS_MAX) /\
  exists ws, workspace_len l = Ok ws /\
  l1 = set_delta (zeros f0 (l_n_outputs l)) (set_state (zeros f0 (l_n_outputs l)) (set_output (zeros f0 (l_n_outputs l))
      (set_weights (zeros fnan (l_n_weights l)) (set_weight_updates (zeros f0 (l_n_weights l))
      (set_active (zeros false (l_n_weights l)) (set_biases (zeros fnan (l_n_biases l))
      (set_bias_updates (zeros f0 (l_n_biases l)) (set_temp (zeros fnan ws) (set_mu (zeros fnan 6) l))))))))).
Proof.
  unfold conv_malloc. intros E1. apply obind_ok in E1. destruct E1 as (u & G & E1). apply conv_guard_inv in G. split; [exact G|].
  apply obind_ok in E1. destruct E1 as (ws & WS & E1). apply ok_inv in E1. exists ws. auto.
Qed.
Lemma C48_init_lemma lm a r l r' : convolutional_init lm a r = Ok (l, r') ->
  1 <= la_height a -> 1 <= la_width a -> 1 <= la_channels a -> 1 <= la_size a -> 1 <= l_out_h l -> conv_shape l.
Proof.
  intros E H W C S OH. unfold convolutional_init in E.
  apply bind_inv in E. destruct E as (nw & r1 & E1 & E). apply lift_inv in E1. destruct E1 as (E1 & ->). apply cprod_inv in E1. destruct E1 as (-> & _).
  apply bind_inv in E. destruct E as (oh & r2 & E1 & E). apply lift_inv in E1. destruct E1 as (EH & ->).
  apply bind_inv in E. destruct E as (ow & r2 & E1 & E). apply lift_inv in E1. destruct E1 as (EW & ->).
  apply bind_inv in E. destruct E as (ni & r2 & E1 & E). apply lift_inv in E1. destruct E1 as (E1 & ->). apply cprod_inv in E1. destruct E1 as (-> & _).
  apply bind_inv in E. destruct E as (no & r2 & E1 & E). apply lift_inv in E1. destruct E1 as (E1 & ->). apply cprod_inv in E1. destruct E1 as (-> & _).
  cbv zeta in E. cbn [fold_left] in E. 
  set (nw := la_channels a * la_n_init a * la_size a * la_size a) in *. set (no := oh * ow * la_n_init a) in *.
  apply bind_inv in E. destruct E as (l0 & r2 & E1 & E). apply init_eta_inv in E1. destruct E1 as (e & ->).
  apply bind_inv in E. destruct E as (l1 & r3 & E1 & E). apply lift_inv in E1. destruct E1 as (E1 & ->).
  apply conv_malloc_inv in E1. destruct E1 as (G & ws & WS & ->).
  match type of G with (1 <= ?x <= _ /\ 1 <= ?y <= _ /\ 1 <= ?z <= _) => change x with (la_n_init a) in G; change y with no in G; change z with nw in G end.
  destruct G as (G1 & G2 & G3).
  apply bind_inv in E. destruct E as (w & r4 & DW & E). match type of DW with draw_range _ _ _ _ ?t _ = _ => change t with (zeros fnan nw) in DW end.
  destruct (draw_range_len lm 0 nw WEIGHT_SD_INIT (zeros fnan nw) ltac:(lia) ltac:(rewrite len_zeros by lia; lia) r2 I) as (w' & r4' & DW' & _ & LW & _).
  rewrite DW in DW'. injection DW' as <- _. rewrite len_zeros in LW by lia.
  apply bind_inv in E. destruct E as (mu & r5 & _ & E). apply ret_inv in E. destruct E as (-> & _). cbn in OH.
  assert (OW : 1 <= ow) by (unfold no in G2; nia). 
  apply workspace_inv in WS.
  2: { cbn [l_out_h l_out_w l_size l_channels set_eta set_options set_function set_height set_width set_channels set_n_filters set_max_outputs set_stride set_size set_pad
         set_grow set_eta_max set_eta_min set_momentum set_decay set_n_biases set_n_weights set_n_active set_out_h set_out_w].
       unfold N_OUTPUTS_MAX, N_WEIGHTS_MAX in *.
       replace (oh * ow * la_size a * la_size a * la_channels a) with ((oh * ow) * (la_channels a * la_size a * la_size a)) by ring.
       assert (1 <= oh * ow <= 2000000) by (unfold no in G2; nia). assert (1 <= la_channels a * la_size a * la_size a <= 20000000) by (unfold nw in G3; nia). nia. }
  cbn in WS. subst ws. unfold N_OUTPUTS_MAX, N_WEIGHTS_MAX in *.
  match goal with |- conv_shape ?t => set (l := t) end.
  assert (P : l_height l = la_height a /\ l_width l = la_width a /\ l_channels l = la_channels a /\ l_size l = la_size a /\ l_n_filters l = la_n_init a /\
    l_n_inputs l = la_width a * la_height a * la_channels a /\ l_pad l = la_pad a /\ l_stride l = la_stride a /\ l_out_h l = oh /\ l_out_w l = ow /\ l_n_outputs l = no /\ l_n_weights l = nw /\ l_n_biases l = la_n_init a)
    by (repeat (split; [reflexivity|]); reflexivity).
  assert (P2 : l_state l = zeros f0 no /\ l_output l = zeros f0 no /\ l_delta l = zeros f0 no /\ l_weights l = w /\ l_weight_updates l = zeros f0 nw /\
    l_biases l = zeros f0 (la_n_init a) /\ l_bias_updates l = zeros f0 (la_n_init a) /\ l_temp l = zeros fnan (oh * ow * la_size a * la_size a * la_channels a))
    by (repeat (split; [reflexivity|]); reflexivity).
  clearbody l. destruct P as (P1 & P3 & P4 & P5 & P6 & P7 & P8 & P9 & P10 & P11 & P12 & P13 & P14). destruct P2 as (Q1 & Q2 & Q3 & Q4 & Q5 & Q6 & Q7 & Q8).
  constructor; rewrite ?P1, ?P3, ?P4, ?P5, ?P6, ?P7, ?P8, ?P9, ?P10, ?P11, ?P12, ?P13, ?P14, ?Q1, ?Q2, ?Q3, ?Q4, ?Q5, ?Q6, ?Q7, ?Q8; try assumption; try lia;
    rewrite ?len_zeros by lia; try (unfold no, nw; ring); try lia; try reflexivity; unfold N_OUTPUTS_MAX, N_WEIGHTS_MAX; lia.
Qed.

(** ** What is computed *)
Open Scope R_scope.
Notation at0 := (at_ 0%R).

(** The zero-padded strided correlation of the image with filter [f], at output (y, x): [img] is
    the image with zeros around it, [w] the filters, stored as filter, channel, row, column. *)
Definition padded (H W : Z) (im : list R) (c y x : Z) : R :=
  if ((0 <=? y) && (y <? H) && (0 <=? x) && (x <? W))%Z then at0 im (x + W * (y + H * c))%Z else 0.
Definition correlation (C H W size stride pad : Z) (w im : list R) (f y x : Z) : R :=
  rsum C (fun c => rsum size (fun i => rsum size (fun j =>
    at0 w (j + size * (i + size * (c + C * f)))%Z * padded H W im c (y * stride + i - pad) (x * stride + j - pad)))).

Lemma rsum_k C s (F : Z -> Z -> Z -> Z -> R) : (0 <= C)%Z -> (1 <= s)%Z ->
  rsum (C * s * s) (fun k => F k (k_ch s k) (k_row s k) (k_col s k)) = rsum C (fun c => rsum s (fun i => rsum s (fun j => F (j + s * (i + s * c))%Z c i j))).
Proof.
  intros HC S. rewrite rsum_flat by nia. rewrite rsum_flat by nia. apply rsum_ext. intros c Hc. apply rsum_ext. intros i Hi. apply rsum_ext. intros j Hj.
  unfold k_ch, k_row, k_col. destruct (col_split s s c i j Hi Hj) as (E1 & E2 & E3). rewrite E1, E2, E3. reflexivity.
Qed.

Lemma conv_state_R (l : layer R) input f y x : conv_shape l -> (0 <= f)%Z ->
  conv_state R_arith l input f y x =
  at0 (l_biases l) f + correlation (l_channels l) (l_height l) (l_width l) (l_size l) (l_stride l) (l_pad l) (l_weights l) input f y x.
Proof.
  intros CS F. destruct CS. unfold conv_state. cbn [a_num R_arith R_num nadd nmul a_Z n0]. rewrite sum_from_R by nia.
  rewrite Rplus_comm. f_equal. unfold correlation.
  set (K := (l_channels l * l_size l * l_size l)%Z).
  set (F4 := fun k c i j => at0 (l_weights l) (f * K + k)%Z * padded (l_height l) (l_width l) input c (y * l_stride l + i - l_pad l) (x * l_stride l + j - l_pad l)).
  assert (E : rsum K (fun k => 1 * at0 (l_weights l) (f * K + k) * unrolled R_arith (l_height l) (l_width l) (l_size l) (l_stride l) (l_pad l) input k y x) =
    rsum K (fun k => F4 k (k_ch (l_size l) k) (k_row (l_size l) k) (k_col (l_size l) k))).
  { apply rsum_ext. intros k HK. unfold F4. rewrite Rmult_1_l. f_equal. unfold unrolled. rewrite (Z.add_comm (k_row _ k)), (Z.add_comm (k_col _ k)). reflexivity. }
  rewrite E. unfold K at 1. rewrite (rsum_k _ _ F4) by lia. unfold F4. rewrite Rmult_0_l, Rplus_0_l. apply rsum_ext. intros c Hc. apply rsum_ext. intros i Hi. apply rsum_ext. intros j Hj. cbn beta.
  do 2 f_equal. unfold K. ring.
Qed.

Lemma C48_lemma (l : layer R) input f : conv_shape l -> conv_plain l -> conv_small l -> len input = l_n_inputs l ->
  denotes (neural_activate R_arith) (l_function l) f ->
  exists st out tmp, convolutional_forward R_arith l input = Ok (set_temp tmp (set_state st (set_output out l))) /\
    len st = l_n_outputs l /\ len out = l_n_outputs l /\ len tmp = len (l_temp l) /\
    forall g y x, (0 <= g < l_n_filters l)%Z -> (0 <= y < l_out_h l)%Z -> (0 <= x < l_out_w l)%Z ->
      let o := (x + l_out_w l * (y + l_out_h l * g))%Z in
      at0 st o = rclamp (at0 (l_biases l) g +
        correlation (l_channels l) (l_height l) (l_width l) (l_size l) (l_stride l) (l_pad l) (l_weights l) input g y x) /\
      at0 out o = f (at0 st o).
Proof.
  intros C P S L F. destruct (conv_forward_ok R_arith l input f C P S L F) as (st & out & tmp & E & L1 & L2 & L3 & H).
  exists st, out, tmp. split; [exact E|]. split; [exact L1|]. split; [exact L2|]. split; [exact L3|]. intros g y x G Y X o.
  destruct (H g y x G Y X) as (H1 & H2). split; [|exact H2]. etransitivity; [exact H1|]. rewrite conv_state_R by (assumption || lia).
  reflexivity.
Qed.

(** The same code on doubles: in range, and the order of the operations. *)
Lemma C48_doubles_lemma lm (l : layer f64) input f : conv_shape l -> conv_plain l -> conv_small l -> len input = l_n_inputs l ->
  (forall x, neural_activate (f64_arith lm) (l_function l) x = Ok (f x)) ->
  exists st out tmp, convolutional_forward (f64_arith lm) l input = Ok (set_temp tmp (set_state st (set_output out l))) /\
    len st = l_n_outputs l /\ len out = l_n_outputs l /\ len tmp = len (l_temp l) /\
    forall g y x, (0 <= g < l_n_filters l)%Z -> (0 <= y < l_out_h l)%Z -> (0 <= x < l_out_w l)%Z ->
      let o := (x + l_out_w l * (y + l_out_h l * g))%Z in
      let K := (l_channels l * l_size l * l_size l)%Z in
      at_ f0 st o = clamp (fadd (fold_left (fun s k => fadd s (fmul (fmul (of_Z 1) (at_ f0 (l_weights l) (g * K + k)))
         (let i := ((k / l_size l) mod l_size l + y * l_stride l - l_pad l)%Z in let j := (k mod l_size l + x * l_stride l - l_pad l)%Z in
          if ((0 <=? i) && (i <? l_height l) && (0 <=? j) && (j <? l_width l))%Z
          then at_ f0 input (j + l_width l * (i + l_height l * (k / l_size l / l_size l))) else f0))) (iota K) (fmul (of_Z 0) (of_Z 1)))
         (at_ f0 (l_biases l) g)) (of_Z (-100)) (of_Z 100) /\
      at_ f0 out o = f (at_ f0 st o).
Proof.
  intros C P S L F. destruct (conv_forward_ok (f64_arith lm) l input f C P S L F) as (st & out & tmp & E & L1 & L2 & L3 & H).
  exists st, out, tmp. split; [exact E|]. split; [exact L1|]. split; [exact L2|]. split; [exact L3|]. intros g y x G Y X o K.
  exact (H g y x G Y X).
Qed.

(** ** The adjoint *)
Lemma C48_adjoint_lemma (im im0 col col0 : list R) C H W s st pad oh ow : (1 <= s)%Z -> (1 <= C)%Z -> (C * s * s < 2 ^ 31)%Z ->
  conv_out H pad s st = Ok oh -> conv_out W pad s st = Ok ow -> (0 <= H)%Z -> (0 <= W)%Z -> (0 <= oh)%Z -> (0 <= ow)%Z ->
  (ow * (oh * (C * s * s)) <= 2 ^ 31)%Z -> len col = (ow * (oh * (C * s * s)))%Z -> len col0 = len col -> len im = (W * (H * C))%Z -> len im0 = len im ->
  exists col' im', im2col R_num im C H W s st pad col0 = Ok col' /\ len col' = len col /\
    col2im R_num col C H W s st pad im0 = Ok im' /\ len im' = len im /\
    rsum (len col) (fun q => at0 col q * at0 col' q) = rsum (len im) (fun p => (at0 im' p - at0 im0 p) * at0 im p).
Proof.
  intros S HC CS EH EW H0 W0 OH OW INT LC LC0 LI LI0.
  destruct (im2col_ok R_arith im C H W s st pad col0 oh ow S ltac:(lia) CS EH EW OH OW INT ltac:(lia) ltac:(lia)) as (col' & E1 & L1 & H1 & _).
  destruct (col2im_ok R_arith col C H W s st pad im0 oh ow S ltac:(lia) CS EH EW OH OW INT ltac:(lia) ltac:(lia)) as (im' & E2 & L2 & H2).
  exists col', im'. split; [exact E1|]. split; [lia|]. split; [exact E2|]. split; [lia|].
  set (t := col_source H W s st pad oh ow) in *. set (N := (ow * (oh * (C * s * s)))%Z) in *. rewrite LC.
  rewrite (rsum_ext (len im) _ (fun p => rsum N (fun q => (if (t q =? p)%Z then at0 col q else 0) * at0 im p))).
  2: { intros p P. pose proof (H2 p ltac:(lia)) as HP. cbn [n0 a_num R_arith R_num] in HP. rewrite HP, gathered_R by nia.
       rewrite Rmult_comm. replace (at0 im0 p + rsum N (fun q => if (t q =? p)%Z then at0 col q else 0) - at0 im0 p) with (rsum N (fun q => if (t q =? p)%Z then at0 col q else 0)) by ring.
       rewrite <- rsum_scal. apply rsum_ext. intros; ring. }
  rewrite rsum_swap. apply rsum_ext. intros q HQ.
  rewrite (rsum_ext _ _ (fun p => at0 col q * (if (t q =? p)%Z then at0 im p else 0))) by (intros p P; destruct (t q =? p)%Z; ring).
  rewrite rsum_scal. f_equal.
  assert (OW1 : (1 <= ow)%Z) by (unfold N in HQ; nia). assert (OH1 : (1 <= oh)%Z) by (unfold N in HQ; nia).
  (* entry q is (k, y, x) *)
  set (k := (q / ow / oh)%Z). set (y := ((q / ow) mod oh)%Z). set (x := (q mod ow)%Z).
  assert (EQ : q = (x + ow * (y + oh * k))%Z).
  { unfold x, y, k. pose proof (Z.div_mod q ow). pose proof (Z.div_mod (q / ow) oh). lia. }
  assert (X : (0 <= x < ow)%Z) by (apply Z.mod_pos_bound; lia). assert (Y : (0 <= y < oh)%Z) by (apply Z.mod_pos_bound; lia).
  assert (K : (0 <= k < C * s * s)%Z).
  { unfold k. assert (0 <= q / ow)%Z by (apply Z.div_pos; lia). split; [apply Z.div_pos; lia|]. apply Z.div_lt_upper_bound; [lia|]. apply Z.div_lt_upper_bound; [lia|]. unfold N in HQ. lia. }
  pose proof (H1 k y x K Y X) as HV. rewrite <- EQ in HV. cbn [n0 a_num R_arith R_num] in HV. rewrite HV.
  unfold unrolled, img_at. unfold t, col_source. cbv zeta. fold k y x. cbn [n0 a_num R_arith R_num].
  set (r := (k_row s k + y * st - pad)%Z). set (c := (k_col s k + x * st - pad)%Z).
  destruct ((0 <=? r) && (r <? H) && (0 <=? c) && (c <? W))%Z eqn:EB.
  - apply andb_prop in EB. destruct EB as (EB & E4). apply andb_prop in EB. destruct EB as (EB & E3). apply andb_prop in EB. destruct EB as (E5 & E6).
    symmetry. apply rsum_delta. rewrite LI. pose proof (k_ch_range s k C S K). apply flat3; lia.
  - rewrite (rsum_ext _ _ (fun _ => 0 * 0)); [rewrite rsum_scal; ring|]. intros p P. replace (-1 =? p)%Z with false by lia. ring.
Qed.
Open Scope Z_scope.

(** ** Overflow of the column index *)
Definition okv {S} (e : outcome S) (m : outcome S) (P : S -> Prop) : Prop := (exists s, m = Ok s /\ P s) \/ m = e.
Lemma oloop_v {S} (e : outcome S) (I : Z -> S -> Prop) (f : Z -> S -> outcome S) (n : nat) : (forall k : S -> outcome S, obind e k = e) -> forall i s,
  (forall j s, i <= j < i + Z.of_nat n -> I j s -> okv e (f j s) (I (j + 1))) -> I i s -> okv e (oloop n i f s) (I (i + Z.of_nat n)).
Proof.
  intros HE. induction n as [|n IH]; intros i s HF H0; cbn [oloop].
  - left. exists s. split; [reflexivity|]. now rewrite Z.add_0_r.
  - destruct (HF i s ltac:(lia) H0) as [(s1 & -> & H1)| ->].
    + cbn [obind]. replace (i + Z.of_nat (Datatypes.S n)) with (i + 1 + Z.of_nat n) by lia. apply IH; [|exact H1]. intros j s2 J. apply HF. lia.
    + right. apply HE.
Qed.
Lemma ofor_v {S} e (I : Z -> S -> Prop) (f : Z -> S -> outcome S) n s : (forall k : S -> outcome S, obind e k = e) -> 0 <= n -> I 0 s ->
  (forall i s, 0 <= i < n -> I i s -> okv e (f i s) (I (i + 1))) -> okv e (ofor n f s) (I n).
Proof.
  intros HE N H0 HF. unfold ofor. replace n with (0 + Z.of_nat (Z.to_nat n)) at 2 by lia.
  apply oloop_v; [exact HE| |exact H0]. intros j s1 Hj. apply HF. lia.
Qed.
Lemma okv_mono {S} e (m : outcome S) (P P' : S -> Prop) : okv e m P -> (forall s, P s -> P' s) -> okv e m P'.
Proof. intros [(s & E & H)|E] M; [left; eauto|now right]. Qed.
Lemma ofor3_v {S} e (I : Z -> S -> Prop) c h w (body : Z -> Z -> Z -> S -> outcome S) s : (forall k : S -> outcome S, obind e k = e) -> 0 <= c -> 0 <= h -> 0 <= w -> I 0 s ->
  (forall k i j s, 0 <= k < c -> 0 <= i < h -> 0 <= j < w -> I (j + w * (i + h * k)) s -> okv e (body k i j s) (I (j + w * (i + h * k) + 1))) ->
  okv e (ofor c (fun k s => ofor h (fun i s => ofor w (fun j s => body k i j s) s) s) s) (I (w * (h * c))).
Proof.
  intros HE C H W H0 HB.
  apply (ofor_v e (fun k s => I (w * (h * k)) s)); [exact HE|exact C|now rewrite !Z.mul_0_r|]. intros k s1 K H1.
  eapply okv_mono; [apply (ofor_v e (fun i s => I (w * (i + h * k)) s) _ h s1 HE)|].
  - exact H.
  - now rewrite Z.add_0_l.
  - intros i s2 Hi H2. eapply okv_mono; [apply (ofor_v e (fun j s => I (j + w * (i + h * k)) s) _ w s2 HE)|].
    + exact W.
    + now rewrite Z.add_0_l.
    + intros j s3 Hj H3. replace (j + 1 + w * (i + h * k)) with (j + w * (i + h * k) + 1) by lia. apply HB; assumption.
    + intros s3 H3. cbn beta in H3. replace (i + 1 + h * k) with (i + h * k + 1) by lia. replace (w * (i + h * k + 1)) with (w + w * (i + h * k)) by ring. exact H3.
  - intros s2 H2. cbn beta in H2. replace (h * (k + 1)) with (h + h * k) by ring. exact H2.
Qed.

Lemma C48_overflow_lemma {T} (A : arith T) (l : layer T) input : conv_shape l -> l_size l <> 1 -> ~ conv_small l -> len input = l_n_inputs l ->
  convolutional_forward A l input = UB IntOverflow.
Proof.
  intros C S1 SM LI. destruct C. unfold convolutional_forward. unfold conv_small in SM.
  set (K := l_channels l * l_size l * l_size l) in *. set (n := l_out_w l * l_out_h l). unfold N_WEIGHTS_MAX, N_OUTPUTS_MAX in *.
  assert (K1 : 1 <= K) by (unfold K; nia). assert (KM : K <= 20000000) by nia.
  rewrite cprod3 by (fold K; lia || (replace (l_size l * l_size l * l_channels l) with K by (unfold K; ring); lia)). cbn [obind].
  assert (N1 : 1 <= n) by (unfold n; nia). assert (NM : l_n_outputs l = l_n_filters l * n) by (unfold n; lia).
  rewrite (cint_ok n) by nia. cbn [obind].
  destruct (ofor_ind (fun k (c : list T) => len c = l_n_outputs l) (fun i c => wr c i (a_Z A 0)) (l_n_outputs l) (l_state l)) as (c0 & E0 & L0).
  { nia. } { assumption. }
  { intros i c I L. destruct (wr_ok c i (a_Z A 0) ltac:(lia)) as (c1 & -> & W1 & _). exists c1. split; [reflexivity|lia]. }
  rewrite E0. cbn [obind]. replace (l_size l =? 1) with false by lia.
  assert (EI : im2col (a_num A) input (l_channels l) (l_height l) (l_width l) (l_size l) (l_stride l) (l_pad l) (l_temp l) = UB IntOverflow).
  { unfold im2col. rewrite cv_oh, cv_ow, cprod3 by (fold K; lia). cbn [obind]. fold K.
    destruct (ofor3_v (UB IntOverflow) (fun q (o : list T) => q <= 2 ^ 31 /\ len o = len (l_temp l))
      K (l_out_h l) (l_out_w l) (fun c h w col =>
       let im_row := Z.rem (Z.quot c (l_size l)) (l_size l) + h * l_stride l in
       let im_col := Z.rem c (l_size l) + w * l_stride l in
       obind (cint ((c * l_out_h l + h) * l_out_w l + w)) (fun col_index =>
       obind (im2col_get_pixel (a_num A) input (l_height l) (l_width l) im_row im_col (Z.quot (Z.quot c (l_size l)) (l_size l)) (l_pad l)) (fun p => wr col col_index p))) (l_temp l)) as [(o & E & H & _)|E].
    - reflexivity.
    - lia.
    - lia.
    - lia.
    - split; [lia|reflexivity].
    - intros k y x o HK Y X (H1 & L). cbv zeta. destruct (k_quot (l_size l) k ltac:(lia) cv_size) as (-> & -> & ->).
      pose proof (flat3 _ _ _ _ _ _ HK Y X) as F. replace ((k * l_out_h l + y) * l_out_w l + x) with (x + l_out_w l * (y + l_out_h l * k)) by ring.
      destruct (Z.eq_dec (x + l_out_w l * (y + l_out_h l * k)) (2 ^ 31)) as [EQ|NE].
      + right. rewrite EQ. reflexivity.
      + left. rewrite cint_ok by lia. cbn [obind]. rewrite (get_pixel_ok A input (l_height l) (l_width l) (l_channels l)) by (apply k_ch_range || lia; fold K; lia). cbn [obind].
        match goal with |- context [wr o ?q ?v] => destruct (wr_ok o q v ltac:(lia)) as (o1 & -> & W1 & _) end.
        exists o1. split; [reflexivity|]. split; lia.
    - exfalso. lia.
    - exact E. }
  rewrite EI. reflexivity.
Qed.

(** ** Geometries accepted by construction that are not convolved *)
Definition conv_layer {T} (z : T) (h w c nf size stride pad oh ow : Z) (weights input : list T) : layer T :=
  let K := c * size * size in
  mkLayer CONVOLUTIONAL 0 LINEAR (h * w * c) (oh * ow * nf) (oh * ow * nf) 0 (nf * K) nf (nf * K) z z z z z z z h w c pad ow oh nf size stride nf
    (zeros z (oh * ow * nf)) (zeros z (oh * ow * nf)) weights (zeros z (nf * K)) (zeros z nf) (zeros z nf) (zeros z (oh * ow * nf))
    (zeros z (oh * ow * K)) (zeros true (nf * K)) [] [].
Lemma conv_layer_shape {T} (z : T) h w c nf size stride pad oh ow weights input : 1 <= h -> 1 <= w -> 1 <= c -> 1 <= nf -> 1 <= size ->
  conv_out h pad size stride = Ok oh -> conv_out w pad size stride = Ok ow -> 1 <= oh -> 1 <= ow ->
  oh * ow * nf <= N_OUTPUTS_MAX -> nf * (c * size * size) <= N_WEIGHTS_MAX -> len weights = nf * (c * size * size) ->
  conv_shape (conv_layer z h w c nf size stride pad oh ow weights input).
Proof.
  intros. constructor; cbn; try assumption; try ring; rewrite ?len_zeros by nia; try reflexivity; try assumption; nia.
Qed.

Lemma C48_refuted_stride_lemma : exists (l : layer f64) input, conv_shape l /\ l_size l = 1 /\ l_stride l = 2 /\ l_pad l = 0 /\ len input = l_n_inputs l /\
  forall lm, match convolutional_forward (f64_arith lm) l input with
  | Ok l' => map to_int (l_output l') = [Some 1; Some 2] /\ l_out_w l = 2 /\ to_int (at_ f0 input (1 * l_stride l)) = Some 3
  | _ => False
  end.
Proof.
  exists (conv_layer f0 1 3 1 1 1 2 0 1 2 [f1] []), [of_Z 1; of_Z 2; of_Z 3]. split; [|split; [reflexivity|split; [reflexivity|split; [reflexivity|split; [reflexivity|]]]]].
  - apply conv_layer_shape; try reflexivity; vm_compute; discriminate.
  - intros lm. vm_compute. repeat split; reflexivity.
Qed.
Lemma C48_refuted_pad_lemma : exists (l : layer f64) input, conv_shape l /\ l_size l = 1 /\ l_stride l = 1 /\ l_pad l = 1 /\ len input = l_n_inputs l /\
  forall lm, convolutional_forward (f64_arith lm) l input = UB OutOfBounds.
Proof.
  exists (conv_layer f0 1 1 1 1 1 1 1 3 3 [f1] []), [of_Z 1]. split; [|split; [reflexivity|split; [reflexivity|split; [reflexivity|split; [reflexivity|]]]]].
  - apply conv_layer_shape; try reflexivity; vm_compute; discriminate.
  - intros lm. vm_compute. reflexivity.
Qed.
Lemma C48_refuted_overflow_lemma : exists l : layer f64, conv_shape l /\ conv_plain l /\ l_height l = 1046 /\ l_width l = 1046 /\ l_channels l = 1 /\ l_size l = 47 /\
  l_n_filters l = 1 /\ l_stride l = 1 /\ l_pad l = 0 /\
  forall lm input, len input = l_n_inputs l -> convolutional_forward (f64_arith lm) l input = UB IntOverflow.
Proof.
  set (l := conv_layer f0 1046 1046 1 1 47 1 0 1000 1000 (zeros f1 2209) []).
  assert (C : conv_shape l).
  { apply conv_layer_shape; try lia; try reflexivity; unfold N_OUTPUTS_MAX, N_WEIGHTS_MAX; try lia. }
  exists l. split; [exact C|]. split; [discriminate|]. do 7 (split; [reflexivity|]).
  intros lm input L. apply C48_overflow_lemma; [exact C|discriminate| |exact L]. unfold conv_small. cbn [l_out_w l_out_h l_channels l_size l conv_layer]. lia.
Qed.

(** Filters larger than the padded image: the constructor accepts a negative number of rows and
    columns; the forward pass then reads the workspace, which nobody has written. *)
Definition big_args : largs :=
  mkLargs CONVOLUTIONAL 0 1 1 0 LINEAR 1 1 1 4 1 0 f0 f0 f0 f0 f0 f0 false false false false false false.
Lemma C48_refuted_size_lemma : exists a r, 1 <= la_height a /\ 1 <= la_width a /\ 1 <= la_channels a /\ 1 <= la_size a /\ 1 <= la_stride a /\ 0 <= la_pad a /\
  match convolutional_init demo_lm a r with
  | Ok (l, _) => l_out_h l = -2 /\ l_out_w l = -2 /\ l_n_outputs l = 4 /\ len (l_temp l) = 64 /\
      let l := set_weights (zeros f1 16) l in
      let run t := match convolutional_forward (f64_arith demo_lm) (set_temp (zeros (of_Z t) 64) l) [f0] with Ok l' => map to_int (l_output l') | _ => [] end in
      run 1 = [Some 16; Some 16; Some 16; Some 16] /\ run 2 = [Some 32; Some 32; Some 32; Some 32]
  | _ => False
  end.
Proof.
  exists big_args, (demo_rng 1). split; [vm_compute; discriminate|]. split; [vm_compute; discriminate|]. split; [vm_compute; discriminate|]. split; [vm_compute; discriminate|].
  split; [vm_compute; discriminate|]. split; [vm_compute; discriminate|]. vm_compute. repeat split; reflexivity.
Qed.
