(** * What the image buffers and convolutional layers compute, in any arithmetic. *)
From Coq Require Import ZArith Bool List Lia.
From Verif Require Import Outcome F64 Rng Sam Arr ArrFacts Blas BlasFacts Clock Dgp Act Image Layer LayerFacts PoolFacts PropPool.
Import ListNotations.
Open Scope Z_scope.

Lemma cprod3 c s t : 0 <= c -> 1 <= s -> 1 <= t -> c * s * t < 2 ^ 31 -> cprod c [s; t] = Ok (c * s * t).
Proof. intros C S T H. cbn [cprod]. rewrite cint_ok by nia. cbn [obind]. rewrite cint_ok by nia. reflexivity. Qed.

Lemma fold_left_ext_in {S B} (f g : S -> B -> S) l : forall s, (forall b s, In b l -> f s b = g s b) -> fold_left f l s = fold_left g l s.
Proof. induction l as [|b l IH]; intros s H; [reflexivity|]. cbn [fold_left]. rewrite (H b s (or_introl eq_refl)). apply IH. intros; apply H; now right. Qed.

Section Any.
Context {T : Type} (A : arith T).
Let Q := a_num A.
Let d := n0 Q.

(** The image with zeros around it. *)
Definition img_at (H W : Z) (im : list T) (c y x : Z) : T :=
  if (0 <=? y) && (y <? H) && (0 <=? x) && (x <? W) then at_ d im (x + W * (y + H * c)) else d.

Lemma get_pixel_ok im H W C row col ch pad : 0 <= ch < C -> W * (H * C) <= len im ->
  im2col_get_pixel Q im H W row col ch pad = Ok (img_at H W im ch (row - pad) (col - pad)).
Proof.
  intros HC L. unfold im2col_get_pixel, img_at. cbv zeta.
  replace ((row - pad <? 0) || (col - pad <? 0) || (H <=? row - pad) || (W <=? col - pad))
    with (negb ((0 <=? row - pad) && (row - pad <? H) && (0 <=? col - pad) && (col - pad <? W))) by lia.
  destruct ((0 <=? row - pad) && (row - pad <? H) && (0 <=? col - pad) && (col - pad <? W)) eqn:E; cbn [negb]; [|reflexivity].
  apply andb_prop in E. destruct E as (E & E4). apply andb_prop in E. destruct E as (E & E3). apply andb_prop in E. destruct E as (E1 & E2).
  apply (rd_ok d). pose proof (flat3 C H W ch (row - pad) (col - pad) HC ltac:(lia) ltac:(lia)). lia.
Qed.

(** Row [k] of the column matrix looks at channel k / size^2, cell (k / size mod size, k mod size) of the filter. *)
Definition k_ch (s k : Z) : Z := k / s / s.
Definition k_row (s k : Z) : Z := (k / s) mod s.
Definition k_col (s k : Z) : Z := k mod s.
Lemma k_quot s k : 0 <= k -> 1 <= s -> Z.rem k s = k_col s k /\ Z.rem (Z.quot k s) s = k_row s k /\ Z.quot (Z.quot k s) s = k_ch s k.
Proof.
  intros K S. unfold k_col, k_row, k_ch. rewrite (Z.quot_div_nonneg k s) by lia. assert (0 <= k / s) by (apply Z.div_pos; lia).
  rewrite (Z.quot_div_nonneg (k / s) s), !Z.rem_mod_nonneg by lia. auto.
Qed.
Lemma k_ch_range s k c : 1 <= s -> 0 <= k < c * s * s -> 0 <= k_ch s k < c.
Proof.
  intros S K. unfold k_ch. assert (0 <= k / s) by (apply Z.div_pos; lia). split; [apply Z.div_pos; lia|].
  apply Z.div_lt_upper_bound; [lia|]. apply Z.div_lt_upper_bound; lia.
Qed.

Definition unrolled (H W s st pad : Z) (im : list T) (k y x : Z) : T :=
  img_at H W im (k_ch s k) (k_row s k + y * st - pad) (k_col s k + x * st - pad).

Lemma im2col_ok im C H W s st pad col oh ow : 1 <= s -> 0 <= C -> C * s * s < 2 ^ 31 ->
  conv_out H pad s st = Ok oh -> conv_out W pad s st = Ok ow -> 0 <= oh -> 0 <= ow ->
  ow * (oh * (C * s * s)) <= 2 ^ 31 -> ow * (oh * (C * s * s)) <= len col -> W * (H * C) <= len im ->
  exists col', im2col Q im C H W s st pad col = Ok col' /\ len col' = len col /\
    (forall k y x, 0 <= k < C * s * s -> 0 <= y < oh -> 0 <= x < ow -> at_ d col' (x + ow * (y + oh * k)) = unrolled H W s st pad im k y x) /\
    (forall q, ow * (oh * (C * s * s)) <= q -> at_ d col' q = at_ d col q).
Proof.
  intros S HC CS EH EW OH OW INT LC LI. unfold im2col. rewrite EH, EW, cprod3 by lia. cbn [obind].
  destruct (ofor3 (fun q (o : list T) => len o = len col /\
      (forall k y x, 0 <= k < C * s * s -> 0 <= y < oh -> 0 <= x < ow -> x + ow * (y + oh * k) < q -> at_ d o (x + ow * (y + oh * k)) = unrolled H W s st pad im k y x) /\
      (forall p, q <= p -> at_ d o p = at_ d col p))
      (C * s * s) oh ow (fun c h w col =>
       let im_row := Z.rem (Z.quot c s) s + h * st in
       let im_col := Z.rem c s + w * st in
       obind (cint ((c * oh + h) * ow + w)) (fun col_index =>
       obind (im2col_get_pixel Q im H W im_row im_col (Z.quot (Z.quot c s) s) pad) (fun p => wr col col_index p))) col) as (col' & E & L & H1 & H2).
  - nia.
  - exact OH.
  - exact OW.
  - split; [reflexivity|]. split; [|auto]. intros k y x K Y X B. pose proof (flat3 _ _ _ _ _ _ K Y X). lia.
  - intros k y x o K Y X (L & H1 & H2). cbv zeta. destruct (k_quot s k ltac:(lia) S) as (-> & -> & ->).
    pose proof (flat3 _ _ _ _ _ _ K Y X) as F. replace ((k * oh + y) * ow + x) with (x + ow * (y + oh * k)) by ring.
    rewrite cint_ok by lia. cbn [obind]. rewrite (get_pixel_ok im H W C) by (apply k_ch_range || exact LI; lia). cbn [obind].
    match goal with |- context [wr o ?q ?v] => destruct (wr_ok o q v ltac:(lia)) as (o1 & -> & W1 & W2 & W3 & _) end.
    exists o1. split; [reflexivity|]. split; [lia|]. split.
    + intros k' y' x' K' Y' X' B. pose proof (flat3 _ _ _ _ _ _ K' Y' X').
      destruct (Z.eq_dec (x' + ow * (y' + oh * k')) (x + ow * (y + oh * k))) as [EQ|NE].
      * destruct (flat3_inj oh ow k' y' x' k y x Y' X' Y X EQ) as (-> & -> & ->). apply W2.
      * rewrite W3 by lia. apply H1; assumption || lia.
    + intros p P. rewrite W3 by lia. apply H2. lia.
  - cbv zeta in E. rewrite E. exists col'. split; [reflexivity|]. split; [exact L|]. split; [|exact H2].
    intros k y x K Y X. apply H1; try assumption. apply (flat3 _ _ _ _ _ _ K Y X).
Qed.

(** Where entry [q] of the columns comes from; -1 if from outside the image. *)
Definition col_source (H W s st pad oh ow q : Z) : Z :=
  let k := q / ow / oh in
  let y := k_row s k + ((q / ow) mod oh) * st - pad in
  let x := k_col s k + (q mod ow) * st - pad in
  if (0 <=? y) && (y <? H) && (0 <=? x) && (x <? W) then x + W * (y + H * k_ch s k) else -1.
Lemma col_split oh ow k y x : 0 <= y < oh -> 0 <= x < ow -> let q := x + ow * (y + oh * k) in q / ow / oh = k /\ (q / ow) mod oh = y /\ q mod ow = x.
Proof.
  intros Y X q. unfold q.
  rewrite <- (Z.div_unique (x + ow * (y + oh * k)) ow (y + oh * k) x), <- (Z.mod_unique (x + ow * (y + oh * k)) ow (y + oh * k) x) by lia.
  rewrite <- (Z.div_unique (y + oh * k) oh k y), <- (Z.mod_unique (y + oh * k) oh k y) by lia. auto.
Qed.

Lemma col2im_ok col C H W s st pad im oh ow : 1 <= s -> 0 <= C -> C * s * s < 2 ^ 31 ->
  conv_out H pad s st = Ok oh -> conv_out W pad s st = Ok ow -> 0 <= oh -> 0 <= ow ->
  ow * (oh * (C * s * s)) <= 2 ^ 31 -> ow * (oh * (C * s * s)) <= len col -> W * (H * C) <= len im ->
  exists im', col2im Q col C H W s st pad im = Ok im' /\ len im' = len im /\
    forall p, 0 <= p -> at_ d im' p = gathered A (ow * (oh * (C * s * s))) (col_source H W s st pad oh ow) (at_ d col) p (at_ d im p).
Proof.
  intros S HC CS EH EW OH OW INT LC LI. unfold col2im. rewrite EH, EW, cprod3 by lia. cbn [obind].
  destruct (ofor3 (fun q (o : list T) => len o = len im /\
      (forall p, 0 <= p -> at_ d o p = gathered A q (col_source H W s st pad oh ow) (at_ d col) p (at_ d im p)))
      (C * s * s) oh ow (fun c h w im =>
       let im_row := Z.rem (Z.quot c s) s + h * st in
       let im_col := Z.rem c s + w * st in
       obind (cint ((c * oh + h) * ow + w)) (fun col_index =>
       obind (rd col col_index) (fun val => col2im_add_pixel Q im H W im_row im_col (Z.quot (Z.quot c s) s) pad val))) im) as (im' & E & L & H1).
  - nia.
  - exact OH.
  - exact OW.
  - split; [reflexivity|]. reflexivity.
  - intros k y x o K Y X (L & H1). cbv zeta. destruct (k_quot s k ltac:(lia) S) as (-> & -> & ->).
    pose proof (flat3 _ _ _ _ _ _ K Y X) as F. replace ((k * oh + y) * ow + x) with (x + ow * (y + oh * k)) by ring.
    rewrite cint_ok by lia. cbn [obind]. rewrite (rd_ok d) by lia. cbn [obind]. set (q := x + ow * (y + oh * k)) in *.
    destruct (col_split oh ow k y x Y X) as (S1 & S2 & S3). fold q in S1, S2, S3.
    pose proof (k_ch_range s k C S K) as KC.
    assert (ES : col_source H W s st pad oh ow q = let r := k_row s k + y * st - pad in let c := k_col s k + x * st - pad in
      if (0 <=? r) && (r <? H) && (0 <=? c) && (c <? W) then c + W * (r + H * k_ch s k) else -1) by (unfold col_source; rewrite S1, S2, S3; reflexivity).
    unfold col2im_add_pixel. cbv zeta in *. set (r := k_row s k + y * st - pad) in *. set (c := k_col s k + x * st - pad) in *.
    replace ((r <? 0) || (c <? 0) || (H <=? r) || (W <=? c)) with (negb ((0 <=? r) && (r <? H) && (0 <=? c) && (c <? W))) by lia.
    destruct ((0 <=? r) && (r <? H) && (0 <=? c) && (c <? W)) eqn:EB; cbn [negb].
    + apply andb_prop in EB. destruct EB as (EB & E4). apply andb_prop in EB. destruct EB as (EB & E3). apply andb_prop in EB. destruct EB as (E1 & E2).
      pose proof (flat3 C H W (k_ch s k) r c KC ltac:(lia) ltac:(lia)).
      destruct (modify_ok Q o (c + W * (r + H * k_ch s k)) (fun v => nadd Q v (at_ d col q)) ltac:(lia)) as (o1 & -> & W1 & W2 & W3 & _).
      exists o1. split; [reflexivity|]. split; [lia|]. intros p P. rewrite gathered_S by lia. rewrite ES.
      destruct (Z.eqb_spec (c + W * (r + H * k_ch s k)) p) as [<-|NE].
      * rewrite W2. fold d. rewrite H1 by lia. reflexivity.
      * rewrite W3 by lia. apply H1, P.
    + exists o. split; [reflexivity|]. split; [exact L|]. intros p P. rewrite gathered_S by lia. rewrite ES.
      replace (-1 =? p) with false by lia. apply H1, P.
  - cbv zeta in E. rewrite E. exists im'. auto.
Qed.

(** ** Convolutional layers *)

(** The dimensions and arrays of a convolutional layer agree with each other. *)
Record conv_shape (l : layer T) : Prop := {
  cv_h : 1 <= l_height l; cv_w : 1 <= l_width l; cv_c : 1 <= l_channels l; cv_size : 1 <= l_size l; cv_f : 1 <= l_n_filters l;
  cv_in : l_n_inputs l = l_height l * l_width l * l_channels l;
  cv_oh : conv_out (l_height l) (l_pad l) (l_size l) (l_stride l) = Ok (l_out_h l);
  cv_ow : conv_out (l_width l) (l_pad l) (l_size l) (l_stride l) = Ok (l_out_w l);
  cv_oh1 : 1 <= l_out_h l; cv_ow1 : 1 <= l_out_w l;
  cv_out : l_n_outputs l = l_out_h l * l_out_w l * l_n_filters l; cv_out_max : l_n_outputs l <= N_OUTPUTS_MAX;
  cv_nw : l_n_weights l = l_n_filters l * (l_channels l * l_size l * l_size l); cv_nw_max : l_n_weights l <= N_WEIGHTS_MAX;
  cv_nb : l_n_biases l = l_n_filters l;
  cv_state : len (l_state l) = l_n_outputs l; cv_output : len (l_output l) = l_n_outputs l; cv_delta : len (l_delta l) = l_n_outputs l;
  cv_weights : len (l_weights l) = l_n_weights l; cv_wu : len (l_weight_updates l) = l_n_weights l;
  cv_biases : len (l_biases l) = l_n_biases l; cv_bu : len (l_bias_updates l) = l_n_biases l;
  cv_temp : l_out_w l * (l_out_h l * (l_channels l * l_size l * l_size l)) <= len (l_temp l)
}.
(** Geometries with filters of one cell are computed from the image directly. *)
Definition conv_plain (l : layer T) : Prop := l_size l = 1 -> l_stride l = 1 /\ l_pad l = 0.
(** The index into the columns, an int, cannot overflow. *)
Definition conv_small (l : layer T) : Prop := l_out_w l * (l_out_h l * (l_channels l * l_size l * l_size l)) <= 2 ^ 31.

(** The state of neuron (f, y, x), before it is limited, in the order of the code. *)
Definition conv_state (l : layer T) (input : list T) (f y x : Z) : T :=
  let K := l_channels l * l_size l * l_size l in
  nadd Q (sum_from Q (nmul Q (a_Z A 0) (a_Z A 1)) K (fun k =>
    nmul Q (nmul Q (a_Z A 1) (at_ d (l_weights l) (f * K + k))) (unrolled (l_height l) (l_width l) (l_size l) (l_stride l) (l_pad l) input k y x)))
  (at_ d (l_biases l) f).

Lemma conv_out_one dim : 1 <= dim < 2 ^ 31 -> conv_out dim 0 1 1 = Ok dim.
Proof.
  intros D. unfold conv_out, cdiv. cbn [Z.eqb]. rewrite (cint_ok (2 * 0)) by lia. cbn [obind]. rewrite (cint_ok (dim + 2 * 0)) by lia. cbn [obind].
  rewrite (cint_ok (dim + 2 * 0 - 1)) by lia. cbn [obind]. change (1 =? 0) with false. cbn iota. rewrite Z.quot_1_r. rewrite (cint_ok (dim + 2 * 0 - 1)) by lia. cbn [obind].
  rewrite cint_ok by lia. f_equal. lia.
Qed.

Lemma conv_out_int dim pad s st o : conv_out dim pad s st = Ok o -> o < 2 ^ 31.
Proof.
  unfold conv_out. intros H. apply obind_ok in H. destruct H as (? & _ & H). apply obind_ok in H. destruct H as (? & _ & H).
  apply obind_ok in H. destruct H as (? & _ & H). apply obind_ok in H. destruct H as (? & _ & H). apply cint_inv in H. lia.
Qed.

Lemma conv_forward_ok l input (f : T -> T) : conv_shape l -> conv_plain l -> conv_small l -> len input = l_n_inputs l ->
  (forall x, neural_activate A (l_function l) x = Ok (f x)) ->
  exists st out tmp, convolutional_forward A l input = Ok (set_temp tmp (set_state st (set_output out l))) /\
    len st = l_n_outputs l /\ len out = l_n_outputs l /\ len tmp = len (l_temp l) /\
    forall g y x, 0 <= g < l_n_filters l -> 0 <= y < l_out_h l -> 0 <= x < l_out_w l ->
      let o := x + l_out_w l * (y + l_out_h l * g) in
      at_ d st o = aclamp A (conv_state l input g y x) (a_Z A NEURON_MIN) (a_Z A NEURON_MAX) /\ at_ d out o = f (at_ d st o).
Proof.
  intros C PL SM LI F. destruct C. unfold convolutional_forward. fold Q.
  set (K := l_channels l * l_size l * l_size l) in *. set (n := l_out_w l * l_out_h l). unfold conv_small in SM. fold K in SM.
  unfold N_WEIGHTS_MAX, N_OUTPUTS_MAX in *. set (W := l_n_weights l) in *.
  assert (K1 : 1 <= K) by (unfold K; nia). assert (KM : K <= 20000000) by nia.
  rewrite cprod3 by (fold K; lia || (replace (l_size l * l_size l * l_channels l) with K by (unfold K; ring); lia)).
  replace (l_size l * l_size l * l_channels l) with K by (unfold K; ring). cbn [obind]. 
  assert (N1 : 1 <= n) by (unfold n; nia). assert (NM : l_n_outputs l = l_n_filters l * n) by (unfold n; lia).
  rewrite (cint_ok n) by nia. cbn [obind].
  destruct (ofor_ind (fun k (c : list T) => len c = l_n_outputs l /\ forall i, 0 <= i < k -> at_ d c i = a_Z A 0) (fun i c => wr c i (a_Z A 0)) (l_n_outputs l) (l_state l))
    as (c0 & E0 & L0 & Z0).
  { nia. } { split; [assumption|intros; lia]. }
  { intros i c I (L & H). destruct (wr_ok c i (a_Z A 0) ltac:(lia)) as (c1 & -> & W1 & W2 & W3 & _). exists c1. split; [reflexivity|]. split; [lia|].
    intros j J. destruct (Z.eq_dec j i) as [->|NE]; [apply W2|rewrite W3 by lia; apply H; lia]. }
  rewrite E0. cbn [obind].
  (* the product, from the columns or from the image itself *)
  assert (GE : exists tmp c, (if l_size l =? 1
     then obind (blas_gemm Q false false (l_n_filters l) n K (a_Z A 1) (l_weights l) K input n (a_Z A 1) c0 n) (fun c => Ok (l_temp l, c))
     else obind (im2col Q input (l_channels l) (l_height l) (l_width l) (l_size l) (l_stride l) (l_pad l) (l_temp l)) (fun b =>
            obind (blas_gemm Q false false (l_n_filters l) n K (a_Z A 1) (l_weights l) K b n (a_Z A 1) c0 n) (fun c => Ok (b, c)))) = Ok (tmp, c) /\
     len tmp = len (l_temp l) /\ len c = l_n_outputs l /\
     forall g y x, 0 <= g < l_n_filters l -> 0 <= y < l_out_h l -> 0 <= x < l_out_w l ->
       at_ d c (x + l_out_w l * (y + l_out_h l * g)) = sum_from Q (nmul Q (a_Z A 0) (a_Z A 1)) K (fun k =>
         nmul Q (nmul Q (a_Z A 1) (at_ d (l_weights l) (g * K + k))) (unrolled (l_height l) (l_width l) (l_size l) (l_stride l) (l_pad l) input k y x))).
  { assert (GEM : forall b, n * K <= len b -> exists c, blas_gemm Q false false (l_n_filters l) n K (a_Z A 1) (l_weights l) K b n (a_Z A 1) c0 n = Ok c /\ len c = l_n_outputs l /\
        forall g j, 0 <= g < l_n_filters l -> 0 <= j < n -> at_ d c (j + n * g) = sum_from Q (nmul Q (a_Z A 0) (a_Z A 1)) K (fun k =>
          nmul Q (nmul Q (a_Z A 1) (at_ d (l_weights l) (g * K + k))) (at_ d b (k * n + j)))).
    { intros b LB. destruct (blas_gemm_ok Q false false (l_n_filters l) n K (a_Z A 1) (l_weights l) K b n (a_Z A 1) c0 n) as (c & E & L & B1 & _).
      - split; [lia|]. split; [lia|]. intros i j I J. nia.
      - lia.
      - intros i k I HK. cbv iota. nia.
      - intros k j HK J. cbv iota. nia.
      - exists c. split; [exact E|]. split; [lia|]. intros g j G J. replace (j + n * g) with (g * n + j) by ring. specialize (B1 g j G J). fold d in B1. rewrite B1.
        unfold gemm_entry, op_at. cbv iota. fold d. rewrite Z0 by nia. reflexivity. }
    destruct (Z.eqb_spec (l_size l) 1) as [S1|S1].
    - destruct (PL S1) as (ST & PD). rewrite S1, ST, PD in *.
      assert (HM : l_height l < 2 ^ 31 /\ l_width l < 2 ^ 31).
      { pose proof (conv_out_int _ _ _ _ _ cv_oh0). pose proof (conv_out_int _ _ _ _ _ cv_ow0).
        assert (EQ : forall dim o, conv_out dim 0 1 1 = Ok o -> dim = o).
        { intros dim o E. unfold conv_out, cdiv in E. apply obind_ok in E. destruct E as (v1 & E1 & E). apply cint_inv in E1. destruct E1 as (-> & _).
          apply obind_ok in E. destruct E as (v2 & E1 & E). apply cint_inv in E1. destruct E1 as (-> & _).
          apply obind_ok in E. destruct E as (v3 & E1 & E). apply cint_inv in E1. destruct E1 as (-> & _).
          apply obind_ok in E. destruct E as (v4 & E1 & E). change (1 =? 0) with false in E1. cbn iota in E1. rewrite Z.quot_1_r in E1. apply cint_inv in E1. destruct E1 as (-> & _).
          apply cint_inv in E. lia. }
        rewrite (EQ _ _ cv_oh0), (EQ _ _ cv_ow0). lia. }
      rewrite conv_out_one in cv_oh0, cv_ow0 by lia. injection cv_oh0 as EH. injection cv_ow0 as EW.
      assert (EK : K = l_channels l) by (unfold K; rewrite S1; ring).
      destruct (GEM input) as (c & E & L & H); [unfold n; rewrite EK, <- EH, <- EW; nia|]. rewrite E. cbn [obind]. exists (l_temp l), c.
      split; [reflexivity|]. split; [reflexivity|]. split; [exact L|]. intros g y x G Y X.
      replace (x + l_out_w l * (y + l_out_h l * g)) with (x + l_out_w l * y + n * g) by (unfold n; ring).
      rewrite (H g (x + l_out_w l * y) G) by (unfold n; nia).
      apply fold_left_ext_in. intros k s IK. apply in_iota in IK. f_equal. f_equal.
      unfold unrolled, k_ch, k_row, k_col, img_at. rewrite !Z.div_1_r, !Z.mod_1_r. rewrite <- EH in Y. rewrite <- EW in X.
      replace ((0 <=? 0 + y * 1 - 0) && (0 + y * 1 - 0 <? l_height l) && (0 <=? 0 + x * 1 - 0) && (0 + x * 1 - 0 <? l_width l)) with true by lia.
      f_equal. unfold n. rewrite <- EH, <- EW. ring.
    - destruct (im2col_ok input (l_channels l) (l_height l) (l_width l) (l_size l) (l_stride l) (l_pad l) (l_temp l) (l_out_h l) (l_out_w l))
        as (b & E & L & H & _); try (fold K; lia); try assumption; try nia.
      rewrite E. cbn [obind]. destruct (GEM b) as (c & E2 & L2 & H2); [rewrite L; unfold n; fold K in cv_temp0; nia|]. rewrite E2. cbn [obind].
      exists b, c. split; [reflexivity|]. split; [exact L|]. split; [exact L2|]. intros g y x G Y X.
      replace (x + l_out_w l * (y + l_out_h l * g)) with (x + l_out_w l * y + n * g) by (unfold n; ring).
      rewrite (H2 g (x + l_out_w l * y) G) by (unfold n; nia).
      apply fold_left_ext_in. intros k s IK. apply in_iota in IK. f_equal. f_equal.
      replace (k * n + (x + l_out_w l * y)) with (x + l_out_w l * (y + l_out_h l * k)) by (unfold n; ring). apply H; try assumption. }
  destruct GE as (tmp & c & EG & LT & LC & HG). fold K in EG.
  match goal with |- context [obind ?m _] => match m with if l_size l =? 1 then _ else _ => replace m with (Ok (tmp, c)) by (symmetry; exact EG) end end. cbn [obind fst snd].
  destruct (loop_rows Q (l_n_filters l) n n (fun i _ v => nadd Q v (at_ d (l_biases l) i))
    (fun i c => ofor n (fun j c => obind (rd (l_biases l) i) (fun b => modify_at c (i * n + j) (fun x => nadd Q x b))) c) c) as (c1 & E1 & LB & B1 & _).
  { split; [lia|]. split; [lia|]. intros i j I J. nia. }
  { intros i C1 I L1. apply (loop_row Q (l_n_filters l) n n i (fun _ v => nadd Q v (at_ d (l_biases l) i))).
    - split; [lia|]. split; [lia|]. intros. nia.
    - exact I.
    - intros j C2 J L2. rewrite (rd_ok d) by lia. cbn [obind]. apply (modify_ok Q C2 (i * n + j) (fun v => nadd Q v (at_ d (l_biases l) i))). nia. }
  rewrite cv_nb0. rewrite E1. cbn [obind].
  destruct (activate_ok A c1 (l_output l) (l_n_outputs l) (l_function l) f F ltac:(lia) ltac:(lia)) as (st & out & EA & LS & LO & H1 & _).
  rewrite EA. cbn [obind fst snd]. exists st, out, tmp. split; [reflexivity|]. split; [lia|]. split; [lia|]. split; [exact LT|].
  intros g y x G Y X. set (o := x + l_out_w l * (y + l_out_h l * g)). destruct (H1 o) as (H2 & H3).
  { unfold o. pose proof (flat3 _ _ _ _ _ _ G Y X). lia. }
  split; [|exact H3]. fold Q d in H2. rewrite H2. f_equal. unfold conv_state. fold K. rewrite <- (HG g y x G Y X). fold o.
  specialize (B1 g (x + l_out_w l * y) G ltac:(unfold n; nia)). replace (g * n + (x + l_out_w l * y)) with o in B1 by (unfold o, n; ring). exact B1.
Qed.
End Any.
