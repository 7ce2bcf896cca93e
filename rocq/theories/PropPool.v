(** * Pooling and upsampling layers (C47). *)
From Coq Require Import ZArith Bool List Lia Reals Lra.
From Verif Require Import Outcome F64 F64Facts Rng Sam Arr ArrFacts Blas BlasFacts Exact Clock Dgp Act ActFacts Image Layer LayerFacts PoolFacts.
Import ListNotations.
Open Scope Z_scope.

(** ** Construction *)
Lemma cint_inv z y : cint z = Ok y -> y = z /\ - 2 ^ 31 <= z < 2 ^ 31.
Proof. unfold cint. destruct ((- 2 ^ 31 <=? z) && (z <? 2 ^ 31)) eqn:E; [|discriminate]. intros H. injection H as <-. lia. Qed.
Lemma cint_ok z : - 2 ^ 31 <= z < 2 ^ 31 -> cint z = Ok z.
Proof. intros H. unfold cint. replace ((- 2 ^ 31 <=? z) && (z <? 2 ^ 31)) with true by lia. reflexivity. Qed.
Lemma obind_ok {A B} (m : outcome A) (k : A -> outcome B) b : obind m k = Ok b -> exists a, m = Ok a /\ k a = Ok b.
Proof. destruct m; cbn [obind]; try discriminate. eauto. Qed.
Lemma cprod_inv l : forall acc p, cprod acc l = Ok p -> p = fold_left Z.mul l acc /\ (l <> [] -> - 2 ^ 31 <= p < 2 ^ 31).
Proof.
  induction l as [|x r IH]; intros acc p H; cbn [cprod fold_left] in *.
  - injection H as <-. split; [reflexivity|now intros []].
  - apply obind_ok in H. destruct H as (q & E & H). apply cint_inv in E. destruct E as (-> & B). destruct (IH _ _ H) as (-> & B2). split; [reflexivity|].
    intros _. destruct r; [cbn; exact B|apply B2; discriminate].
Qed.
Lemma plain_malloc_inv l l' : plain_malloc l = Ok l' -> 1 <= l_n_outputs l <= N_OUTPUTS_MAX /\
  exists st ix, l' = set_output (zeros f0 (l_n_outputs l)) (set_delta (zeros f0 (l_n_outputs l)) (set_state st (set_indexes ix l))) /\
    (l_type l = MAXPOOL -> ix = zeros 0 (l_n_outputs l)) /\ (l_type l = DROPOUT \/ l_type l = NOISE -> st = zeros f0 (l_n_outputs l)).
Proof.
  unfold plain_malloc. intros H. apply obind_ok in H. destruct H as (u & G & H). unfold layer_guard_outputs, guard in G.
  destruct ((l_n_outputs l <? 1) || (N_OUTPUTS_MAX <? l_n_outputs l)) eqn:E; [discriminate|]. apply orb_false_elim in E. destruct E as (E1 & E2).
  injection H as <-. split; [lia|]. eexists _, _. split; [reflexivity|]. split.
  - intros ->. reflexivity.
  - intros [-> | ->]; reflexivity.
Qed.

(** The fields of an average pooling layer agree with each other and with the arrays. *)
Record avg_shape {T} (l : layer T) : Prop := {
  as_h : 1 <= l_height l; as_w : 1 <= l_width l; as_c : 1 <= l_channels l;
  as_in : l_n_inputs l = l_height l * l_width l * l_channels l; as_out : l_n_outputs l = l_channels l;
  as_int : l_height l * l_width l < 2 ^ 31;
  as_output : len (l_output l) = l_n_outputs l; as_delta : len (l_delta l) = l_n_outputs l
}.
Record up_shape {T} (l : layer T) : Prop := {
  us_h : 1 <= l_height l; us_w : 1 <= l_width l; us_c : 1 <= l_channels l; us_s : 1 <= l_stride l;
  us_in : l_n_inputs l = l_height l * l_width l * l_channels l;
  us_out : l_n_outputs l = (l_height l * l_stride l) * (l_width l * l_stride l) * l_channels l;
  us_output : len (l_output l) = l_n_outputs l; us_delta : len (l_delta l) = l_n_outputs l
}.
Record max_shape {T} (l : layer T) : Prop := {
  ms_h : 1 <= l_height l; ms_w : 1 <= l_width l; ms_c : 1 <= l_channels l;
  ms_in : l_n_inputs l = l_height l * l_width l * l_channels l;
  ms_oh : l_out_h l = Z.quot (l_height l + l_pad l - l_size l) (l_stride l) + 1;
  ms_ow : l_out_w l = Z.quot (l_width l + l_pad l - l_size l) (l_stride l) + 1;
  ms_stride : l_stride l <> 0;
  ms_out : l_n_outputs l = l_out_h l * l_out_w l * l_channels l;
  ms_some : 1 <= l_n_outputs l;
  ms_output : len (l_output l) = l_n_outputs l; ms_delta : len (l_delta l) = l_n_outputs l;
  ms_indexes : len (l_indexes l) = l_n_outputs l; ms_index : Forall (fun x => 0 <= x < l_n_inputs l) (l_indexes l)
}.

Lemma pool_out_inv a b c d o : pool_out a b c d = Ok o -> d <> 0 /\ o = Z.quot (a + b - c) d + 1.
Proof.
  unfold pool_out. intros H. apply obind_ok in H. destruct H as (s1 & E1 & H). apply cint_inv in E1. destruct E1 as (-> & _).
  apply obind_ok in H. destruct H as (s2 & E2 & H). apply cint_inv in E2. destruct E2 as (-> & _).
  apply obind_ok in H. destruct H as (q & E3 & H). unfold cdiv in E3. destruct (Z.eqb_spec d 0); [discriminate|].
  apply cint_inv in E3. destruct E3 as (-> & _). apply cint_inv in H. destruct H as (-> & _). auto.
Qed.

Lemma C47_init_lemma a l : 1 <= la_height a -> 1 <= la_width a -> 1 <= la_channels a ->
  (avgpool_init a = Ok l -> avg_shape l) /\
  (upsample_init a = Ok l -> 1 <= la_stride a -> up_shape l) /\
  (maxpool_init a = Ok l -> max_shape l).
Proof.
  intros H W C. split; [|split].
  - unfold avgpool_init. intros E. apply obind_ok in E. destruct E as (ni & E1 & E). apply cprod_inv in E1. destruct E1 as (-> & B).
    apply plain_malloc_inv in E. destruct E as (N & st & ix & -> & _). cbn in N. specialize (B ltac:(discriminate)). cbn [fold_left] in B.
    constructor; cbn; try assumption; try reflexivity; try (rewrite len_zeros by lia; reflexivity). nia.
  - unfold upsample_init. intros E S. apply obind_ok in E. destruct E as (ow & E1 & E). apply cint_inv in E1. destruct E1 as (-> & _).
    apply obind_ok in E. destruct E as (oh & E1 & E). apply cint_inv in E1. destruct E1 as (-> & _).
    apply obind_ok in E. destruct E as (no & E1 & E). apply cprod_inv in E1. destruct E1 as (-> & _).
    apply obind_ok in E. destruct E as (ni & E1 & E). apply cprod_inv in E1. destruct E1 as (-> & _).
    apply plain_malloc_inv in E. destruct E as (N & st & ix & -> & _). cbn in N.
    constructor; cbn; try assumption; try reflexivity; rewrite len_zeros by lia; reflexivity.
  - unfold maxpool_init. intros E. apply obind_ok in E. destruct E as (ow & E1 & E). apply pool_out_inv in E1. destruct E1 as (ST & ->).
    apply obind_ok in E. destruct E as (oh & E1 & E). apply pool_out_inv in E1. destruct E1 as (_ & ->).
    apply obind_ok in E. destruct E as (no & E1 & E). apply cprod_inv in E1. destruct E1 as (-> & _).
    apply obind_ok in E. destruct E as (ni & E1 & E). apply cprod_inv in E1. destruct E1 as (-> & _).
    apply plain_malloc_inv in E. destruct E as (N & st & ix & -> & IX & _). specialize (IX eq_refl). subst ix. cbn in N.
    constructor; cbn; try assumption; try reflexivity; try (rewrite len_zeros by lia; reflexivity); try lia.
    apply Forall_forall. intros x I. apply repeat_spec in I. subst x. nia.
Qed.

(** ** Average pooling *)
Open Scope R_scope.
Notation at0 := (at_ 0%R).

Lemma C47_average_lemma (l : layer R) input od : avg_shape l -> len input = l_n_inputs l ->
  (forall dl, od = Some dl -> len dl = l_n_inputs l) ->
  let n := (l_height l * l_width l)%Z in
  (exists out, avgpool_forward R_arith l input = Ok (set_output out l) /\ len out = l_channels l /\
     forall k, (0 <= k < l_channels l)%Z -> at0 out k = rsum n (fun i => at0 input (i + n * k)) / IZR n) /\
  (exists od', avgpool_backward R_arith l od = Ok od' /\
     match od with
     | None => od' = None
     | Some dl => exists dl', od' = Some dl' /\ len dl' = len dl /\
         forall k i, (0 <= k < l_channels l)%Z -> (0 <= i < n)%Z -> at0 dl' (i + n * k) = at0 dl (i + n * k) + at0 (l_delta l) k / IZR n
     end).
Proof.
  intros S LI LD n. destruct S. assert (N1 : (1 <= n)%Z) by (unfold n; nia).
  assert (EN : cint (l_height l * l_width l) = Ok n) by (apply cint_ok; unfold n in *; lia). split.
  - destruct (avgpool_forward_ok R_arith l input n EN ltac:(lia) ltac:(lia) ltac:(lia) ltac:(unfold n; lia)) as (out & E & L & H & _).
    exists out. split; [exact E|]. split; [lia|]. intros k K. etransitivity; [exact (H k K)|]. cbn [a_num R_arith n0 R_num ndiv a_Z].
    rewrite sum_from_R by lia. rewrite Rplus_0_l. reflexivity.
  - destruct od as [dl|]; [|exists None; split; reflexivity].
    destruct (avgpool_backward_ok R_arith l dl n EN ltac:(lia) ltac:(lia) ltac:(lia) ltac:(rewrite (LD dl eq_refl); unfold n; lia)) as (dl' & E & L & H & _).
    exists (Some dl'). split; [exact E|]. exists dl'. split; [reflexivity|]. split; [exact L|]. intros k i K I. exact (H k i K I).
Qed.
(** The same code in double precision: in range, and the order of the additions. *)
Lemma C47_average_doubles_lemma lm (l : layer f64) input od : avg_shape l -> len input = l_n_inputs l ->
  (forall dl, od = Some dl -> len dl = l_n_inputs l) ->
  let n := (l_height l * l_width l)%Z in
  (exists out, avgpool_forward (f64_arith lm) l input = Ok (set_output out l) /\ len out = l_channels l /\
     forall k, (0 <= k < l_channels l)%Z -> at_ f0 out k = fdiv (fold_left (fun s i => fadd s (at_ f0 input (i + n * k))) (iota n) f0) (of_Z n)) /\
  (exists od', avgpool_backward (f64_arith lm) l od = Ok od' /\
     match od with
     | None => od' = None
     | Some dl => exists dl', od' = Some dl' /\ len dl' = len dl /\
         forall k i, (0 <= k < l_channels l)%Z -> (0 <= i < n)%Z -> at_ f0 dl' (i + n * k) = fadd (at_ f0 dl (i + n * k)) (fdiv (at_ f0 (l_delta l) k) (of_Z n))
     end).
Proof.
  intros S LI LD n. destruct S. assert (N1 : (1 <= n)%Z) by (unfold n; nia).
  assert (EN : cint (l_height l * l_width l) = Ok n) by (apply cint_ok; unfold n in *; lia). split.
  - destruct (avgpool_forward_ok (f64_arith lm) l input n EN ltac:(lia) ltac:(lia) ltac:(lia) ltac:(unfold n; lia)) as (out & E & L & H & _).
    exists out. split; [exact E|]. split; [lia|]. intros k K. exact (H k K).
  - destruct od as [dl|]; [|exists None; split; reflexivity].
    destruct (avgpool_backward_ok (f64_arith lm) l dl n EN ltac:(lia) ltac:(lia) ltac:(lia) ltac:(rewrite (LD dl eq_refl); unfold n; lia)) as (dl' & E & L & H & _).
    exists (Some dl'). split; [exact E|]. exists dl'. split; [reflexivity|]. split; [exact L|]. intros k i K I. exact (H k i K I).
Qed.

(** ** Sums *)
Lemma sumn_add n m f : sumn (n + m) f = sumn n f + sumn m (fun j => f (Z.of_nat n + j)%Z).
Proof.
  induction m as [|m IH]; [rewrite Nat.add_0_r; cbn; lra|]. rewrite Nat.add_succ_r. cbn [sumn]. rewrite IH.
  replace (Z.of_nat (n + m)) with (Z.of_nat n + Z.of_nat m)%Z by lia. lra.
Qed.
Lemma rsum_flat n m f : (0 <= n)%Z -> (0 <= m)%Z -> rsum (n * m) f = rsum n (fun i => rsum m (fun j => f (j + m * i)%Z)).
Proof.
  intros N M. rewrite <- (Z2Nat.id n N). induction (Z.to_nat n) as [|k IH].
  - reflexivity.
  - unfold rsum in *. replace (Z.to_nat (Z.of_nat (S k) * m)) with (Z.to_nat (Z.of_nat k * m) + Z.to_nat m)%nat by nia.
    rewrite sumn_add, IH. rewrite !Nat2Z.id. cbn [sumn]. f_equal. apply sumn_ext. intros j J. f_equal. nia.
Qed.
Lemma gathered_R n target f p v : (0 <= n)%Z -> gathered R_arith n target f p v = v + rsum n (fun q => if (target q =? p)%Z then f q else 0).
Proof.
  intros N. unfold rsum. rewrite <- (Z2Nat.id n N) at 1. induction (Z.to_nat n) as [|k IH].
  - cbn. lra.
  - rewrite Nat2Z.inj_succ, <- Z.add_1_r, gathered_S by lia. rewrite IH. cbn [sumn a_num R_arith R_num nadd]. destruct (target (Z.of_nat k) =? p)%Z; lra.
Qed.

(** ** Upsampling *)

(** Cell (k, y, x) of an image with [h] rows of [w] cells. *)
Definition pixel (h w k y x : Z) : Z := (x + w * (y + h * k))%Z.

Lemma C47_upsample_lemma T (l : layer T) (d : T) input : up_shape l -> len input = l_n_inputs l ->
  let h := l_height l in let w := l_width l in let s := l_stride l in
  exists out, upsample_forward l input = Ok (set_output out l) /\ len out = l_n_outputs l /\
    forall k y x a b, (0 <= k < l_channels l)%Z -> (0 <= y < h)%Z -> (0 <= x < w)%Z -> (0 <= a < s)%Z -> (0 <= b < s)%Z ->
      at_ d out (pixel (h * s) (w * s) k (s * y + a) (s * x + b)) = at_ d input (pixel h w k y x).
Proof.
  intros S LI h w s. destruct S.
  assert (A0 : exists A : arith T, n0 (a_num A) = d).
  { exists (mkArith T (mkNum T d d (fun a _ => a) (fun a _ => a) (fun a _ => a) (fun a _ => a) (fun a => a) (fun _ _ => true))
      (fun _ => d) (fun _ _ => true) (fun _ _ => true) (fun a => a) (fun a => a) (fun a => a) (fun a => a) (fun a => a) (fun a => a) (fun _ _ => d) d). reflexivity. }
  destruct A0 as (A & EA).
  destruct (upsample_forward_ok A l input) as (out & E & L & H); try lia.
  exists out. split; [exact E|]. split; [lia|]. intros k y x a b K Y X HA HB. rewrite <- EA. unfold pixel. fold h w s in H.
  rewrite (H k (s * y + a)%Z (s * x + b)%Z); [|exact K|nia|nia]. unfold up_in.
  rewrite <- (Z.div_unique (s * x + b) s x b), <- (Z.div_unique (s * y + a) s y a) by lia. reflexivity.
Qed.

Lemma C47_upsample_back_lemma (l : layer R) od : up_shape l -> (forall dl, od = Some dl -> len dl = l_n_inputs l) ->
  let h := l_height l in let w := l_width l in let s := l_stride l in
  exists od', upsample_backward R_arith l od = Ok od' /\
    match od with
    | None => od' = None
    | Some dl => exists dl', od' = Some dl' /\ len dl' = len dl /\
        forall k y x, (0 <= k < l_channels l)%Z -> (0 <= y < h)%Z -> (0 <= x < w)%Z ->
          at0 dl' (pixel h w k y x) = at0 dl (pixel h w k y x) +
            rsum s (fun a => rsum s (fun b => at0 (l_delta l) (pixel (h * s) (w * s) k (s * y + a) (s * x + b))))
    end.
Proof.
  intros S LD h w s. destruct S. destruct od as [dl|]; [|exists None; split; reflexivity].
  destruct (upsample_backward_ok R_arith l dl) as (dl' & E & L & H); try lia; [rewrite (LD dl eq_refl); lia|].
  fold h w s in H. exists (Some dl'). split; [exact E|]. exists dl'. split; [reflexivity|]. split; [exact L|].
  intros k y x K Y X. assert (P : (0 <= pixel h w k y x)%Z) by (unfold pixel; nia). pose proof (H _ P) as HP. cbn [n0 a_num R_arith R_num] in HP. rewrite HP.
  fold h w s in us_h0, us_w0, us_s0. rewrite gathered_R by nia. f_equal.
  set (c := l_channels l) in *. set (f := at0 (l_delta l)).
  replace (w * s * (h * s * c))%Z with (c * (h * s) * (w * s))%Z by ring.
  rewrite rsum_flat by nia. rewrite rsum_flat by nia.
  rewrite (rsum_ext c _ (fun k' => if (k =? k')%Z then rsum s (fun a => rsum s (fun b => f (pixel (h * s) (w * s) k' (s * y + a) (s * x + b)))) else 0)).
  { apply rsum_delta. exact K. }
  intros k' K'.
  rewrite (rsum_ext (h * s) _ (fun j => rsum (w * s) (fun i => if (up_in h w s k' j i =? pixel h w k y x)%Z then f (pixel (h * s) (w * s) k' j i) else 0))).
  2: { intros j J. apply rsum_ext. intros i I. rewrite (up_target_eq h w s k' j i J I). reflexivity. }
  rewrite rsum_flat by nia.
  assert (IN : forall y' a, (0 <= y' < h)%Z -> (0 <= a < s)%Z ->
    rsum (w * s) (fun i => if (up_in h w s k' (a + s * y') i =? pixel h w k y x)%Z then f (pixel (h * s) (w * s) k' (a + s * y') i) else 0) =
    if ((y =? y') && (k =? k'))%Z then rsum s (fun b => f (pixel (h * s) (w * s) k' (s * y + a) (s * x + b))) else 0).
  { intros y' a Y' HA. rewrite rsum_flat by nia.
    rewrite (rsum_ext w _ (fun x' => if (x =? x')%Z then if ((y =? y') && (k =? k'))%Z then rsum s (fun b => f (pixel (h * s) (w * s) k' (s * y + a) (s * x + b))) else 0 else 0)).
    { rewrite rsum_delta by exact X. reflexivity. }
    intros x' X'. assert (UP : forall b, (0 <= b < s)%Z -> up_in h w s k' (a + s * y') (b + s * x') = pixel h w k' y' x').
    { intros b HB. unfold up_in, pixel. rewrite <- (Z.div_unique (b + s * x') s x' b), <- (Z.div_unique (a + s * y') s y' a) by lia. reflexivity. }
    destruct (Z.eqb_spec x x') as [<-|NX]; [destruct (Z.eqb_spec y y') as [<-|NY]; [destruct (Z.eqb_spec k k') as [<-|NK]|]|]; cbn [andb].
    - apply rsum_ext. intros b HB. rewrite (UP b HB), Z.eqb_refl. do 2 f_equal; lia.
    - rewrite (rsum_ext s _ (fun _ => 0 * 0)); [rewrite rsum_scal; ring|]. intros b HB. rewrite (UP b HB). unfold pixel.
      destruct (Z.eqb_spec (x + w * (y + h * k')) (x + w * (y + h * k))) as [E1|]; [|ring]. exfalso.
      destruct (flat3_inj h w k' y x k y x Y X Y X E1) as (E2 & _ & _). congruence.
    - rewrite (rsum_ext s _ (fun _ => 0 * 0)); [rewrite rsum_scal; ring|]. intros b HB. rewrite (UP b HB). unfold pixel.
      destruct (Z.eqb_spec (x + w * (y' + h * k')) (x + w * (y + h * k))) as [E1|]; [|ring]. exfalso.
      destruct (flat3_inj h w k' y' x k y x Y' X Y X E1) as (_ & E2 & _). congruence.
    - rewrite (rsum_ext s _ (fun _ => 0 * 0)); [rewrite rsum_scal; ring|]. intros b HB. rewrite (UP b HB). unfold pixel.
      destruct (Z.eqb_spec (x' + w * (y' + h * k')) (x + w * (y + h * k))) as [E1|]; [|ring]. exfalso.
      destruct (flat3_inj h w k' y' x' k y x Y' X' Y X E1) as (_ & _ & E2). congruence. }
  rewrite (rsum_ext h _ (fun y' => if (y =? y')%Z then if (k =? k')%Z then rsum s (fun a => rsum s (fun b => f (pixel (h * s) (w * s) k' (s * y + a) (s * x + b)))) else 0 else 0)).
  { apply rsum_delta. exact Y. }
  intros y' Y'. rewrite (rsum_ext s _ _ (fun a HA => IN y' a Y' HA)).
  destruct (y =? y')%Z; cbn [andb]; [destruct (k =? k')%Z; [reflexivity|]|]; (rewrite (rsum_ext s _ (fun _ => 0 * 0)) by (intros; ring); rewrite rsum_scal; ring).
Qed.

(** ** Max pooling *)
Lemma flt_tr x y z : flt x y = true -> flt y z = true -> flt x z = true.
Proof. intros H1 H2. exact (flt_fle_trans x y z H1 (flt_fle y z H2)). Qed.
Lemma rltb_irr x : rltb x x = false. Proof. unfold rltb. destruct (Rlt_dec x x); [lra|reflexivity]. Qed.
Lemma rltb_tr x y z : rltb x y = true -> rltb y z = true -> rltb x z = true.
Proof. unfold rltb. destruct (Rlt_dec x y), (Rlt_dec y z), (Rlt_dec x z); try discriminate; try reflexivity; lra. Qed.

(** Input (y, x) belongs to the window of output (i, j): size by size cells, [stride] apart,
    starting [pad/2] before the image. *)
Definition window {T} (l : layer T) (i j y x : Z) : Prop :=
  (0 <= y < l_height l)%Z /\ (0 <= x < l_width l)%Z /\
  exists a b, (0 <= a < l_size l)%Z /\ (0 <= b < l_size l)%Z /\
    y = (i * l_stride l - Z.quot (l_pad l) 2 + a)%Z /\ x = (j * l_stride l - Z.quot (l_pad l) 2 + b)%Z.
Lemma window_iff {T} (l : layer T) i j y x : in_window l i j y x <-> window l i j y x.
Proof.
  unfold in_window, window. rewrite Z.quot_opp_l by lia. split.
  - intros (A & B & C & D). split; [exact A|]. split; [exact B|].
    exists (y - (i * l_stride l + - Z.quot (l_pad l) 2))%Z, (x - (j * l_stride l + - Z.quot (l_pad l) 2))%Z. lia.
  - intros (A & B & a & b & HA & HB & E1 & E2). lia.
Qed.

Lemma C47_max_lemma lm (l : layer f64) input : max_shape l -> len input = l_n_inputs l ->
  let at_in k y x := at_ f0 input (pixel (l_height l) (l_width l) k y x) in
  let m := maxpool_forward (f64_arith lm) l input in
  ((forall k i j, (0 <= k < l_channels l)%Z -> (0 <= i < l_out_h l)%Z -> (0 <= j < l_out_w l)%Z ->
      exists y x, window l i j y x /\ flt (fneg dbl_max) (at_in k y x) = true) ->
   exists ix out, m = Ok (set_indexes ix (set_output out l)) /\ max_shape (set_indexes ix (set_output out l)) /\
     forall k i j, (0 <= k < l_channels l)%Z -> (0 <= i < l_out_h l)%Z -> (0 <= j < l_out_w l)%Z ->
       let o := pixel (l_out_h l) (l_out_w l) k i j in
       exists y x, window l i j y x /\ at_ 0%Z ix o = pixel (l_height l) (l_width l) k y x /\ at_ f0 out o = at_in k y x /\
         forall y' x', window l i j y' x' -> flt (at_ f0 out o) (at_in k y' x') = false) /\
  ((exists k i j, (0 <= k < l_channels l)%Z /\ (0 <= i < l_out_h l)%Z /\ (0 <= j < l_out_w l)%Z /\
      forall y x, window l i j y x -> flt (fneg dbl_max) (at_in k y x) = false) -> m = Exit).
Proof.
  intros S LI at_in m. destruct S.
  destruct (maxpool_forward_ok (f64_arith lm) flt_irrefl flt_tr l input) as [(l' & E & ix & out & El' & L1 & L2 & P & IX)|(E & D)]; try lia.
  - cbn [n0 a_num f64_arith f64_num a_lt a_lowest] in P. split.
    + intros _. exists ix, out. split; [unfold m; rewrite E, El'; reflexivity|]. split.
      * constructor; cbn; try assumption. apply (Forall_at _ 0%Z). intros o O. apply IX; [lia|nia|exact ms_index0].
      * intros k i j K I J o. destruct (P k i j K I J) as (E1 & _ & (h & w & W & E2) & M). fold o in E1, E2, M.
        exists h, w. split; [apply window_iff, W|]. split; [exact E2|]. split; [change (at_ f0 out o = at_ f0 input (cell l k h w)); rewrite <- E2; exact E1|].
        intros y' x' W'. apply window_iff in W'. exact (M y' x' W').
    + intros (k & i & j & K & I & J & D). exfalso. destruct (P k i j K I J) as (E1 & E3 & (h & w & W & E2) & M).
      specialize (D h w (proj1 (window_iff l i j h w) W)). unfold at_in in D. change (pixel (l_height l) (l_width l) k h w) with (cell l k h w) in D.
      cbn [n0 f64_num a_num f64_arith a_lt a_lowest] in *. rewrite <- E2, <- E1, E3 in D. discriminate D.
  - split; [|intros _; exact E]. intros H. exfalso. destruct D as (k & i & j & K & I & J & D). destruct (H k i j K I J) as (y & x & W & F).
    apply window_iff in W. specialize (D y x W). unfold at_in in F. change (cell l k y x) with (pixel (l_height l) (l_width l) k y x) in D. cbn [n0 f64_num a_num f64_arith a_lt a_lowest] in D. rewrite F in D. discriminate D.
Qed.

(** The gradient goes to the winning inputs: exact arithmetic, and the order of the additions
    in doubles. *)
Lemma C47_max_back_lemma (l : layer R) od : max_shape l -> (forall dl, od = Some dl -> len dl = l_n_inputs l) ->
  exists od', maxpool_backward R_arith l od = Ok od' /\
    match od with
    | None => od' = None
    | Some dl => exists dl', od' = Some dl' /\ len dl' = len dl /\
        forall p, (0 <= p < len dl)%Z -> at0 dl' p = at0 dl p + rsum (l_n_outputs l) (fun o => if (at_ 0%Z (l_indexes l) o =? p)%Z then at0 (l_delta l) o else 0)
    end.
Proof.
  intros S LD. destruct S. destruct od as [dl|]; [|exists None; split; reflexivity].
  destruct (maxpool_backward_ok R_arith l dl) as (dl' & E & L & H); try lia.
  { intros o O. rewrite (LD dl eq_refl). apply (Forall_at _ 0%Z) with (i := o) in ms_index0; [exact ms_index0|lia]. }
  exists (Some dl'). split; [exact E|]. exists dl'. split; [reflexivity|]. split; [exact L|].
  intros p P. pose proof (H p ltac:(lia)) as HP. cbn [n0 a_num R_arith R_num] in HP. rewrite HP. apply gathered_R. lia.
Qed.
Lemma C47_max_back_doubles_lemma lm (l : layer f64) od : max_shape l -> (forall dl, od = Some dl -> len dl = l_n_inputs l) ->
  exists od', maxpool_backward (f64_arith lm) l od = Ok od' /\
    match od with
    | None => od' = None
    | Some dl => exists dl', od' = Some dl' /\ len dl' = len dl /\
        forall p, (0 <= p < len dl)%Z -> at_ f0 dl' p =
          fold_left (fun s o => if (at_ 0%Z (l_indexes l) o =? p)%Z then fadd s (at_ f0 (l_delta l) o) else s) (iota (l_n_outputs l)) (at_ f0 dl p)
    end.
Proof.
  intros S LD. destruct S. destruct od as [dl|]; [|exists None; split; reflexivity].
  destruct (maxpool_backward_ok (f64_arith lm) l dl) as (dl' & E & L & H); try lia.
  { intros o O. rewrite (LD dl eq_refl). apply (Forall_at _ 0%Z) with (i := o) in ms_index0; [exact ms_index0|lia]. }
  exists (Some dl'). split; [exact E|]. exists dl'. split; [reflexivity|]. split; [exact L|].
  intros p P. exact (H p ltac:(lia)).
Qed.

(** When every window has a cell of the image, max pooling ends for all inputs above -DBL_MAX. *)
Lemma C47_max_ends_lemma lm (l : layer f64) input : max_shape l -> len input = l_n_inputs l ->
  (1 <= l_stride l)%Z -> (0 <= l_pad l)%Z -> (l_pad l + 1 < 2 * l_size l)%Z -> (l_size l <= l_height l + l_pad l)%Z -> (l_size l <= l_width l + l_pad l)%Z ->
  Forall (fun v => flt (fneg dbl_max) v = true) input ->
  exists l', maxpool_forward (f64_arith lm) l input = Ok l'.
Proof.
  intros S LI ST P SZ SH SW F. destruct (proj1 (C47_max_lemma lm l input S LI)) as (ix & out & E & _); [|eauto].
  destruct S. assert (Q : (l_pad l = 2 * Z.quot (l_pad l) 2 + Z.rem (l_pad l) 2)%Z) by apply Z.quot_rem'.
  assert (RB : (0 <= Z.rem (l_pad l) 2 < 2)%Z) by (apply Z.rem_bound_pos; lia).
  assert (ONE : forall h o i, (0 <= i < o)%Z -> o = (Z.quot (h + l_pad l - l_size l) (l_stride l) + 1)%Z -> (1 <= h)%Z -> (l_size l <= h + l_pad l)%Z ->
    exists a, (0 <= a < l_size l)%Z /\ (0 <= i * l_stride l - Z.quot (l_pad l) 2 + a < h)%Z).
  { intros h o i I EO H1 SZ'. assert (B : (l_stride l * Z.quot (h + l_pad l - l_size l) (l_stride l) <= h + l_pad l - l_size l)%Z) by (apply Z.mul_quot_le; lia).
    assert (B2 : (i * l_stride l <= h + l_pad l - l_size l)%Z) by nia.
    exists (Z.max 0 (Z.quot (l_pad l) 2 - i * l_stride l)). assert (0 <= i * l_stride l)%Z by nia. lia. }
  intros k i j K I J. destruct (ONE (l_height l) (l_out_h l) i I ms_oh0 ms_h0 SH) as (a & A1 & A2). destruct (ONE (l_width l) (l_out_w l) j J ms_ow0 ms_w0 SW) as (b & B1 & B2).
  exists (i * l_stride l - Z.quot (l_pad l) 2 + a)%Z, (j * l_stride l - Z.quot (l_pad l) 2 + b)%Z. split.
  - split; [exact A2|]. split; [exact B2|]. exists a, b. auto.
  - apply (Forall_at _ f0) with (i := pixel (l_height l) (l_width l) k (i * l_stride l - Z.quot (l_pad l) 2 + a) (j * l_stride l - Z.quot (l_pad l) 2 + b)) in F; [exact F|].
    pose proof (flat3 _ _ _ _ _ _ K A2 B2). unfold pixel. lia.
Qed.

(** ** Geometries accepted by construction that do not pool *)
Definition pool_args (h w c size stride pad : Z) : largs :=
  mkLargs AVGPOOL 0 0 0 0 0 h w c size stride pad f0 f0 f0 f0 f0 f0 false false false false false false.
Lemma C47_refuted_stride_lemma : exists a, (forall l, avgpool_init a = Ok l -> avg_shape l) /\
  match upsample_init a with
  | Ok l => len (l_output l) = 4%Z /\ l_n_inputs l = 4%Z /\ upsample_forward l [f1; f1; f1; f1] = Ok l /\ map (fun v => feq v f0) (l_output l) = [true; true; true; true]
  | _ => False
  end.
Proof.
  exists (pool_args 2 2 1 1 (-1) 0). split.
  - intros l. apply C47_init_lemma; cbn; lia.
  - vm_compute. repeat split; reflexivity.
Qed.
Lemma C47_refuted_window_lemma lm : exists a l, maxpool_init a = Ok l /\ max_shape l /\
  forall input, len input = l_n_inputs l -> maxpool_forward (f64_arith lm) l input = Exit.
Proof.
  set (a := pool_args 1 1 1 1 1 4).
  assert (O : match maxpool_init a with Ok l => (l_height l, l_width l, l_channels l, l_out_h l, l_out_w l, l_size l, l_stride l, l_pad l) | _ => (0, 0, 0, 0, 0, 0, 0, 0)%Z end
     = (1, 1, 1, 5, 5, 1, 1, 4)%Z) by (vm_compute; reflexivity).
  pose proof (C47_init_lemma a) as I. change (la_height a) with 1%Z in I. change (la_width a) with 1%Z in I. change (la_channels a) with 1%Z in I.
  exists a. clearbody a. destruct (maxpool_init a) as [l| | |]; try discriminate O.
  assert (S : max_shape l) by (apply I; [lia|lia|lia|reflexivity]).
  exists l. split; [reflexivity|]. split; [exact S|]. intros input L. apply (C47_max_lemma lm l input S L). clear I S L.
  injection O as G1 G2 G3 G4 G5 G6 G7 G8. exists 0%Z, 0%Z, 0%Z. rewrite G3, G4, G5. split; [lia|]. split; [lia|]. split; [lia|].
  intros y x (H1 & _ & a' & b' & A & _ & Y & _). rewrite G1 in H1. rewrite G6 in A. rewrite G7, G8 in Y. change (Z.quot 4 2) with 2%Z in Y. lia.
Qed.
Lemma C47_refuted_zero_lemma : exists a, maxpool_init a = UB DivByZero.
Proof. exists (pool_args 2 2 1 1 0 0). reflexivity. Qed.
