(** * LSTM layers (C75). *)
From Coq Require Import ZArith Bool List Lia.
From Flocq Require Import Core BinarySingleNaN.
From Verif Require Import Outcome F64 Rng RngFacts Sam SamFacts Pop PopSpec Arr ArrFacts Blas BlasFacts Clock Comp Dgp DgpFacts Act Image Layer LayerFacts MutFacts UpdFacts PropMut Net NetFacts NetLayer PropFlag File FileFacts Recur RecFacts PropRecur.
Import ListNotations.
Open Scope Z_scope.

(** Layers from the input have [ni] inputs, layers from the last output [nw]. *)
Record mparts (ni nw no mx op : Z) (m : lstm f64) : Prop := {
  mp_uf : part ni no mx op LINEAR (m_uf m); mp_ui : part ni no mx op LINEAR (m_ui m);
  mp_ug : part ni no mx op LINEAR (m_ug m); mp_uo : part ni no mx op LINEAR (m_uo m);
  mp_wf : part nw no mx op LINEAR (m_wf m); mp_wi : part nw no mx op LINEAR (m_wi m);
  mp_wg : part nw no mx op LINEAR (m_wg m); mp_wo : part nw no mx op LINEAR (m_wo m)
}.
Definition marr (m : lstm f64) : list (list f64) :=
  [m_cell m; m_f m; m_i m; m_g m; m_o m; m_c m; m_h m; m_temp m; m_temp2 m; m_temp3 m; m_dc m].
(** All but the eight layers. *)
Definition mrest (m : lstm f64) := (m_l m, m_rec m, m_prev_state m, m_prev_cell m, marr m).

Record msound (m : lstm f64) : Prop := {
  ms_type : l_type (m_l m) = LSTM;
  ms_parts : mparts (l_n_inputs (m_l m)) (l_n_outputs (m_l m)) (l_n_outputs (m_l m)) (l_max_outputs (m_l m)) (l_options (m_l m)) m;
  ms_arrays : Forall (fun a => len a = l_n_outputs (m_l m)) (marr m);
  ms_state : len (l_state (m_l m)) = l_n_outputs (m_l m); ms_output : len (l_output (m_l m)) = l_n_outputs (m_l m);
  ms_delta : len (l_delta (m_l m)) = l_n_outputs (m_l m); ms_mu : len (l_mu (m_l m)) = 6;
  ms_fn : 0 <= l_function (m_l m) < NUM_ACTIVATIONS; ms_rec : 0 <= m_rec m < NUM_ACTIVATIONS;
  ms_room : l_max_outputs (m_l m) * l_max_outputs (m_l m) <= N_WEIGHTS_MAX;
  ms_prev : m_prev_state m = zeros f0 (l_n_outputs (m_l m)) /\ m_prev_cell m = zeros f0 (l_n_outputs (m_l m))
}.
Lemma ms_range m : msound m -> 1 <= l_n_inputs (m_l m) /\ 1 <= l_n_outputs (m_l m) <= l_max_outputs (m_l m) /\ l_max_outputs (m_l m) <= N_OUTPUTS_MAX.
Proof. intros S. pose proof (part_dims _ _ _ _ _ _ (mp_uf _ _ _ _ _ _ (ms_parts _ S))). repeat split; lia. Qed.

(** What a layer made or grown afresh holds. *)
Lemma lstm_arrays_ok l rf uf ui ug uo wf wi wg wo n : l_type l = LSTM -> l_n_outputs l = n -> len (l_mu l) = 6 -> 0 <= l_function l < NUM_ACTIVATIONS ->
  0 <= rf < NUM_ACTIVATIONS -> l_max_outputs l * l_max_outputs l <= N_WEIGHTS_MAX -> 0 <= n ->
  mparts (l_n_inputs l) n n (l_max_outputs l) (l_options l) (lstm_arrays n l rf uf ui ug uo wf wi wg wo) ->
  msound (lstm_arrays n l rf uf ui ug uo wf wi wg wo).
Proof.
  intros T N M F R RO NN P. assert (Z : len (zeros f0 n) = n) by (apply len_zeros; exact NN). subst n.
  constructor; try assumption; try (split; reflexivity). unfold marr. repeat (apply Forall_cons; [exact Z|]). apply Forall_nil.
Qed.
(** Changing the layers keeps the rest. *)
Lemma with_parts_ok m l uf ui ug uo wf wi wg wo : msound m -> l_type l = LSTM -> l_n_outputs l = l_n_outputs (m_l m) -> l_max_outputs l = l_max_outputs (m_l m) ->
  len (l_mu l) = 6 -> 0 <= l_function l < NUM_ACTIVATIONS -> (l_state l, l_output l, l_delta l) = (l_state (m_l m), l_output (m_l m), l_delta (m_l m)) ->
  mparts (l_n_inputs l) (l_n_outputs l) (l_n_outputs l) (l_max_outputs l) (l_options l) (with_parts m l uf ui ug uo wf wi wg wo) ->
  msound (with_parts m l uf ui ug uo wf wi wg wo).
Proof.
  intros S T N X M F E P. injection E as E1 E2 E3. destruct S. constructor; try assumption.
  - change (Forall (fun a => len a = l_n_outputs l) (marr m)). rewrite N. assumption.
  - change (len (l_state l) = l_n_outputs l). congruence.
  - change (len (l_output l) = l_n_outputs l). congruence.
  - change (len (l_delta l) = l_n_outputs l). congruence.
  - change (l_max_outputs l * l_max_outputs l <= N_WEIGHTS_MAX). rewrite X. assumption.
  - change (m_prev_state m = zeros f0 (l_n_outputs l) /\ m_prev_cell m = zeros f0 (l_n_outputs l)). rewrite N. assumption.
Qed.

Section Any.
Context (J : rng -> Prop) (lm : libm) (Zok : f64 -> Prop) (SR : src lm J Zok).
Notation rt := (rt J).

Lemma on_parts_ok k ni nw no ni' nw' no' mx op m :
  (forall l, part ni no mx op LINEAR l -> rt (k l) (part ni' no' mx op LINEAR)) -> (forall l, part nw no mx op LINEAR l -> rt (k l) (part nw' no' mx op LINEAR)) ->
  mparts ni nw no mx op m -> rt (on_parts k m) (fun m' => mparts ni' nw' no' mx op m' /\ exists uf ui ug uo wf wi wg wo, m' = with_parts m (m_l m) uf ui ug uo wf wi wg wo).
Proof.
  intros U W []. unfold on_parts.
  eapply rt_bind; [apply U; eassumption|]. intros uf ?. eapply rt_bind; [apply U; eassumption|]. intros ui ?. eapply rt_bind; [apply U; eassumption|]. intros ug ?. eapply rt_bind; [apply U; eassumption|]. intros uo ?.
  eapply rt_bind; [apply W; eassumption|]. intros wf ?. eapply rt_bind; [apply W; eassumption|]. intros wi ?. eapply rt_bind; [apply W; eassumption|]. intros wg ?. eapply rt_bind; [apply W; eassumption|]. intros wo ?.
  apply rt_ret. split; [constructor; assumption|]. exists uf, ui, ug, uo, wf, wi, wg, wo. reflexivity.
Qed.
Lemma on_parts_b_ok k ni nw no mx op m :
  (forall n l, part n no mx op LINEAR l -> rt (k l) (fun r => part n no mx op LINEAR (fst r))) ->
  mparts ni nw no mx op m -> rt (on_parts_b k m) (fun r => mparts ni nw no mx op (fst r) /\ exists uf ui ug uo wf wi wg wo, fst r = with_parts m (m_l m) uf ui ug uo wf wi wg wo).
Proof.
  intros U []. unfold on_parts_b.
  eapply rt_bind; [apply U; eassumption|]. intros (uf, b1) ?. eapply rt_bind; [apply U; eassumption|]. intros (ui, b2) ?. eapply rt_bind; [apply U; eassumption|]. intros (ug, b3) ?. eapply rt_bind; [apply U; eassumption|]. intros (uo, b4) ?.
  eapply rt_bind; [apply U; eassumption|]. intros (wf, b5) ?. eapply rt_bind; [apply U; eassumption|]. intros (wi, b6) ?. eapply rt_bind; [apply U; eassumption|]. intros (wg, b7) ?. eapply rt_bind; [apply U; eassumption|]. intros (wo, b8) ?.
  apply rt_ret. split; [constructor; assumption|]. exists uf, ui, ug, uo, wf, wi, wg, wo. reflexivity.
Qed.

Lemma lstm_init_ok a rf : rarg_ok a -> 0 <= rf < NUM_ACTIVATIONS -> rt (lstm_init lm a rf) (fun m => msound m /\
  (l_n_inputs (m_l m), l_n_outputs (m_l m), l_max_outputs (m_l m), l_options (m_l m), l_function (m_l m), m_rec m) = (la_n_inputs a, la_n_init a, la_n_max a, layer_args_opt a, la_function a, rf) /\
  m_h m = zeros f0 (la_n_init a) /\ m_c m = zeros f0 (la_n_init a)).
Proof.
  intros (A1 & A2 & A3 & A4 & A5 & A6 & A7) RF. unfold lstm_init. cbv zeta.
  assert (U : rt (layer_init lm (part_args a (la_n_inputs a) LINEAR)) (part (la_n_inputs a) (la_n_init a) (la_n_max a) (layer_args_opt a) LINEAR)) by (apply (part_init J lm Zok SR a (la_n_inputs a) LINEAR); try assumption; apply linear_range).
  assert (W : rt (layer_init lm (part_args a (la_n_init a) LINEAR)) (part (la_n_init a) (la_n_init a) (la_n_max a) (layer_args_opt a) LINEAR)) by (apply (part_init J lm Zok SR a (la_n_init a) LINEAR); try assumption; try apply linear_range; nia).
  do 4 (eapply rt_bind; [exact U|]; let x := fresh in let y := fresh in intros x y). do 4 (eapply rt_bind; [exact W|]; let x := fresh in let y := fresh in intros x y).
  eapply rt_bind_lift; [apply guard_out; change (1 <= la_n_init a <= N_OUTPUTS_MAX); lia|].
  eapply rt_bind; [apply (sam_init_len J lm Zok SR); apply mu_schemes|]. intros mu LM. apply rt_ret.
  assert (LMU : len mu = 6) by (unfold len; rewrite LM; reflexivity). split; [|split; [reflexivity|split; reflexivity]].
  apply lstm_arrays_ok; try reflexivity; try assumption; [lia|]. constructor; try apply part_eta; assumption.
Qed.
Lemma lstm_rand_ok m : msound m -> rt (lstm_rand lm m) (fun m' => msound m' /\ mrest m' = mrest m).
Proof.
  intros S. unfold lstm_rand. eapply rt_mono; [apply (on_parts_ok _ _ _ _ _ _ _ _ _ m (fun l P => part_rand J lm Zok SR _ _ _ _ _ _ P) (fun l P => part_rand J lm Zok SR _ _ _ _ _ _ P) (ms_parts _ S))|].
  intros m' (P & uf & ui & ug & uo & wf & wi & wg & wo & ->). split; [|reflexivity]. pose proof S as S'. destruct S'. apply with_parts_ok; try assumption; reflexivity.
Qed.
Lemma lstm_resize_ok fuel m p : (1 <= fuel)%nat -> msound m -> 1 <= l_n_outputs p -> l_max_outputs (m_l m) * l_n_outputs p <= N_WEIGHTS_MAX ->
  rt (lstm_resize lm fuel m p) (fun m' => msound m' /\ l_n_inputs (m_l m') = l_n_outputs p /\ l_n_outputs (m_l m') = l_n_outputs (m_l m) /\ (m_h m', m_c m') = (m_h m, m_c m)).
Proof.
  intros FU S P W. unfold lstm_resize. pose proof (ms_parts _ S) as [].
  assert (U : forall ni l, part ni (l_n_outputs (m_l m)) (l_max_outputs (m_l m)) (l_options (m_l m)) LINEAR l -> rt (layer_resize lm fuel l p) (part (l_n_outputs p) (l_n_outputs (m_l m)) (l_max_outputs (m_l m)) (l_options (m_l m)) LINEAR)).
  { intros ni l PL. apply (part_resize J lm Zok SR fuel _ _ _ _ _ _ p FU PL P W). }
  eapply rt_bind; [apply (U _ _ mp_uf0)|]. intros uf ?. eapply rt_bind; [apply (U _ _ mp_ui0)|]. intros ui ?. eapply rt_bind; [apply (U _ _ mp_ug0)|]. intros ug ?. eapply rt_bind; [apply (U _ _ mp_uo0)|]. intros uo ?.
  eapply rt_bind; [eapply U; eassumption|]. intros uf' ?. apply rt_ret. split; [|repeat split; reflexivity].
  pose proof S as S'. destruct S'. apply with_parts_ok; try assumption; try reflexivity. constructor; assumption.
Qed.
End Any.

(** ** Copies *)
(** The parameters of the eight layers and of the whole are the same. *)
Definition same_lstm (m m' : lstm f64) : Prop :=
  map content [m_uf m'; m_ui m'; m_ug m'; m_uo m'; m_wf m'; m_wi m'; m_wg m'; m_wo m'] = map content [m_uf m; m_ui m; m_ug m; m_uo m; m_wf m; m_wi m; m_wg m; m_wo m] /\
  dims (m_l m') = dims (m_l m) /\ l_function (m_l m') = l_function (m_l m) /\ m_rec m' = m_rec m.
Lemma lstm_copy_ok m : msound m -> exists m', lstm_copy m = Ok m' /\ msound m' /\ same_lstm m m' /\ (l_eta (m_l m'), l_mu (m_l m')) = (l_eta (m_l m), l_mu (m_l m)) /\
  m_h m' = zeros f0 (l_n_outputs (m_l m)) /\ m_c m' = zeros f0 (l_n_outputs (m_l m)) /\ l_output (m_l m') = zeros f0 (l_n_outputs (m_l m)).
Proof.
  intros S. destruct (ms_range m S) as (N1 & N2 & N3). unfold lstm_copy. rewrite (ms_type _ S), Z.eqb_refl. cbn [negb]. cbv zeta. pose proof (ms_parts _ S) as [].
  destruct (part_copy _ _ _ _ _ _ mp_uf0) as (uf & E1 & P1 & C1). destruct (part_copy _ _ _ _ _ _ mp_ui0) as (ui & E2 & P2 & C2).
  destruct (part_copy _ _ _ _ _ _ mp_ug0) as (ug & E3 & P3 & C3). destruct (part_copy _ _ _ _ _ _ mp_uo0) as (uo & E4 & P4 & C4).
  destruct (part_copy _ _ _ _ _ _ mp_wf0) as (wf & E5 & P5 & C5). destruct (part_copy _ _ _ _ _ _ mp_wi0) as (wi & E6 & P6 & C6).
  destruct (part_copy _ _ _ _ _ _ mp_wg0) as (wg & E7 & P7 & C7). destruct (part_copy _ _ _ _ _ _ mp_wo0) as (wo & E8 & P8 & C8).
  rewrite E1. cbn [obind]. rewrite E2. cbn [obind]. rewrite E3. cbn [obind]. rewrite E4. cbn [obind]. rewrite E5. cbn [obind]. rewrite E6. cbn [obind]. rewrite E7. cbn [obind]. rewrite E8. cbn [obind].
  rewrite guard_out by (change (1 <= l_n_outputs (m_l m) <= N_OUTPUTS_MAX); lia). cbn [obind].
  rewrite (copy_all 6 (l_mu (m_l m))) by (try apply (ms_mu _ S); try apply len_zeros; lia). cbn [obind].
  eexists. split; [reflexivity|]. split; [|split; [|split; [reflexivity|split; [reflexivity|split; reflexivity]]]].
  - pose proof S as S'. destruct S'. apply lstm_arrays_ok; try reflexivity; try assumption; [lia|]. constructor; assumption.
  - split; [cbn [map lstm_arrays m_uf m_ui m_ug m_uo m_wf m_wi m_wg m_wo]; congruence|]. split; [unfold dims; cbn; rewrite (ms_type _ S); reflexivity|]. split; reflexivity.
Qed.

(** ** Forward *)
Section Pass.
Context (lm : libm).
Let A := f64_arith lm.
Definition cl (v : f64) : f64 := aclamp A v (a_Z A NEURON_MIN) (a_Z A NEURON_MAX).

Lemma activate_self_ok a n fn (f : f64 -> f64) : (forall v, neural_activate A fn v = Ok (f v)) -> len a = n ->
  exists a', activate_self A a n fn = Ok a' /\ len a' = n /\ (forall i, 0 <= i < n -> at_ f0 a' i = f (cl (at_ f0 a i))).
Proof.
  intros F L. unfold activate_self.
  destruct (ofor_ind (fun i (b : list f64) => len b = n /\ (forall k, 0 <= k < i -> at_ f0 b k = f (cl (at_ f0 a k))) /\ (forall k, i <= k -> at_ f0 b k = at_ f0 a k))
    (fun i a => (x <- rd a i ;; let c := aclamp A x (a_Z A NEURON_MIN) (a_Z A NEURON_MAX) in a <- wr a i c ;; y <- neural_activate A fn c ;; wr a i y)%out) n a) as (a' & E & H1 & H2 & _).
  - unfold len in L. lia.
  - split; [exact L|]. split; [intros; lia|auto].
  - intros i b I (B1 & B2 & B3). rewrite (rd_ok f0) by lia. cbn [obind]. cbv zeta.
    destruct (wr_ok b i (cl (at_ f0 b i)) ltac:(lia)) as (b1 & W & W1 & W2 & W3 & _). fold A. fold (cl (at_ f0 b i)). rewrite W. cbn [obind]. rewrite F. cbn [obind].
    destruct (wr_ok b1 i (f (cl (at_ f0 b i))) ltac:(lia)) as (b2 & V & V1 & V2 & V3 & _). rewrite V. exists b2. split; [reflexivity|]. split; [lia|]. split.
    + intros k K. destruct (Z.eq_dec k i) as [->|NE]; [rewrite V2, (B3 i) by lia; reflexivity|]. rewrite V3, W3 by lia. apply B2. lia.
    + intros k K. rewrite V3, W3 by lia. apply B3. lia.
  - exists a'. auto.
Qed.
Lemma mul_one (x y : list f64) n : 0 <= n -> len x = n -> len y = n -> exists y', blas_mul (a_num A) n x 1 y 1 = Ok y' /\ len y' = n /\
  (forall i, 0 <= i < n -> at_ f0 y' i = fmul (at_ f0 y i) (at_ f0 x i)).
Proof.
  intros N LX LY. destruct (blas_mul_ok (a_num A) n x 1 y 1) as (y' & E & L & H & _); [lia|lia|apply stride1; lia|apply stride1; lia|].
  exists y'. split; [exact E|]. split; [lia|]. intros i I. specialize (H i I). rewrite Z.mul_1_r, Z.add_0_l in H. exact H.
Qed.
Lemma gate_ok n w u dst : 0 <= n -> len w = n -> len u = n -> len dst = n -> exists d, gate A n w u dst = Ok d /\ len d = n /\ (forall i, 0 <= i < n -> at_ f0 d i = fadd (at_ f0 w i) (at_ f0 u i)).
Proof. intros N W U D. unfold gate. rewrite (copy_all n w) by lia. cbn [obind]. apply axpy_one; assumption. Qed.

(** What a gate adds up. *)
Definition gate_sum (w u : layer f64) (h x : list f64) (i : Z) : f64 := fadd (pre A w h i) (pre A u x i).

Lemma lstm_forward_ok m x (fn rf : f64 -> f64) : msound m -> l_n_inputs (m_l m) <= len x ->
  (forall v, neural_activate A (l_function (m_l m)) v = Ok (fn v)) -> (forall v, neural_activate A (m_rec m) v = Ok (rf v)) ->
  exists m', lstm_forward A m x = Ok m' /\ msound m' /\ same_lstm m m' /\ m_prev_state m' = m_prev_state m /\ m_prev_cell m' = m_prev_cell m /\ m_dc m' = m_dc m /\ l_delta (m_l m') = l_delta (m_l m) /\
    (l_eta (m_l m'), l_mu (m_l m')) = (l_eta (m_l m), l_mu (m_l m)) /\
    l_output (m_l m') = m_h m' /\ m_cell m' = m_c m' /\
    (forall i, 0 <= i < l_n_outputs (m_l m) ->
       at_ f0 (m_f m') i = rf (cl (gate_sum (m_wf m) (m_uf m) (m_h m) x i)) /\
       at_ f0 (m_i m') i = rf (cl (gate_sum (m_wi m) (m_ui m) (m_h m) x i)) /\
       at_ f0 (m_g m') i = fn (cl (gate_sum (m_wg m) (m_ug m) (m_h m) x i)) /\
       at_ f0 (m_o m') i = rf (cl (gate_sum (m_wo m) (m_uo m) (m_h m) x i)) /\
       at_ f0 (m_c m') i = fadd (fmul (at_ f0 (m_c m) i) (at_ f0 (m_f m') i)) (fmul (at_ f0 (m_i m') i) (at_ f0 (m_g m') i)) /\
       at_ f0 (m_h m') i = fmul (fn (cl (at_ f0 (m_c m') i))) (at_ f0 (m_o m') i)).
Proof.
  intros S LX F R. destruct (ms_range m S) as (N1 & N2 & N3). unfold lstm_forward. cbv zeta. set (n := l_n_outputs (m_l m)) in *.
  pose proof (ms_arrays _ S) as AR. fold n in AR. unfold marr in AR. rewrite !Forall_cons_iff in AR. destruct AR as (Lcell & Lf & Li & Lg & Lo & Lc & Lh & Lt & Lt2 & Lt3 & Ldc & _).
  pose proof (ms_parts _ S) as []. fold n in mp_uf0, mp_ui0, mp_ug0, mp_uo0, mp_wf0, mp_wi0, mp_wg0, mp_wo0.
  assert (LH : n <= len (m_h m)) by lia.
  destruct (part_forward lm _ _ _ _ _ _ x (fun v => v) mp_uf0 LX (linear_id A)) as (uf & E1 & P1 & _ & C1 & H1).
  destruct (part_forward lm _ _ _ _ _ _ x (fun v => v) mp_ui0 LX (linear_id A)) as (ui & E2 & P2 & _ & C2 & H2).
  destruct (part_forward lm _ _ _ _ _ _ x (fun v => v) mp_ug0 LX (linear_id A)) as (ug & E3 & P3 & _ & C3 & H3).
  destruct (part_forward lm _ _ _ _ _ _ x (fun v => v) mp_uo0 LX (linear_id A)) as (uo & E4 & P4 & _ & C4 & H4).
  destruct (part_forward lm _ _ _ _ _ _ (m_h m) (fun v => v) mp_wf0 LH (linear_id A)) as (wf & E5 & P5 & _ & C5 & H5).
  destruct (part_forward lm _ _ _ _ _ _ (m_h m) (fun v => v) mp_wi0 LH (linear_id A)) as (wi & E6 & P6 & _ & C6 & H6).
  destruct (part_forward lm _ _ _ _ _ _ (m_h m) (fun v => v) mp_wg0 LH (linear_id A)) as (wg & E7 & P7 & _ & C7 & H7).
  destruct (part_forward lm _ _ _ _ _ _ (m_h m) (fun v => v) mp_wo0 LH (linear_id A)) as (wo & E8 & P8 & _ & C8 & H8).
  fold A in E1, E2, E3, E4, E5, E6, E7, E8.
  rewrite E1. cbn [obind]. rewrite E2. cbn [obind]. rewrite E3. cbn [obind]. rewrite E4. cbn [obind]. rewrite E5. cbn [obind]. rewrite E6. cbn [obind]. rewrite E7. cbn [obind]. rewrite E8. cbn [obind].
  assert (LO : forall ni l, part ni n (l_max_outputs (m_l m)) (l_options (m_l m)) LINEAR l -> len (l_output l) = n) by (intros ni l PL; apply (part_dims _ _ _ _ _ _ PL)).
  assert (NN : 0 <= n) by lia.
  destruct (gate_ok n (l_output wf) (l_output uf) (m_f m) NN (LO _ _ P5) (LO _ _ P1) Lf) as (f & -> & Bf & Gf). cbn [obind].
  destruct (gate_ok n (l_output wi) (l_output ui) (m_i m) NN (LO _ _ P6) (LO _ _ P2) Li) as (i & -> & Bi & Gi). cbn [obind].
  destruct (gate_ok n (l_output wg) (l_output ug) (m_g m) NN (LO _ _ P7) (LO _ _ P3) Lg) as (g & -> & Bg & Gg). cbn [obind].
  destruct (gate_ok n (l_output wo) (l_output uo) (m_o m) NN (LO _ _ P8) (LO _ _ P4) Lo) as (o & -> & Bo & Go). cbn [obind].
  destruct (activate_self_ok f n (m_rec m) rf R Bf) as (f' & -> & Bf' & Hf). cbn [obind].
  destruct (activate_self_ok i n (m_rec m) rf R Bi) as (i' & -> & Bi' & Hi). cbn [obind].
  destruct (activate_self_ok g n (l_function (m_l m)) fn F Bg) as (g' & -> & Bg' & Hg). cbn [obind].
  destruct (activate_self_ok o n (m_rec m) rf R Bo) as (o' & -> & Bo' & Ho). cbn [obind].
  rewrite (copy_all n i' (m_temp m)) by assumption. cbn [obind].
  destruct (mul_one g' i' n NN Bg' Bi') as (t & -> & Bt & Ht). cbn [obind].
  destruct (mul_one f' (m_c m) n NN Bf' Lc) as (c1 & -> & Bc1 & Hc1). cbn [obind].
  destruct (axpy_one lm t c1 n NN Bt Bc1) as (c & Ec & Bc & Hc). fold A in Ec. rewrite Ec. cbn [obind].
  rewrite (copy_all n c (m_h m)) by assumption. cbn [obind].
  destruct (activate_self_ok c n (l_function (m_l m)) fn F Bc) as (h1 & -> & Bh1 & Hh1). cbn [obind].
  destruct (mul_one o' h1 n NN Bo' Bh1) as (h & -> & Bh & Hh). cbn [obind].
  rewrite (copy_all n c (m_cell m)) by assumption. cbn [obind].
  rewrite (copy_all n h (l_output (m_l m))) by (try assumption; apply (ms_output _ S)). cbn [obind].
  eexists. split; [reflexivity|]. cbn [m_f m_i m_g m_o m_c m_h m_l m_cell m_prev_state m_prev_cell m_dc].
  split; [|split; [|split; [reflexivity|split; [reflexivity|split; [reflexivity|split; [reflexivity|split; [reflexivity|split; [reflexivity|split; [reflexivity|]]]]]]]]].
  - destruct S. constructor; try assumption; [constructor; assumption|]. unfold marr. cbn [m_f m_i m_g m_o m_c m_h m_l m_cell m_temp m_temp2 m_temp3 m_dc].
    repeat (apply Forall_cons; [assumption|]). apply Forall_nil.
  - split; [cbn [map m_uf m_ui m_ug m_uo m_wf m_wi m_wg m_wo]; congruence|]. repeat split; reflexivity.
  - intros k K. unfold gate_sum.
    rewrite Hf, Gf, H5, H1 by exact K. rewrite Hi, Gi, H6, H2 by exact K. rewrite Hg, Gg, H7, H3 by exact K. rewrite Ho, Go, H8, H4 by exact K.
    split; [reflexivity|]. split; [reflexivity|]. split; [reflexivity|]. split; [reflexivity|]. split.
    + rewrite Hc, Hc1, Ht by exact K. rewrite Hf, Gf, H5, H1, Hi, Gi, H6, H2, Hg, Gg, H7, H3 by exact K. reflexivity.
    + rewrite Hh, Hh1 by exact K. rewrite Ho, Go, H8, H4 by exact K. reflexivity.
Qed.
End Pass.

(** ** Backward *)
Section Back.
Context (lm : libm).
Let A := f64_arith lm.
Notation cl := (cl lm).

Definition odel_ok (n : Z) (od : option (list f64)) : Prop := forall d, od = Some d -> n <= len d.
Lemma gate_back_ok ni n mx op temp w u prev x od : 0 <= n -> part n n mx op LINEAR w -> part ni n mx op LINEAR u -> len temp = n -> len prev = n -> ni <= len x -> odel_ok ni od ->
  exists w' u' od', gate_back A n temp w u prev x od = Ok (w', u', od') /\ part n n mx op LINEAR w' /\ part ni n mx op LINEAR u' /\ odel_ok ni od' /\
    (match od with Some d => exists d', od' = Some d' /\ len d' = len d | None => od' = None end) /\
    content w' = content w /\ content u' = content u /\ learned prev w w' /\ learned x u u' /\
    (forall i, 0 <= i < n -> at_ f0 (l_delta w') i = at_ f0 temp i /\ at_ f0 (l_delta u') i = at_ f0 temp i).
Proof.
  intros N PW PU LT LP LX LD. unfold gate_back.
  destruct (part_dims _ _ _ _ _ _ PW) as (_ & _ & _ & _ & _ & DW & _). destruct (part_dims _ _ _ _ _ _ PU) as (_ & _ & _ & _ & _ & DU & _).
  rewrite (copy_all n temp (l_delta w)) by assumption. cbn [obind].
  destruct (part_learn lm _ _ _ _ _ (set_delta temp w) prev None (fun _ => f1) (part_delta temp _ _ _ _ _ _ PW LT)) as (w' & od1 & E1 & P1 & _ & C1 & _ & U1 & D1 & ->); [lia|discriminate|reflexivity|].
  fold A in E1. rewrite E1. cbn [obind fst]. rewrite (copy_all n temp (l_delta u)) by assumption. cbn [obind].
  destruct (part_learn lm _ _ _ _ _ (set_delta temp u) x od (fun _ => f1) (part_delta temp _ _ _ _ _ _ PU LT) LX LD) as (u' & od2 & E2 & P2 & _ & C2 & _ & U2 & D2 & OD); [reflexivity|].
  fold A in E2. rewrite E2. cbn [obind fst snd]. exists w', u', od2. split; [reflexivity|]. split; [exact P1|]. split; [exact P2|].
  assert (X : odel_ok ni od2 /\ match od with Some d => exists d', od2 = Some d' /\ len d' = len d | None => od2 = None end).
  { destruct od as [d|].
    - destruct OD as (d' & -> & L & _). split; [|eauto]. intros d'' H. injection H as <-. rewrite L. apply LD. reflexivity.
    - split; [|exact OD]. rewrite OD. discriminate. }
  destruct X as (X1 & X2). split; [exact X1|]. split; [exact X2|]. split; [exact C1|]. split; [exact C2|]. split; [exact U1|]. split; [exact U2|].
  intros i I. rewrite D1, D2 by exact I. rewrite !fmul_1_r. split; reflexivity.
Qed.
Lemma clear_part ni n mx op l : 0 <= n -> part ni n mx op LINEAR l -> exists d, clear (a_Z A 0) n (l_delta l) = Ok d /\ part ni n mx op LINEAR (set_delta d l).
Proof.
  intros N P. destruct (part_dims _ _ _ _ _ _ P) as (_ & _ & _ & _ & _ & D & _). destruct (clear_ok (a_Z A 0) n (l_delta l) ltac:(lia)) as (d & E & L & _).
  exists d. split; [exact E|]. apply part_delta; [exact P|lia].
Qed.
Lemma grad_ok st d n fn (g : f64 -> f64) : (forall v, neural_gradient A fn v = Ok (g v)) -> 0 <= n -> len st = n -> len d = n ->
  exists d', neural_gradient_array A st d n fn = Ok d' /\ len d' = n /\ (forall i, 0 <= i < n -> at_ f0 d' i = fmul (at_ f0 d i) (g (at_ f0 st i))).
Proof. intros G N LS LD. destruct (gradient_ok A st d n fn g G ltac:(lia) ltac:(lia)) as (d' & E & L & H & _). exists d'. split; [exact E|]. split; [lia|]. exact H. Qed.

(** The error reaching the cell, as the code computes it: the derivatives are taken at the values of the
    functions, not at their arguments. *)
Definition cell_error (m : lstm f64) (fn gfn : f64 -> f64) (i : Z) : f64 :=
  fadd (fmul (fmul (at_ f0 (l_delta (m_l m)) i) (at_ f0 (m_o m) i)) (gfn (fn (cl (at_ f0 (m_c m) i))))) (at_ f0 (m_dc m) i).

Lemma lstm_backward_ok m x od (fn rf gfn grf : f64 -> f64) : msound m -> l_n_inputs (m_l m) <= len x -> odel_ok (l_n_inputs (m_l m)) od ->
  (forall v, neural_activate A (l_function (m_l m)) v = Ok (fn v)) -> (forall v, neural_gradient A (l_function (m_l m)) v = Ok (gfn v)) -> (forall v, neural_gradient A (m_rec m) v = Ok (grf v)) ->
  exists m' od', lstm_backward A m x od = Ok (m', od') /\ msound m' /\ same_lstm m m' /\ m_l m' = m_l m /\ m_h m' = m_h m /\ m_c m' = m_c m /\
    (match od with Some d => exists d', od' = Some d' /\ len d' = len d | None => od' = None end) /\
    Forall (fun p => learned x (fst p) (snd p)) [(m_uf m, m_uf m'); (m_ui m, m_ui m'); (m_ug m, m_ug m'); (m_uo m, m_uo m')] /\
    Forall (fun p => learned (zeros f0 (l_n_outputs (m_l m))) (fst p) (snd p)) [(m_wf m, m_wf m'); (m_wi m, m_wi m'); (m_wg m, m_wg m'); (m_wo m, m_wo m')] /\
    (forall i, 0 <= i < l_n_outputs (m_l m) ->
       (at_ f0 (l_delta (m_uo m')) i = fmul (fmul (fn (cl (at_ f0 (m_c m) i))) (at_ f0 (l_delta (m_l m)) i)) (grf (at_ f0 (m_o m) i)) /\
        at_ f0 (l_delta (m_ug m')) i = fmul (fmul (cell_error m fn gfn i) (at_ f0 (m_i m) i)) (gfn (at_ f0 (m_g m) i)) /\
        at_ f0 (l_delta (m_ui m')) i = fmul (fmul (cell_error m fn gfn i) (at_ f0 (m_g m) i)) (grf (at_ f0 (m_i m) i)) /\
        at_ f0 (l_delta (m_uf m')) i = fmul (fmul (cell_error m fn gfn i) f0) (grf (at_ f0 (m_f m) i))) /\
       (at_ f0 (l_delta (m_wo m')) i = at_ f0 (l_delta (m_uo m')) i /\ at_ f0 (l_delta (m_wg m')) i = at_ f0 (l_delta (m_ug m')) i /\
        at_ f0 (l_delta (m_wi m')) i = at_ f0 (l_delta (m_ui m')) i /\ at_ f0 (l_delta (m_wf m')) i = at_ f0 (l_delta (m_uf m')) i) /\
       at_ f0 (m_dc m') i = fmul (cell_error m fn gfn i) (at_ f0 (m_f m) i)).
Proof.
  intros S LX LD F G R. destruct (ms_range m S) as (N1 & N2 & N3). unfold lstm_backward. cbv zeta. set (n := l_n_outputs (m_l m)) in *.
  pose proof (ms_arrays _ S) as AR. fold n in AR. unfold marr in AR. rewrite !Forall_cons_iff in AR. destruct AR as (Lcell & Lf & Li & Lg & Lo & Lc & Lh & Lt & Lt2 & Lt3 & Ldc & _).
  pose proof (ms_parts _ S) as []. fold n in mp_uf0, mp_ui0, mp_ug0, mp_uo0, mp_wf0, mp_wi0, mp_wg0, mp_wo0.
  assert (NN : 0 <= n) by lia. destruct (ms_prev _ S) as (PS & PC). fold n in PS, PC. pose proof (ms_delta _ S) as LDL. fold n in LDL.
  assert (LP : len (m_prev_state m) = n) by (rewrite PS; apply len_zeros; exact NN). assert (LPC : len (m_prev_cell m) = n) by (rewrite PC; apply len_zeros; exact NN).
  destruct (clear_part _ _ _ _ _ NN mp_wf0) as (dwf & -> & Pwf). cbn [obind]. destruct (clear_part _ _ _ _ _ NN mp_wi0) as (dwi & -> & Pwi). cbn [obind].
  destruct (clear_part _ _ _ _ _ NN mp_wg0) as (dwg & -> & Pwg). cbn [obind]. destruct (clear_part _ _ _ _ _ NN mp_wo0) as (dwo & -> & Pwo). cbn [obind].
  destruct (clear_part _ _ _ _ _ NN mp_uf0) as (duf & -> & Puf). cbn [obind]. destruct (clear_part _ _ _ _ _ NN mp_ui0) as (dui & -> & Pui). cbn [obind].
  destruct (clear_part _ _ _ _ _ NN mp_ug0) as (dug & -> & Pug). cbn [obind]. destruct (clear_part _ _ _ _ _ NN mp_uo0) as (duo & -> & Puo). cbn [obind].
  rewrite (copy_all n (l_delta (m_l m)) (m_temp3 m)) by assumption. cbn [obind]. rewrite (copy_all n (m_c m) (m_temp m)) by assumption. cbn [obind].
  destruct (activate_self_ok lm (m_c m) n _ fn F Lc) as (tc & Etc & Btc & Htc). fold A in Etc. rewrite Etc. cbn [obind].
  rewrite (copy_all n (l_delta (m_l m)) (m_temp2 m)) by assumption. cbn [obind].
  destruct (mul_one lm (m_o m) (l_delta (m_l m)) n NN Lo LDL) as (s1 & Es1 & Bs1 & Hs1). fold A in Es1. rewrite Es1. cbn [obind].
  destruct (grad_ok tc s1 n _ gfn G NN Btc Bs1) as (s2 & -> & Bs2 & Hs2). cbn [obind].
  destruct (axpy_one lm (m_dc m) s2 n NN Ldc Bs2) as (t2 & Et2 & Bt2 & Ht2). fold A in Et2. rewrite Et2. cbn [obind].
  rewrite (copy_all n (m_c m) tc) by assumption. cbn [obind]. rewrite Etc. cbn [obind].
  destruct (mul_one lm (l_delta (m_l m)) tc n NN LDL Btc) as (o1 & Eo1 & Bo1 & Ho1). fold A in Eo1. rewrite Eo1. cbn [obind].
  destruct (grad_ok (m_o m) o1 n _ grf R NN Lo Bo1) as (o2 & -> & Bo2 & Ho2). cbn [obind].
  destruct (gate_back_ok _ _ _ _ o2 _ _ (m_prev_state m) x od NN Pwo Puo Bo2 LP LX LD) as (wo & uo & od1 & -> & Qwo & Quo & LD1 & S1 & Cwo & Cuo & Lwo & Luo & Do). cbn [obind fst snd].
  rewrite (copy_all n t2 o2) by assumption. cbn [obind].
  destruct (mul_one lm (m_i m) t2 n NN Li Bt2) as (g1 & Eg1 & Bg1 & Hg1). fold A in Eg1. rewrite Eg1. cbn [obind].
  destruct (grad_ok (m_g m) g1 n _ gfn G NN Lg Bg1) as (g2 & -> & Bg2 & Hg2). cbn [obind].
  destruct (gate_back_ok _ _ _ _ g2 _ _ (m_prev_state m) x od1 NN Pwg Pug Bg2 LP LX LD1) as (wg & ug & od2 & -> & Qwg & Qug & LD2 & S2 & Cwg & Cug & Lwg & Lug & Dg). cbn [obind fst snd].
  rewrite (copy_all n t2 g2) by assumption. cbn [obind].
  destruct (mul_one lm (m_g m) t2 n NN Lg Bt2) as (i1 & Ei1 & Bi1 & Hi1). fold A in Ei1. rewrite Ei1. cbn [obind].
  destruct (grad_ok (m_i m) i1 n _ grf R NN Li Bi1) as (i2 & -> & Bi2 & Hi2). cbn [obind].
  destruct (gate_back_ok _ _ _ _ i2 _ _ (m_prev_state m) x od2 NN Pwi Pui Bi2 LP LX LD2) as (wi & ui & od3 & -> & Qwi & Qui & LD3 & S3 & Cwi & Cui & Lwi & Lui & Di). cbn [obind fst snd].
  rewrite (copy_all n t2 i2) by assumption. cbn [obind].
  destruct (mul_one lm (m_prev_cell m) t2 n NN LPC Bt2) as (f1' & Ef1 & Bf1 & Hf1). fold A in Ef1. rewrite Ef1. cbn [obind].
  destruct (grad_ok (m_f m) f1' n _ grf R NN Lf Bf1) as (f2' & -> & Bf2 & Hf2). cbn [obind].
  destruct (gate_back_ok _ _ _ _ f2' _ _ (m_prev_state m) x od3 NN Pwf Puf Bf2 LP LX LD3) as (wf & uf & od4 & -> & Qwf & Quf & LD4 & S4 & Cwf & Cuf & Lwf & Luf & Df). cbn [obind fst snd].
  rewrite (copy_all n t2 f2') by assumption. cbn [obind].
  destruct (mul_one lm (m_f m) t2 n NN Lf Bt2) as (d1 & Ed1 & Bd1 & Hd1). fold A in Ed1. rewrite Ed1. cbn [obind].
  rewrite (copy_all n d1 (m_dc m)) by assumption. cbn [obind].
  eexists _, od4. split; [reflexivity|]. cbn [m_uf m_ui m_ug m_uo m_wf m_wi m_wg m_wo m_l m_h m_c m_dc].
  split; [|split; [|split; [reflexivity|split; [reflexivity|split; [reflexivity|split; [|split; [|split]]]]]]].
  - destruct S. constructor; try assumption; [constructor; assumption|]. unfold marr. cbn [m_f m_i m_g m_o m_c m_h m_l m_cell m_temp m_temp2 m_temp3 m_dc].
    repeat (apply Forall_cons; [assumption|]). apply Forall_nil.
  - split; [|repeat split; reflexivity]. cbn [map m_uf m_ui m_ug m_uo m_wf m_wi m_wg m_wo].
    rewrite Cuf, Cui, Cug, Cuo, Cwf, Cwi, Cwg, Cwo. reflexivity.
  - destruct od as [d|].
    + destruct S1 as (d1' & -> & E1). destruct S2 as (d2' & -> & E2). destruct S3 as (d3' & -> & E3). destruct S4 as (d4' & -> & E4). exists d4'. split; [reflexivity|congruence].
    + rewrite S1 in S2. rewrite S2 in S3. rewrite S3 in S4. exact S4.
  - repeat (apply Forall_cons; [cbn [fst snd]; assumption|]). apply Forall_nil.
  - rewrite PS in Lwf, Lwi, Lwg, Lwo. repeat (apply Forall_cons; [cbn [fst snd]; assumption|]). apply Forall_nil.
  - intros k K. destruct (Do k K) as (D1 & D2), (Dg k K) as (D3 & D4), (Di k K) as (D5 & D6), (Df k K) as (D7 & D8).
    assert (CE : at_ f0 t2 k = cell_error m fn gfn k) by (unfold cell_error; rewrite Ht2, Hs2, Hs1, Htc by exact K; reflexivity).
    split; [|split; [repeat split; congruence|]].
    + rewrite D2, D4, D6, D8. rewrite Ho2, Ho1, Htc, Hg2, Hg1, Hi2, Hi1, Hf2, Hf1, CE by exact K. rewrite PC, at_zeros by exact K. repeat split; reflexivity.
    + rewrite Hd1, CE by exact K. reflexivity.
Qed.

Lemma lstm_update_ok m : msound m -> exists m', lstm_update A m = Ok m' /\ msound m' /\ mrest m' = mrest m.
Proof.
  intros S. unfold lstm_update. destruct (has (m_l m) SGD_WEIGHTS && a_lt A (a_Z A 0) (l_eta (m_l m))); [|exists m; auto]. pose proof (ms_parts _ S) as [].
  destruct (part_update lm _ _ _ _ _ _ mp_wf0) as (wf & E1 & P1 & _). destruct (part_update lm _ _ _ _ _ _ mp_wi0) as (wi & E2 & P2 & _).
  destruct (part_update lm _ _ _ _ _ _ mp_wg0) as (wg & E3 & P3 & _). destruct (part_update lm _ _ _ _ _ _ mp_wo0) as (wo & E4 & P4 & _).
  destruct (part_update lm _ _ _ _ _ _ mp_uf0) as (uf & E5 & P5 & _). destruct (part_update lm _ _ _ _ _ _ mp_ui0) as (ui & E6 & P6 & _).
  destruct (part_update lm _ _ _ _ _ _ mp_ug0) as (ug & E7 & P7 & _). destruct (part_update lm _ _ _ _ _ _ mp_uo0) as (uo & E8 & P8 & _).
  fold A in E1, E2, E3, E4, E5, E6, E7, E8.
  rewrite E1. cbn [obind]. rewrite E2. cbn [obind]. rewrite E3. cbn [obind]. rewrite E4. cbn [obind]. rewrite E5. cbn [obind]. rewrite E6. cbn [obind]. rewrite E7. cbn [obind]. rewrite E8. cbn [obind].
  eexists. split; [reflexivity|]. split; [|reflexivity]. pose proof S as S'. destruct S'. apply with_parts_ok; try assumption; try reflexivity. constructor; assumption.
Qed.

(** ** What is never trained *)
(** Every element of [b] is that of [a], or not a number. *)
Definition unmoved (a b : list f64) : Prop := forall k, 0 <= k < len a -> feq (at_ f0 b k) (at_ f0 a k) = true \/ is_nan (at_ f0 b k) = true.
Lemma feq_or_nan (x : f64) : feq x x = true \/ is_nan x = true.
Proof. destruct (is_nan x) eqn:N; [auto|]. left. apply F64Facts.feq_X; [exact N|exact N|reflexivity]. Qed.
Lemma unmoved_refl a : unmoved a a.
Proof. intros k _. apply feq_or_nan. Qed.
Lemma learned_weights ni no mx op fn l l' x : part ni no mx op fn l -> learned x l l' -> (forall i j, 0 <= i < no -> 0 <= j < ni -> void (fmul (at_ f0 (l_delta l') i) (at_ f0 x j))) ->
  unmoved (l_weight_updates l) (l_weight_updates l').
Proof.
  intros P U V. pose proof (part_conn _ _ _ _ _ _ P) as (C & _ & G & _). destruct P. unfold learned in U. destruct (has l SGD_WEIGHTS); [|destruct U as (_ & ->); apply unmoved_refl].
  destruct U as (_ & U). intros k K. rewrite (cs_wu _ C), (cs_w _ C) in K. pose proof (gw_in _ G) as GI.
  assert (D : k = k / l_n_inputs l * l_n_inputs l + k mod l_n_inputs l) by (rewrite Z.mul_comm; apply Z.div_mod; lia).
  assert (M : 0 <= k mod l_n_inputs l < l_n_inputs l) by (apply Z.mod_pos_bound; lia).
  assert (Q : 0 <= k / l_n_inputs l < l_n_outputs l) by (split; [apply Z.div_pos; lia|apply Z.div_lt_upper_bound; lia]).
  rewrite D, U by assumption. apply add_void, V; lia.
Qed.
Lemma learned_biases ni no mx op fn l l' x : part ni no mx op fn l -> learned x l l' -> (forall i, 0 <= i < no -> void (at_ f0 (l_delta l') i)) ->
  unmoved (l_bias_updates l) (l_bias_updates l').
Proof.
  intros P U V. pose proof (part_conn _ _ _ _ _ _ P) as (C & _ & G & _). destruct P. unfold learned in U. destruct (has l SGD_WEIGHTS); [|destruct U as (-> & _); apply unmoved_refl].
  destruct U as (U & _). intros k K. rewrite (cs_bu _ C) in K. rewrite U by exact K. apply add_void, V. lia.
Qed.
Lemma void_f0 : void f0.
Proof. left. reflexivity. Qed.
Lemma C75_untrained_lemma m x od m' od' : msound m -> l_n_inputs (m_l m) <= len x -> odel_ok (l_n_inputs (m_l m)) od -> lstm_backward A m x od = Ok (m', od') ->
  Forall (fun p => unmoved (l_weight_updates (fst p)) (l_weight_updates (snd p))) [(m_wf m, m_wf m'); (m_wi m, m_wi m'); (m_wg m, m_wg m'); (m_wo m, m_wo m'); (m_uf m, m_uf m')] /\
  unmoved (l_bias_updates (m_wf m)) (l_bias_updates (m_wf m')) /\ unmoved (l_bias_updates (m_uf m)) (l_bias_updates (m_uf m')).
Proof.
  intros S LX LD E. destruct (act_defined A _ (ms_fn _ S)) as ((fn & F) & (gfn & G)). destruct (act_defined A _ (ms_rec _ S)) as (_ & (grf & R)).
  destruct (lstm_backward_ok m x od fn fn gfn grf S LX LD F G R) as (m0 & od0 & E0 & _ & _ & _ & _ & _ & _ & U & W & D). rewrite E in E0. apply Ok_inj in E0. injection E0 as <- <-.
  rewrite !Forall_cons_iff in U, W. destruct U as (Uf & _), W as (Wf & Wi & Wg & Wo & _). cbn [fst snd] in *. pose proof (ms_parts _ S) as [].
  assert (ZW : forall (d : f64) j, 0 <= j < l_n_outputs (m_l m) -> void (fmul d (at_ f0 (zeros f0 (l_n_outputs (m_l m))) j))) by (intros d j J; rewrite at_zeros by exact J; apply void_mul_r, void_f0).
  assert (VF : forall i, 0 <= i < l_n_outputs (m_l m) -> void (at_ f0 (l_delta (m_uf m')) i)).
  { intros i I. destruct (D i I) as ((_ & _ & _ & ->) & _). apply void_mul_l, void_mul_r, void_f0. }
  split; [|split].
  - repeat (apply Forall_cons; [cbn [fst snd]|]); try apply Forall_nil.
    + apply (learned_weights _ _ _ _ _ _ _ _ mp_wf0 Wf). intros; apply ZW; assumption.
    + apply (learned_weights _ _ _ _ _ _ _ _ mp_wi0 Wi). intros; apply ZW; assumption.
    + apply (learned_weights _ _ _ _ _ _ _ _ mp_wg0 Wg). intros; apply ZW; assumption.
    + apply (learned_weights _ _ _ _ _ _ _ _ mp_wo0 Wo). intros; apply ZW; assumption.
    + apply (learned_weights _ _ _ _ _ _ _ _ mp_uf0 Uf). intros; apply void_mul_l, VF; assumption.
  - apply (learned_biases _ _ _ _ _ _ _ _ mp_wf0 Wf). intros i I. destruct (D i I) as (_ & (_ & _ & _ & ->) & _). apply VF, I.
  - apply (learned_biases _ _ _ _ _ _ _ _ mp_uf0 Uf). exact VF.
Qed.
End Back.

(** ** Mutation *)
Section Mutate.
Context (J : rng -> Prop) (lm : libm) (Zok : f64 -> Prop) (SR : src lm J Zok) (bad : outcome unit -> Prop).
Context (fuel : nat).
Notation rxj := (rxj J bad).

Definition mkept (m m' : lstm f64) : Prop := msound m' /\ l_n_inputs (m_l m') = l_n_inputs (m_l m) /\ l_max_outputs (m_l m') = l_max_outputs (m_l m) /\
  l_options (m_l m') = l_options (m_l m) /\ (has (m_l m) EVOLVE_NEURONS = false -> l_n_outputs (m_l m') = l_n_outputs (m_l m) /\ m_h m' = m_h m /\ m_c m' = m_c m).
Lemma mkept_refl m : msound m -> mkept m m.
Proof. intros S. unfold mkept. auto 10. Qed.
Lemma mkept_trans a b c : mkept a b -> mkept b c -> mkept a c.
Proof.
  intros (A1 & A2 & A3 & A4 & A5) (B1 & B2 & B3 & B4 & B5). unfold mkept. split; [exact B1|]. do 3 (split; [congruence|]).
  intros H. destruct (A5 H) as (X1 & X2 & X3). destruct B5 as (Y1 & Y2 & Y3); [unfold has in *; rewrite A4; exact H|]. split; [congruence|]. split; congruence.
Qed.

Lemma m_mutate_eta_ok m : msound m -> rt J (m_mutate_eta lm m) (fun p => mkept m (fst p)).
Proof.
  intros S. unfold m_mutate_eta. eapply rt_bind_lift; [apply (rd_ok f0); rewrite (ms_mu _ S); lia|]. eapply rt_bind; [apply (mutate_eta_ok J lm Zok SR)|].
  intros (uf, b) (e & E & _). cbn [fst] in E. subst uf. pose proof S as S'. destruct S'. pose proof ms_parts0 as [].
  destruct b; apply rt_ret; cbn [fst]; (split; [|repeat split; reflexivity]); apply with_parts_ok; try assumption; try reflexivity; constructor; try assumption; apply part_eta; assumption.
Qed.
Lemma m_mutate_connectivity_ok m : msound m -> rt J (m_mutate_connectivity lm m) (fun p => mkept m (fst p)).
Proof.
  intros S. unfold m_mutate_connectivity. eapply rt_bind_lift; [apply (rd_ok f0); rewrite (ms_mu _ S); lia|]. eapply rt_bind_lift; [apply (rd_ok f0); rewrite (ms_mu _ S); lia|].
  eapply rt_bind; [apply (on_parts_b_ok J _ _ _ _ _ _ m (fun n l P => part_connectivity J lm Zok SR _ _ _ _ _ _ _ _ P) (ms_parts _ S))|].
  intros (p, b) (P & uf & ui & ug & uo & wf & wi & wg & wo & E). cbn [fst] in *. subst p. cbv zeta. apply rt_ret. cbn [fst].
  split; [|repeat split; reflexivity]. pose proof S as S'. destruct S', P. apply (with_parts_ok m); try assumption; try reflexivity. constructor; assumption.
Qed.
Lemma m_mutate_weights_ok m : msound m -> rt J (m_mutate_weights lm m) (fun p => mkept m (fst p)).
Proof.
  intros S. unfold m_mutate_weights. eapply rt_bind_lift; [apply (rd_ok f0); rewrite (ms_mu _ S); lia|].
  eapply rt_mono; [apply (on_parts_b_ok J) with (2 := ms_parts _ S)|].
  - intros n l P. eapply rt_mono; [apply (part_weights J lm Zok SR _ _ _ _ _ _ _ P)|]. intros r (X & _). exact X.
  - intros (p, b) (P & uf & ui & ug & uo & wf & wi & wg & wo & E). cbn [fst] in *. subst p.
    split; [|repeat split; reflexivity]. pose proof S as S'. destruct S'. apply (with_parts_ok m); try assumption; reflexivity.
Qed.
Lemma m_mutate_functions_ok m : msound m -> rt J (m_mutate_functions m) (fun p => mkept m (fst p)).
Proof.
  intros S. unfold m_mutate_functions. eapply rt_bind_lift; [apply (rd_ok f0); rewrite (ms_mu _ S); lia|]. eapply rt_bind; [apply (mutate_functions_ok J lm Zok SR)|].
  intros (l, b) (f & E & FR & _). cbn [fst] in E. subst l. eapply rt_bind; [apply (rt_uniform J lm Zok SR)|]. intros u _.
  eapply rt_bind with (P := fun q => 0 <= fst q < NUM_ACTIVATIONS).
  { destruct (flt u _); [|apply rt_ret; exact (ms_rec _ S)]. eapply rt_bind; [apply (rt_uniform_int J lm Zok SR); unfold NUM_ACTIVATIONS, int_max; lia|]. intros k K. apply rt_ret. exact K. }
  intros (rf, b2) RF. cbn [fst] in RF. cbv zeta. apply rt_ret. cbn [fst]. assert (0 <= f < NUM_ACTIVATIONS) by (pose proof (ms_fn _ S); destruct FR; lia).
  split; [|repeat split; reflexivity]. destruct S, ms_parts0. constructor; try assumption. constructor; assumption.
Qed.
Lemma m_mutate_neurons_ok m : (1 <= fuel)%nat -> casts_ok Zok bad -> bad OutOfFuel -> msound m -> has (m_l m) EVOLVE_NEURONS = true -> rxj (m_mutate_neurons lm fuel m) (fun p => mkept m (fst p)).
Proof.
  intros FU CA FO S EN. unfold m_mutate_neurons. destruct (ms_range m S) as (N1 & N2 & N3). pose proof (ms_room _ S) as RR. pose proof (ms_parts _ S) as PP.
  pose proof (mp_uf _ _ _ _ _ _ PP) as PU. destruct (part_conn _ _ _ _ _ _ PU) as (_ & _ & G & _). pose proof (part_dims _ _ _ _ _ _ PU) as (_ & _ & _ & WI & _).
  eapply rxj_bind; [apply rxj_rt; eapply rt_lift with (Q := fun _ => True); [apply (rd_ok f0); rewrite (ms_mu _ S); lia|exact Logic.I]|]. intros mu _.
  eapply rxj_bind; [apply (mutate_count_ok J lm Zok SR bad); try assumption; [apply G|rewrite (pt_out _ _ _ _ _ _ PU); unfold N_OUTPUTS_MAX in N3; lia|rewrite (pt_max _ _ _ _ _ _ PU); lia]|].
  intros n RN. rewrite (pt_out _ _ _ _ _ _ PU), (pt_max _ _ _ _ _ _ PU) in RN. destruct (Z.eqb_spec n 0) as [->|NZ]; [apply rxj_ret, mkept_refl, S|]. destruct RN as [RN|RN]; [contradiction|].
  apply rxj_rt.
  eapply rt_bind; [apply (on_parts_ok J _ _ _ _ _ _ _ _ _ m (fun l P => part_add J lm Zok SR n _ _ _ _ _ _ P RN) (fun l P => part_add J lm Zok SR n _ _ _ _ _ _ P RN) PP)|].
  intros m1 (P1 & _). cbv zeta. destruct P1. pose proof (pt_out _ _ _ _ _ _ mp_uf0) as NU.
  assert (W : forall l, part (l_n_outputs (m_l m)) (l_n_outputs (m_l m) + n) (l_max_outputs (m_l m)) (l_options (m_l m)) LINEAR l ->
     rt J (layer_resize lm fuel l (m_uf m1)) (part (l_n_outputs (m_l m) + n) (l_n_outputs (m_l m) + n) (l_max_outputs (m_l m)) (l_options (m_l m)) LINEAR)).
  { intros l P. rewrite <- NU at 1. apply (part_resize J lm Zok SR fuel _ _ _ _ _ _ _ FU P); [lia|rewrite NU; nia]. }
  eapply rt_bind; [apply W; assumption|]. intros wf ?. eapply rt_bind; [apply W; assumption|]. intros wi ?. eapply rt_bind; [apply W; assumption|]. intros wg ?. eapply rt_bind; [apply W; assumption|]. intros wo ?.
  rewrite NU. eapply rt_bind_lift; [apply guard_out; change (1 <= l_n_outputs (m_l m) + n <= N_OUTPUTS_MAX); lia|]. apply rt_ret. cbn [fst].
  split; [|repeat split; try reflexivity; congruence]. pose proof S as S'. destruct S'. apply lstm_arrays_ok; try assumption; try reflexivity; [lia|]. constructor; assumption.
Qed.
Lemma lstm_mutate_ok m : (1 <= fuel)%nat -> casts_ok Zok bad -> bad OutOfFuel -> msound m -> rxj (lstm_mutate lm fuel m) (fun p => mkept m (fst p)).
Proof.
  intros FU CA FO S. unfold lstm_mutate. cbv zeta.
  eapply rxj_bind; [apply rxj_rt, (sam_adapt_len J lm Zok SR); [apply mu_schemes|]|].
  { pose proof (ms_mu _ S) as L. unfold len in L. unfold layer_mu_type. cbn [length]. lia. }
  intros mu LM. set (m0 := with_parts _ _ _ _ _ _ _ _ _ _).
  assert (K0 : mkept m m0).
  { split; [|repeat split; reflexivity]. pose proof S as S'. destruct S', ms_parts0. apply with_parts_ok; try assumption; try reflexivity; [|constructor; assumption].
    change (len mu = 6). unfold len. rewrite LM. reflexivity. }
  clearbody m0.
  assert (R : forall m, msound m -> forall k o, (has (m_l m) o = true -> rxj (k m) (fun p => mkept m (fst p))) -> rxj (if has (m_l m) o then k m else ret (m, false)) (fun p => mkept m (fst p))).
  { intros a SA k o H. destruct (has (m_l a) o) eqn:E; [apply H; reflexivity|]. apply rxj_ret, mkept_refl, SA. }
  eapply rxj_bind; [apply (R m0 (proj1 K0)); intros _; apply rxj_rt, m_mutate_eta_ok, K0|]. intros (m1, b0) K1. cbn [fst] in K1.
  eapply rxj_bind; [apply (R m1 (proj1 K1)); intros H; apply m_mutate_neurons_ok; try assumption; apply K1|]. intros (m2, b1) K2. cbn [fst] in K2.
  eapply rxj_bind; [apply (R m2 (proj1 K2)); intros _; apply rxj_rt, m_mutate_connectivity_ok, K2|]. intros (m3, b2) K3. cbn [fst] in K3.
  eapply rxj_bind; [apply (R m3 (proj1 K3)); intros _; apply rxj_rt, m_mutate_weights_ok, K3|]. intros (m4, b3) K4. cbn [fst] in K4.
  eapply rxj_bind; [apply (R m4 (proj1 K4)); intros _; apply rxj_rt, m_mutate_functions_ok, K4|]. intros (m5, b4) K5. cbn [fst] in K5.
  apply rxj_ret. cbn [fst]. exact (mkept_trans _ _ _ K0 (mkept_trans _ _ _ K1 (mkept_trans _ _ _ K2 (mkept_trans _ _ _ K3 (mkept_trans _ _ _ K4 K5))))).
Qed.
End Mutate.

(** ** Any sequence of uses *)
Inductive mop := MForward (x : list f64) | MLearn (x : list f64) (e : Z -> f64) | MRand | MMutate | MCopy.
Definition mop_ok (n : Z) (o : mop) : Prop := match o with MForward x | MLearn x _ => n <= len x | _ => True end.
Definition run_mop (lm : libm) (fuel : nat) (o : mop) (m : lstm f64) : RM (lstm f64) :=
  match o with
  | MForward x => lift (lstm_forward (f64_arith lm) m x)
  | MLearn x e =>
      (p <- lift (lstm_backward (f64_arith lm) (with_parts m (set_delta (map e (iota (l_n_outputs (m_l m)))) (m_l m))
               (m_uf m) (m_ui m) (m_ug m) (m_uo m) (m_wf m) (m_wi m) (m_wg m) (m_wo m)) x None) ;;
       lift (lstm_update (f64_arith lm) (fst p)))%rng
  | MRand => lstm_rand lm m
  | MMutate => (p <- lstm_mutate lm fuel m ;; ret (fst p))%rng
  | MCopy => lift (lstm_copy m)
  end.
Fixpoint run_mops (lm : libm) (fuel : nat) (os : list mop) (m : lstm f64) : RM (lstm f64) :=
  match os with [] => ret m | o :: os => (m <- run_mop lm fuel o m ;; run_mops lm fuel os m)%rng end.

Definition msize (m : lstm f64) := (l_n_inputs (m_l m), l_max_outputs (m_l m)).
Lemma same_msize m m' : same_lstm m m' -> msize m' = msize m.
Proof. intros (_ & D & _). unfold dims in D. injection D as D1 D2 D3 D4 D5. unfold msize. congruence. Qed.

Section Life.
Context (J : rng -> Prop) (lm : libm) (Zok : f64 -> Prop) (SR : src lm J Zok) (bad : outcome unit -> Prop) (fuel : nat) (FU : (1 <= fuel)%nat) (CA : casts_ok Zok bad) (FO : bad OutOfFuel).
Lemma run_mop_ok o m : msound m -> mop_ok (l_n_inputs (m_l m)) o -> rxj J bad (run_mop lm fuel o m) (fun m' => msound m' /\ msize m' = msize m).
Proof.
  intros S O. destruct (ms_range m S) as (N1 & N2 & N3). assert (NN : 0 <= l_n_outputs (m_l m)) by lia.
  destruct (act_defined (f64_arith lm) _ (ms_fn _ S)) as ((fn & F) & (gfn & G)). destruct (act_defined (f64_arith lm) _ (ms_rec _ S)) as ((rf & RF) & (grf & GR)).
  destruct o as [x|x e| | |]; cbn [run_mop mop_ok] in *.
  - destruct (lstm_forward_ok lm m x fn rf S O F RF) as (m' & E & S' & Q & _). apply rxj_rt. eapply rt_lift; [exact E|]. split; [exact S'|]. apply same_msize, Q.
  - set (m1 := with_parts _ _ _ _ _ _ _ _ _ _).
    assert (S1 : msound m1). { destruct S, ms_parts0. constructor; try assumption; [constructor; assumption|]. apply len_map_iota. exact NN. }
    assert (L1 : (l_n_inputs (m_l m1), l_function (m_l m1), m_rec m1, msize m1) = (l_n_inputs (m_l m), l_function (m_l m), m_rec m, msize m)) by reflexivity. clearbody m1. injection L1 as L1 L2 L3 L4 L5.
    destruct (lstm_backward_ok lm m1 x None fn rf gfn grf S1) as (m2 & od & E & S2 & Q2 & _); [rewrite L1; exact O|discriminate|rewrite L2; assumption|rewrite L2; assumption|rewrite L3; assumption|].
    destruct (lstm_update_ok lm m2 S2) as (m3 & E3 & S3 & L). apply rxj_rt.
    eapply rt_bind_lift; [exact E|]. cbn [fst]. eapply rt_lift; [exact E3|]. split; [exact S3|]. apply same_msize in Q2. unfold mrest in L. injection L as La _ _ _ _ _ _ _ _ _ _ _ _ _ _.
    unfold msize in *. rewrite La. congruence.
  - apply rxj_rt. eapply rt_mono; [apply (lstm_rand_ok J lm Zok SR m S)|]. intros m' (S' & L). split; [exact S'|]. unfold mrest in L. injection L as La _ _ _ _ _ _ _ _ _ _ _ _ _ _. unfold msize. rewrite La. reflexivity.
  - eapply rxj_bind; [apply (lstm_mutate_ok J lm Zok SR bad fuel m FU CA FO S)|]. intros (m', b) (K & K1 & K2 & _). apply rxj_ret. cbn [fst] in *. split; [exact K|]. unfold msize. congruence.
  - destruct (lstm_copy_ok m S) as (m' & E & S' & Q & _). apply rxj_rt. eapply rt_lift; [exact E|]. split; [exact S'|]. apply same_msize, Q.
Qed.
Lemma run_mops_ok os : forall m, msound m -> Forall (mop_ok (l_n_inputs (m_l m))) os -> rxj J bad (run_mops lm fuel os m) (fun m' => msound m' /\ msize m' = msize m).
Proof.
  induction os as [|o os IH]; intros m S F; cbn [run_mops]; [apply rxj_ret; auto|]. inversion F as [|? ? F1 F2]; subst.
  eapply rxj_bind; [apply (run_mop_ok o m S F1)|]. intros m1 (S1 & L1). assert (LI : l_n_inputs (m_l m1) = l_n_inputs (m_l m)) by (unfold msize in L1; congruence).
  eapply rxj_mono; [apply (IH m1 S1); rewrite LI; exact F2|]. intros m2 (S2 & L2). split; [exact S2|]. congruence.
Qed.
End Life.

Definition lstm_life (lm : libm) (fuel : nat) (a : largs) (rf : Z) (os : list mop) : RM (lstm f64) := (m <- lstm_init lm a rf ;; run_mops lm fuel os m)%rng.
Lemma C75_life_lemma lm fuel a rf os g : libm_ok lm -> gen_ok g -> (1 <= fuel)%nat -> rarg_ok a -> 0 <= rf < NUM_ACTIVATIONS -> Forall (mop_ok (la_n_inputs a)) os ->
  match lstm_life lm fuel a rf os g with
  | Ok (m, g') => msound m /\ l_n_inputs (m_l m) = la_n_inputs a /\ 1 <= l_n_outputs (m_l m) <= la_n_max a /\ gen_ok g'
  | OutOfFuel => True
  | _ => False
  end.
Proof.
  intros L G FU A RF F. unfold lstm_life.
  assert (X : rxj gen_ok only_fuel (m <- lstm_init lm a rf ;; run_mops lm fuel os m)%rng (fun m => msound m /\ msize m = (la_n_inputs a, la_n_max a))).
  { eapply rxj_bind; [apply rxj_rt, (lstm_init_ok gen_ok lm normal_ok (src_normal_ok lm L) a rf A RF)|]. intros m (S & E & _). injection E as E1 E2 E3 E4 E5 E6.
    eapply rxj_mono; [apply (run_mops_ok gen_ok lm normal_ok (src_normal_ok lm L) only_fuel fuel FU (casts_normal lm L) eq_refl os m S); rewrite E1; exact F|].
    intros m' (S' & L1). split; [exact S'|]. unfold msize in *. congruence. }
  specialize (X g G). revert X. destruct ((m <- lstm_init lm a rf ;; run_mops lm fuel os m)%rng g) as [[m g']| | |]; intros X; try discriminate X; [|exact Logic.I].
  destruct X as (G' & S & E). unfold msize in E. injection E as E1 E2. split; [exact S|]. split; [exact E1|]. split; [|exact G']. rewrite <- E2. apply (ms_range m S).
Qed.

(** ** The output depends on the parameters, on h and on c only *)
Fixpoint msteps (lm : libm) (m : lstm f64) (xs : list (list f64)) : outcome (lstm f64) :=
  match xs with [] => Ok m | x :: xs => (m <- lstm_forward (f64_arith lm) m x ;; msteps lm m xs)%out end.
Lemma cons8 {B} (a b c d e f g h a' b' c' d' e' f' g' h' : B) : [a; b; c; d; e; f; g; h] = [a'; b'; c'; d'; e'; f'; g'; h'] ->
  a = a' /\ b = b' /\ c = c' /\ d = d' /\ e = e' /\ f = f' /\ g = g' /\ h = h'.
Proof. intros H. injection H. intros. repeat split; assumption. Qed.
Lemma ms_len m : msound m -> len (m_c m) = l_n_outputs (m_l m) /\ len (m_h m) = l_n_outputs (m_l m).
Proof.
  intros S. pose proof (ms_arrays _ S) as AR. unfold marr in AR. rewrite !Forall_cons_iff in AR. destruct AR as (Lcell & Lf & Li & Lg & Lo & Lc & Lh & _). auto.
Qed.
Lemma same_step lm m m' x : msound m -> msound m' -> same_lstm m m' -> m_h m' = m_h m -> m_c m' = m_c m -> l_n_inputs (m_l m) <= len x ->
  exists q q', lstm_forward (f64_arith lm) m x = Ok q /\ lstm_forward (f64_arith lm) m' x = Ok q' /\ msound q /\ msound q' /\ same_lstm q q' /\ msize q = msize m /\
    m_h q' = m_h q /\ m_c q' = m_c q /\ l_output (m_l q') = l_output (m_l q).
Proof.
  intros S S' N HE CE LX. pose proof N as (N1 & N2 & N3 & N4). pose proof N2 as N2'. unfold dims in N2'. injection N2' as D1 D2 D3 D4 D5.
  destruct (act_defined (f64_arith lm) _ (ms_fn _ S)) as ((fn & F) & _). destruct (act_defined (f64_arith lm) _ (ms_rec _ S)) as ((rf & RF) & _).
  destruct (lstm_forward_ok lm m x fn rf S LX F RF) as (q & E & Q1 & Q2 & _ & _ & _ & _ & _ & Q3 & _ & Q4).
  destruct (lstm_forward_ok lm m' x fn rf S') as (q' & E' & Q1' & Q2' & _ & _ & _ & _ & _ & Q3' & _ & Q4'); [lia|rewrite N3; exact F|rewrite N4; exact RF|].
  assert (SN : same_lstm q q').
  { destruct Q2 as (A1 & A2 & A3 & A4), Q2' as (B1 & B2 & B3 & B4). unfold same_lstm. rewrite A1, B1, A2, B2. split; [exact N1|]. split; [exact N2|]. split; congruence. }
  assert (NQ : l_n_outputs (m_l q) = l_n_outputs (m_l m)) by (destruct Q2 as (_ & A4 & _); unfold dims in A4; injection A4; auto).
  assert (NQ' : l_n_outputs (m_l q') = l_n_outputs (m_l m)) by (destruct Q2' as (_ & A4 & _); unfold dims in A4; injection A4; intros; congruence).
  cbn [map] in N1. apply cons8 in N1. destruct N1 as (C1 & C2 & C3 & C4 & C5 & C6 & C7 & C8).
  destruct (ms_len q' Q1') as (L3 & L4). destruct (ms_len q Q1) as (L5 & L6). rewrite NQ' in L3, L4. rewrite NQ in L5, L6.
  assert (L1 : len (m_c q') = len (m_c q)) by congruence. assert (L2 : len (m_h q') = len (m_h q)) by congruence.
  assert (SAME : forall i, 0 <= i < l_n_outputs (m_l m) -> at_ f0 (m_c q') i = at_ f0 (m_c q) i /\ at_ f0 (m_h q') i = at_ f0 (m_h q) i).
  { intros i I. destruct (Q4 i I) as (X1 & X2 & X3 & X4 & X5 & X6). destruct (Q4' i ltac:(lia)) as (Y1 & Y2 & Y3 & Y4 & Y5 & Y6). unfold gate_sum in *.
    rewrite HE in *. rewrite CE in *. rewrite !(pre_content _ _ _ _ _ C1) in *. rewrite !(pre_content _ _ _ _ _ C2) in *. rewrite !(pre_content _ _ _ _ _ C3) in *. rewrite !(pre_content _ _ _ _ _ C4) in *.
    rewrite !(pre_content _ _ _ _ _ C5) in *. rewrite !(pre_content _ _ _ _ _ C6) in *. rewrite !(pre_content _ _ _ _ _ C7) in *. rewrite !(pre_content _ _ _ _ _ C8) in *.
    assert (XC : at_ f0 (m_c q') i = at_ f0 (m_c q) i) by congruence. split; [exact XC|]. rewrite X6, Y6, XC, X4, Y4. reflexivity. }
  assert (HH : m_h q' = m_h q) by (apply (list_ext f0); [exact L2|]; intros i I; apply SAME; lia).
  assert (CC : m_c q' = m_c q) by (apply (list_ext f0); [exact L1|]; intros i I; apply SAME; lia).
  exists q, q'. split; [exact E|]. split; [exact E'|]. split; [exact Q1|]. split; [exact Q1'|]. split; [exact SN|]. split; [apply same_msize, Q2|]. split; [exact HH|]. split; [exact CC|]. congruence.
Qed.
Lemma msteps_same lm xs : forall m m', msound m -> msound m' -> same_lstm m m' -> m_h m' = m_h m -> m_c m' = m_c m -> xs <> [] -> Forall (fun x => l_n_inputs (m_l m) <= len x) xs ->
  exists q q', msteps lm m xs = Ok q /\ msteps lm m' xs = Ok q' /\ l_output (m_l q') = l_output (m_l q).
Proof.
  induction xs as [|x xs IH]; intros m m' S S' N HE CE NE F; [contradiction|]. inversion F as [|? ? F1 F2]; subst. cbn [msteps].
  destruct (same_step lm m m' x S S' N HE CE F1) as (q & q' & E & E' & Q & Q' & QN & QS & QH & QC & QO). rewrite E, E'. cbn [obind].
  destruct xs as [|y ys]; [exists q, q'; auto|]. apply IH; try assumption; [discriminate|]. assert (LI : l_n_inputs (m_l q) = l_n_inputs (m_l m)) by (unfold msize in QS; congruence). rewrite LI. exact F2.
Qed.

(** ** Copies start afresh *)
Lemma C75_copy_lemma lm m xs : msound m -> xs <> [] -> Forall (fun x => l_n_inputs (m_l m) <= len x) xs ->
  exists c, lstm_copy m = Ok c /\ msound c /\ same_lstm m c /\ m_h c = zeros f0 (l_n_outputs (m_l m)) /\ m_c c = zeros f0 (l_n_outputs (m_l m)) /\
    (forall m0, msound m0 -> same_lstm m m0 -> m_h m0 = zeros f0 (l_n_outputs (m_l m)) -> m_c m0 = zeros f0 (l_n_outputs (m_l m)) ->
      exists q q', msteps lm m0 xs = Ok q /\ msteps lm c xs = Ok q' /\ l_output (m_l q') = l_output (m_l q)).
Proof.
  intros S NE F. destruct (lstm_copy_ok m S) as (c & E & C & Q & _ & H1 & H2 & _). exists c. split; [exact E|]. split; [exact C|]. split; [exact Q|]. split; [exact H1|]. split; [exact H2|].
  intros m0 S0 Q0 E1 E2. apply msteps_same; try assumption; try congruence.
  - destruct Q as (A1 & A2 & A3 & A4), Q0 as (B1 & B2 & B3 & B4). unfold same_lstm. rewrite A1, B1, A2, B2. split; [reflexivity|]. split; [reflexivity|]. split; congruence.
  - pose proof (same_msize _ _ Q0) as M. unfold msize in M. assert (LI : l_n_inputs (m_l m0) = l_n_inputs (m_l m)) by congruence. rewrite LI. exact F.
Qed.

Definition unit_lstm (opts mx : Z) (u w : f64) : lstm f64 :=
  let l := set_n_active 8 (set_n_weights 8 (set_n_biases 8 (set_eta f1 (set_mu low_mu (set_function LINEAR (set_options opts
     (set_n_inputs 1 (set_n_outputs 1 (set_max_outputs mx (set_out_w 1 (set_out_h 1 (set_out_c 1 (set_type LSTM layer_defaults))))))))))))) in
  let U := unit_layer opts mx u in let W := unit_layer opts mx w in
  lstm_arrays 1 l LINEAR U U U U W W W W.
Lemma unit_msound opts mx u w : 1 <= mx <= 10 -> msound (unit_lstm opts mx u w).
Proof.
  intros M. unfold unit_lstm. cbv zeta. apply lstm_arrays_ok; try reflexivity; try apply linear_range; try lia.
  - change (mx * mx <= N_WEIGHTS_MAX). unfold N_WEIGHTS_MAX. nia.
  - constructor; apply (unit_part opts mx _ M).
Qed.
Definition lstm_out (o : outcome (lstm f64)) : outcome f64 := (m <- o ;; rd (l_output (m_l m)) 0)%out.
Definition one_lstm : lstm f64 := unit_lstm 0 1 f1 f1.
Lemma C75_copy_differs_lemma : exists lm m x m1 m2 y1 y2, msound m /\ msteps lm m [x] = Ok m1 /\ lstm_copy m1 = Ok m2 /\
  lstm_out (msteps lm m1 [x]) = Ok y1 /\ lstm_out (msteps lm m2 [x]) = Ok y2 /\ feq y1 y2 = false.
Proof.
  assert (S : msound one_lstm) by (apply unit_msound; lia).
  assert (X : match msteps const_lm one_lstm [[f1]] with
    | Ok m1 => match lstm_copy m1 with
      | Ok m2 => match lstm_out (msteps const_lm m1 [[f1]]), lstm_out (msteps const_lm m2 [[f1]]) with Ok y1, Ok y2 => feq y1 y2 = false | _, _ => False end
      | _ => False end
    | _ => False end) by (vm_compute; reflexivity).
  exists const_lm, one_lstm, [f1]. revert S X. generalize one_lstm. intros m S X.
  destruct (msteps const_lm m [[f1]]) as [m1| | |]; try contradiction. destruct (lstm_copy m1) as [m2| | |] eqn:E2; try contradiction.
  destruct (lstm_out (msteps const_lm m1 [[f1]])) as [y1| | |] eqn:E3; try contradiction. destruct (lstm_out (msteps const_lm m2 [[f1]])) as [y2| | |] eqn:E4; try contradiction.
  exists m1, m2, y1, y2. repeat split; auto; apply S.
Qed.

(** ** Files *)
Definition lstm_restored (m : lstm f64) : lstm f64 :=
  let l := m_l m in let n := l_n_outputs l in
  mkLstm (set_delta (zeros f0 n) (set_output (zeros f0 n) (set_state (l_state l) (set_mu (l_mu l) (set_n_inputs (l_n_inputs l) (set_n_outputs n (set_n_weights (l_n_weights l)
     (set_n_biases (l_n_biases l) (set_max_outputs (l_max_outputs l) (set_n_active (l_n_active l) (set_eta (l_eta l)
     (set_eta_max (l_eta_max l) (set_momentum (l_momentum l) (set_decay (l_decay l) (set_grow (l_grow l) (set_options (l_options l) (set_out_w n (set_out_c 1 (set_out_h 1
        (set_type LSTM layer_defaults)))))))))))))))))))) 0
    (conn_restored (m_uf m)) (conn_restored (m_ui m)) (conn_restored (m_ug m)) (conn_restored (m_uo m))
    (conn_restored (m_wf m)) (conn_restored (m_wi m)) (conn_restored (m_wg m)) (conn_restored (m_wo m))
    (m_prev_state m) (zeros f0 n) (m_cell m) (m_f m) (m_i m) (m_g m) (m_o m) (m_c m) (m_h m) (m_temp m) (m_temp2 m) (m_temp3 m) (m_dc m).
Lemma part_restored ni no mx op fn l : part ni no mx op fn l -> part ni no mx op fn (conn_restored l) /\ content (conn_restored l) = content l.
Proof.
  intros P. pose proof (part_conn _ _ _ _ _ _ P) as (C & TI & G & F). pose proof (pt_type _ _ _ _ _ _ P) as T. pose proof (pt_fn _ _ _ _ _ _ P) as FN. split.
  - destruct P. split; try assumption; [|reflexivity]. left. split; [reflexivity|]. assert (Z : len (zeros f0 (l_n_outputs l)) = l_n_outputs l) by (apply len_zeros; apply (cs_out _ C)).
    split; [destruct C; constructor; assumption|]. split; [exact TI|]. split; [destruct G; constructor; assumption|]. change (0 <= l_function l < NUM_ACTIVATIONS). rewrite FN. exact F.
  - unfold content, dims, conn_restored. cbn. rewrite T. reflexivity.
Qed.
Lemma restored_sound m : msound m -> msound (lstm_restored m).
Proof.
  intros S. destruct (ms_range m S) as (N1 & N2 & N3). assert (Z : len (zeros f0 (l_n_outputs (m_l m))) = l_n_outputs (m_l m)) by (apply len_zeros; lia).
  destruct S, ms_parts0. constructor; try assumption; try reflexivity.
  - constructor; apply part_restored; assumption.
  - change (0 <= 0 < NUM_ACTIVATIONS). unfold NUM_ACTIVATIONS. lia.
  - change (0 <= 0 < NUM_ACTIVATIONS). unfold NUM_ACTIVATIONS. lia.
  - split; [apply ms_prev0|reflexivity].
Qed.
Lemma lstm_codec m : msound m -> codec (lstm_save m) lstm_load (lstm_restored m).
Proof.
  intros S. destruct (ms_range m S) as (N1 & N2 & N3). assert (NN : 0 <= l_n_outputs (m_l m)) by lia. unfold lstm_save, lstm_load. cbv zeta. rewrite (ms_type _ S). rd1. cbn [Z.eqb negb LSTM Pos.eqb].
  pose proof (ms_arrays _ S) as AR. unfold marr in AR. rewrite !Forall_cons_iff in AR. destruct AR as (Lcell & Lf & Li & Lg & Lo & Lc & Lh & Lt & Lt2 & Lt3 & Ldc & _).
  destruct (ms_prev _ S) as (PS & _). assert (LP : len (m_prev_state m) = l_n_outputs (m_l m)) by (rewrite PS; apply len_zeros; exact NN). pose proof (ms_parts _ S) as [].
  do 12 rd1. eapply codec_lift; [apply guard_out; change (1 <= l_n_outputs (m_l m) <= N_OUTPUTS_MAX); lia|]. cbv beta.
  refine (codec_cons _ _ _ _ _ _ (arr_dbl _ _ _ (ms_mu _ S) (len_dbls 6 ltac:(lia))) _). cbv beta.
  refine (codec_cons _ _ _ _ _ _ (arr_dbl _ _ _ (ms_state _ S) (zeros_len _ _ NN)) _). cbv beta.
  refine (codec_cons _ _ _ _ _ _ (arr_dbl _ _ _ LP (zeros_len _ _ NN)) _). cbv beta.
  refine (codec_cons _ _ _ _ _ _ (arr_dbl _ _ _ Lcell (zeros_len _ _ NN)) _). cbv beta.
  refine (codec_cons _ _ _ _ _ _ (arr_dbl _ _ _ Lf (zeros_len _ _ NN)) _). cbv beta.
  refine (codec_cons _ _ _ _ _ _ (arr_dbl _ _ _ Li (zeros_len _ _ NN)) _). cbv beta.
  refine (codec_cons _ _ _ _ _ _ (arr_dbl _ _ _ Lg (zeros_len _ _ NN)) _). cbv beta.
  refine (codec_cons _ _ _ _ _ _ (arr_dbl _ _ _ Lo (zeros_len _ _ NN)) _). cbv beta.
  refine (codec_cons _ _ _ _ _ _ (arr_dbl _ _ _ Lc (zeros_len _ _ NN)) _). cbv beta.
  refine (codec_cons _ _ _ _ _ _ (arr_dbl _ _ _ Lh (zeros_len _ _ NN)) _). cbv beta.
  refine (codec_cons _ _ _ _ _ _ (arr_dbl _ _ _ Lt (zeros_len _ _ NN)) _). cbv beta.
  refine (codec_cons _ _ _ _ _ _ (arr_dbl _ _ _ Lt2 (zeros_len _ _ NN)) _). cbv beta.
  refine (codec_cons _ _ _ _ _ _ (arr_dbl _ _ _ Lt3 (zeros_len _ _ NN)) _). cbv beta.
  refine (codec_cons _ _ _ _ _ _ (arr_dbl _ _ _ Ldc (zeros_len _ _ NN)) _). cbv beta.
  refine (codec_cons _ _ _ _ _ _ (part_fits _ _ _ _ _ _ mp_uf0) _). cbv beta. refine (codec_cons _ _ _ _ _ _ (part_fits _ _ _ _ _ _ mp_ui0) _). cbv beta.
  refine (codec_cons _ _ _ _ _ _ (part_fits _ _ _ _ _ _ mp_ug0) _). cbv beta. refine (codec_cons _ _ _ _ _ _ (part_fits _ _ _ _ _ _ mp_uo0) _). cbv beta.
  refine (codec_cons _ _ _ _ _ _ (part_fits _ _ _ _ _ _ mp_wf0) _). cbv beta. refine (codec_cons _ _ _ _ _ _ (part_fits _ _ _ _ _ _ mp_wi0) _). cbv beta.
  refine (codec_cons _ _ _ _ _ _ (part_fits _ _ _ _ _ _ mp_wg0) _). cbv beta. refine (codec_cons _ _ _ _ _ _ (part_fits _ _ _ _ _ _ mp_wo0) _). cbv beta.
  apply codec_nil.
Qed.
Lemma C75_load_lemma lm m xs : msound m -> xs <> [] -> Forall (fun x => l_n_inputs (m_l m) <= len x) xs ->
  exists c, codec (lstm_save m) lstm_load c /\ msound c /\ l_function (m_l c) = LOGISTIC /\ m_rec c = LOGISTIC /\
    (l_function (m_l m) = LOGISTIC -> m_rec m = LOGISTIC -> exists q q', msteps lm m xs = Ok q /\ msteps lm c xs = Ok q' /\ l_output (m_l q') = l_output (m_l q)).
Proof.
  intros S NE F. exists (lstm_restored m). split; [apply lstm_codec, S|]. split; [apply restored_sound, S|]. split; [reflexivity|]. split; [reflexivity|].
  intros F1 F2. apply msteps_same; try assumption; try reflexivity; [apply restored_sound, S|]. pose proof (ms_type _ S) as T. destruct (ms_parts _ S).
  split; [|split; [unfold dims; cbn; rewrite T; reflexivity|split; [rewrite F1; reflexivity|rewrite F2; reflexivity]]].
  cbn [map lstm_restored m_uf m_ui m_ug m_uo m_wf m_wi m_wg m_wo].
  rewrite (proj2 (part_restored _ _ _ _ _ _ mp_uf0)), (proj2 (part_restored _ _ _ _ _ _ mp_ui0)), (proj2 (part_restored _ _ _ _ _ _ mp_ug0)), (proj2 (part_restored _ _ _ _ _ _ mp_uo0)),
    (proj2 (part_restored _ _ _ _ _ _ mp_wf0)), (proj2 (part_restored _ _ _ _ _ _ mp_wi0)), (proj2 (part_restored _ _ _ _ _ _ mp_wg0)), (proj2 (part_restored _ _ _ _ _ _ mp_wo0)). reflexivity.
Qed.
Lemma C75_load_differs_lemma : exists lm m x c y1 y2, msound m /\ codec (lstm_save m) lstm_load c /\ lstm_out (msteps lm m [x]) = Ok y1 /\ lstm_out (msteps lm c [x]) = Ok y2 /\ feq y1 y2 = false.
Proof.
  assert (S : msound one_lstm) by (apply unit_msound; lia).
  assert (X : match lstm_out (msteps const_lm one_lstm [[f1]]), lstm_out (msteps const_lm (lstm_restored one_lstm) [[f1]]) with Ok y1, Ok y2 => feq y1 y2 = false | _, _ => False end) by (vm_compute; reflexivity).
  exists const_lm, one_lstm, [f1], (lstm_restored one_lstm). pose proof (lstm_codec _ S) as C. revert S C X. generalize (lstm_restored one_lstm); generalize one_lstm. intros m c S C X.
  destruct (lstm_out (msteps const_lm m [[f1]])) as [y1| | |] eqn:E3; try contradiction. destruct (lstm_out (msteps const_lm c [[f1]])) as [y2| | |] eqn:E4; try contradiction.
  exists y1, y2. split; [exact S|]. split; [exact C|]. auto.
Qed.
Lemma C75_init_lemma lm a rf g : libm_ok lm -> gen_ok g -> rarg_ok a -> 0 <= rf < NUM_ACTIVATIONS -> exists m g', lstm_init lm a rf g = Ok (m, g') /\ gen_ok g' /\ msound m /\
  (l_n_inputs (m_l m), l_n_outputs (m_l m), l_max_outputs (m_l m), l_options (m_l m), l_function (m_l m), m_rec m) = (la_n_inputs a, la_n_init a, la_n_max a, layer_args_opt a, la_function a, rf) /\
  m_h m = zeros f0 (la_n_init a) /\ m_c m = zeros f0 (la_n_init a).
Proof. intros L G A R. exact (lstm_init_ok gen_ok lm normal_ok (src_normal_ok lm L) a rf A R g G). Qed.
