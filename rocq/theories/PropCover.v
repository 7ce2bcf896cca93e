(** * Python arrays as arguments, ownership of the cover array, checkpoints. *)
From Coq Require Import ZArith Bool List Reals Lia Lra.
From Flocq Require Import Core BinarySingleNaN.
From Verif Require Import Outcome F64 F64Facts F64Bounds Rng RngFacts Pop PopSpec PopInv PopSel PopTrial PopFit PopRL PopOps PopSeq PopKeep PropMulti PropStore Clock Py PopTick PropPy PropEarly
  Arr Cond Blas Pred Comp CompFacts Demo DemoEx.
Import ListNotations.
Open Scope Z_scope.

(** ** Shapes. *)
Lemma load_input_2d x_dim y_dim n a m b dx dy : load_input x_dim y_dim (mkNd [n; a] dx) (mkNd [m; b] dy) =
  if (n =? m) && (a =? x_dim) && (b =? y_dim) then Return (mkPyIn dx dy x_dim y_dim n) else Raise.
Proof. unfold load_input. cbn. destruct (n =? m), (a =? x_dim), (b =? y_dim); reflexivity. Qed.
Lemma load_input_dims x_dim y_dim A B r : load_input x_dim y_dim A B = Return r ->
  (length (nd_shape A) = 1 \/ length (nd_shape A) = 2)%nat /\ (length (nd_shape B) = 1 \/ length (nd_shape B) = 2)%nat /\
  nth 0 (nd_shape A) 0 = nth 0 (nd_shape B) 0 /\ r = mkPyIn (nd_data A) (nd_data B) x_dim y_dim (nth 0 (nd_shape A) 0).
Proof.
  unfold load_input. set (nx := Z.of_nat (length (nd_shape A))). set (ny := Z.of_nat (length (nd_shape B))).
  destruct (Z.ltb_spec nx 1); [discriminate|]. destruct (Z.ltb_spec 2 nx); [discriminate|]. destruct (Z.ltb_spec ny 1); [discriminate|]. destruct (Z.ltb_spec 2 ny); [discriminate|].
  cbn [orb]. destruct (Z.eqb_spec (nth 0 (nd_shape A) 0) (nth 0 (nd_shape B) 0)) as [E|]; [|discriminate]. cbn [negb].
  destruct ((1 <? nx) && _); [discriminate|]. destruct ((1 <? ny) && _); [discriminate|]. intros H'. inversion H'; subst. unfold nx, ny in *. split; [lia|]. split; [lia|]. auto.
Qed.
Lemma row_at_ok data dim n row : 0 <= dim -> Z.of_nat (length data) = n * dim -> 0 <= row < n ->
  exists r, row_at data dim row = Ok r /\ Z.of_nat (length r) = dim /\
    forall j, 0 <= j < dim -> nth_error r (Z.to_nat j) = nth_error data (Z.to_nat (row * dim + j)).
Proof.
  intros D L R. unfold row_at. destruct (Z.ltb_spec row 0); [lia|]. cbn [orb]. destruct (Z.ltb_spec (Z.of_nat (length data)) ((row + 1) * dim)); [nia|].
  eexists. split; [reflexivity|]. split.
  - rewrite firstn_length, skipn_length. nia.
  - intros j Hj. replace (Z.to_nat (row * dim + j)) with (Z.to_nat (row * dim) + Z.to_nat j)%nat by nia.
    assert (S : forall (k : nat) (l : list f64) i, nth_error (skipn k l) i = nth_error l (k + i)).
    { clear. induction k as [|k IH]; intros l i; [reflexivity|]. destruct l; [destruct i; reflexivity|]. apply IH. }
    rewrite <- S. assert (F : forall (k : nat) (l : list f64) i, (i < k)%nat -> nth_error (firstn k l) i = nth_error l i).
    { clear. induction k as [|k IH]; intros l i H; [lia|]. destruct l; [reflexivity|]. destruct i; [reflexivity|]. cbn [firstn nth_error]. apply IH. lia. }
    apply F. lia.
Qed.

(** Two-dimensional arrays: accepted exactly when the shapes fit, and then every row can be read. *)
Lemma C62_lemma x_dim y_dim n a m b dx dy : 0 <= x_dim -> 0 <= y_dim -> nd_wf (mkNd [n; a] dx) -> nd_wf (mkNd [m; b] dy) ->
  match load_input x_dim y_dim (mkNd [n; a] dx) (mkNd [m; b] dy) with
  | Raise => ~ (n = m /\ a = x_dim /\ b = y_dim)
  | Return i => n = m /\ a = x_dim /\ b = y_dim /\ pi_n i = n /\ pi_x i = dx /\ pi_y i = dy /\ forall row, 0 <= row < n ->
      (exists r, row_at (pi_x i) (pi_x_dim i) row = Ok r /\ Z.of_nat (length r) = x_dim /\
         forall j, 0 <= j < x_dim -> nth_error r (Z.to_nat j) = nth_error dx (Z.to_nat (row * x_dim + j))) /\
      (exists r, row_at (pi_y i) (pi_y_dim i) row = Ok r /\ Z.of_nat (length r) = y_dim /\
         forall j, 0 <= j < y_dim -> nth_error r (Z.to_nat j) = nth_error dy (Z.to_nat (row * y_dim + j)))
  end.
Proof.
  intros X0 Y0 (_ & W1) (_ & W2). rewrite load_input_2d. destruct (Z.eqb_spec n m) as [->|]; cbn [andb]; [|tauto].
  destruct (Z.eqb_spec a x_dim) as [->|]; cbn [andb]; [|tauto]. destruct (Z.eqb_spec b y_dim) as [->|]; [|tauto].
  cbn in W1, W2. cbn [pi_n pi_x pi_y pi_x_dim pi_y_dim]. repeat (split; [reflexivity|]). intros row R. split; (apply (row_at_ok _ _ m); [assumption|lia|assumption]).
Qed.
(** Any accepted arrays: equal numbers of rows; safe whenever one-dimensional arrays have one column. *)
Lemma C62_any_lemma x_dim y_dim A B i : nd_wf A -> nd_wf B -> 0 <= x_dim -> 0 <= y_dim -> load_input x_dim y_dim A B = Return i ->
  (length (nd_shape A) = 1%nat -> x_dim = 1) -> (length (nd_shape B) = 1%nat -> y_dim = 1) ->
  forall row, 0 <= row < pi_n i -> (exists r, row_at (pi_x i) (pi_x_dim i) row = Ok r) /\ (exists r, row_at (pi_y i) (pi_y_dim i) row = Ok r).
Proof.
  intros (_ & WA) (_ & WB) X0 Y0 E H1 H2 row R. pose proof (load_input_dims _ _ _ _ _ E) as (D1 & D2 & D3 & ->). cbn [pi_n pi_x pi_y pi_x_dim pi_y_dim] in *.
  revert E. unfold load_input. destruct A as [[|a [|a' [|? ?]]] dx]; cbn [nd_shape nd_data length] in *; try lia; destruct B as [[|b [|b' [|? ?]]] dy]; cbn [nd_shape nd_data length nth] in *; try lia; subst b; cbn; rewrite Z.eqb_refl; cbn;
    try (destruct (Z.eqb_spec a' x_dim) as [->|]; [|discriminate]); try (destruct (Z.eqb_spec b' y_dim) as [->|]; [|discriminate]); intros _; cbn in WA, WB;
    try rewrite (H1 eq_refl); try rewrite (H2 eq_refl).
  all: split; [edestruct (fun d n => row_at_ok dx d n row) as (r & Er & _); [| | |exists r; exact Er]|edestruct (fun d n => row_at_ok dy d n row) as (r & Er & _); [| | |exists r; exact Er]]; try exact R; lia.
Qed.
(** One-dimensional arrays are accepted whatever the number of columns should be. *)
Lemma C62_refuted_lemma : exists A B i, nd_wf A /\ nd_wf B /\ load_input 2 1 A B = Return i /\ pi_n i = 3 /\ row_at (pi_x i) (pi_x_dim i) 1 = UB OutOfBounds.
Proof. exists (mkNd [3] [f0; f1; f0]), (mkNd [3] [f0; f1; f0]). eexists. repeat split; try reflexivity; repeat constructor; discriminate. Qed.
Lemma C62_predict_lemma x_dim n a dx : 0 <= x_dim -> nd_wf (mkNd [n; a] dx) ->
  match predict_rows_of x_dim (mkNd [n; a] dx) with
  | Raise => a <> x_dim
  | Return k => a = x_dim /\ k = n /\ forall row, 0 <= row < k -> exists r, row_at dx x_dim row = Ok r /\ Z.of_nat (length r) = x_dim
  end.
Proof.
  intros X0 (_ & W). unfold predict_rows_of. cbn. destruct (Z.eqb_spec a x_dim) as [->|]; cbn; [|assumption]. split; [reflexivity|]. split; [reflexivity|].
  intros row R. cbn in W. destruct (row_at_ok dx x_dim n row X0 ltac:(lia) R) as (r & E & L & _). exists r. auto.
Qed.
Lemma C62_predict_refuted_lemma : exists A k, nd_wf A /\ predict_rows_of 2 A = Return k /\ 0 <= 1 < k /\ row_at (nd_data A) 2 1 = UB OutOfBounds.
Proof. exists (mkNd [3] [f0; f1; f0]). eexists. repeat split; try reflexivity; repeat constructor; discriminate. Qed.

(** ** Ownership of the cover array. *)
Section Own.
Context {B : Type} (V : vtab B) (K : cfg).
(** The array at xcsf->cover belongs to the system, is live and has its full size; addresses not
    handed out yet are free. *)
Definition mem_ok (m : mem) : Prop :=
  (exists data, m_block m (m_cover m) = Some (mkBlock System data) /\ Z.of_nat (length data) = pa_size K) /\
  (m_cover m < m_next m)%nat /\ forall id, (m_next m <= id)%nat -> m_block m id = None.
(** Everything but the cover array is as before. *)
Definition only_cover (m m' : mem) : Prop :=
  m_cover m' = m_cover m /\ m_next m' = m_next m /\ forall id, id <> m_cover m -> m_block m' id = m_block m id.
(** What a call of each kind may change in memory, when no cover array is given. *)
Definition mem_effect (c : pycall) (m m' : mem) : Prop :=
  match c with
  | PNew data => m_cover m' = m_cover m /\ m_block m' (m_next m) = Some (mkBlock Python data) /\
      forall id, id <> m_next m -> m_block m' id = m_block m id
  | PDrop i => m_cover m' = m_cover m /\ (forall id, id <> i -> m_block m' id = m_block m id) /\
      (m_block m' i = m_block m i \/ m_block m' i = None /\ exists data, m_block m i = Some (mkBlock Python data))
  | PPredict _ _ => m_cover m' = m_cover m /\ (exists data, m_block m' (m_next m) = Some (mkBlock System data)) /\
      forall id, id <> m_cover m -> id <> m_next m -> m_block m' id = m_block m id
  | PScore _ _ _ => only_cover m m'
  | PFit _ _ _ _ _ true => only_cover m m'
  | PFit _ _ _ _ _ false => m_cover m' = m_next m /\ m_block m' (m_cover m) = None /\
      forall id, id <> m_cover m -> id <> m_next m -> m_block m' id = m_block m id
  end.
Context (FO : Prop) (kf : Z) (wf : B -> Prop) (mt : B -> list f64 -> Prop) {dom : list f64 -> Prop}.
Hypothesis CO : cfg_ok K kf.
Hypothesis VO : vt_ok (dom := dom) FO V K wf mt.
Hypothesis HT : ea_tournament K = true -> FO.
Notation Good N := (Good K kf N wf).

Definition plain_call (c : pycall) : Prop :=
  match c with
  | PNew _ | PDrop _ => True
  | PPredict xs a => a = NoCover /\ Forall (fun x => xok K dom x) xs
  | PScore d N a => a = NoCover /\ data_ok (dom := dom) K d
  | PFit mx pf d v _ _ => 1 <= mx <= int_max /\ 1 <= pf <= int_max /\ total_trials mx pf <= int_max /\
      data_ok (dom := dom) K d /\ forall t, v = Some t -> data_ok (dom := dom) K t
  end.
Definition call_cost (c : pycall) : Z := match c with PFit mx pf _ _ _ _ => total_trials mx pf | _ => 0 end.
Lemma call_cost_nonneg c : plain_call c -> 0 <= call_cost c.
Proof. destruct c; cbn; try lia. intros (H1 & H2 & _). pose proof (total_bounds MAX_TRIALS PERF_TRIALS ltac:(lia) ltac:(lia)). lia. Qed.

Lemma pa_size_nonneg : 0 <= pa_size K.
Proof. unfold pa_size. pose proof (ok_n_actions _ _ CO). pose proof (ok_y_dim _ _ CO). nia. Qed.
Lemma zeros_len n : 0 <= n -> Z.of_nat (length (zeros n)) = n.
Proof. intros. unfold zeros. rewrite repeat_length, Z2Nat.id by lia. reflexivity. Qed.

Lemma zero_ok m : mem_ok m -> exists m', cover_zero K m = Ok m' /\ mem_ok m' /\ only_cover m m' /\ m_block m' (m_cover m) = Some (mkBlock System (zeros (pa_size K))).
Proof.
  intros ((data & E & L) & C & F). unfold cover_zero. rewrite E. cbn [b_data b_owner]. rewrite L, Z.ltb_irrefl.
  rewrite skipn_all2, app_nil_r by lia. eexists. split; [reflexivity|].
  assert (EB : m_block (set_block (m_cover m) (Some (mkBlock System (zeros (pa_size K)))) m) (m_cover m) = Some (mkBlock System (zeros (pa_size K)))).
  { cbn [set_block m_block]. rewrite Nat.eqb_refl. reflexivity. }
  assert (EO : forall id, id <> m_cover m -> m_block (set_block (m_cover m) (Some (mkBlock System (zeros (pa_size K)))) m) id = m_block m id).
  { intros id Hid. cbn [set_block m_block]. apply Nat.eqb_neq in Hid. rewrite Hid. reflexivity. }
  split; [|split; [|exact EB]].
  - split; [exists (zeros (pa_size K)); split; [exact EB|apply zeros_len, pa_size_nonneg]|]. split; [exact C|]. intros id H. rewrite EO; [apply F, H|]. intros ->. cbn [set_block m_next] in H. lia.
  - split; [reflexivity|]. split; [reflexivity|exact EO].
Qed.
(** Cover values of the system's own array are all there. *)
Lemma own_cover m : mem_ok m -> cover_ok K (Some (cover_data m)).
Proof. intros ((data & E & L) & _) cv [= <-]. unfold cover_data. rewrite E. cbn [b_data]. rewrite L. unfold pa_size. lia. Qed.

(** The whole of fit keeps the invariant. *)
Lemma fit_good N mx pf d v shuffle warm s : 1 <= mx <= int_max -> 1 <= pf <= int_max -> total_trials mx pf <= int_max ->
  0 <= N -> N + total_trials mx pf <= 2 ^ 53 -> Good N s -> data_ok (dom := dom) K d -> (forall t, v = Some t -> data_ok (dom := dom) K t) ->
  hpost FO (py_fit V K mx pf d v shuffle warm [] (mkPy 0 [] [] [] []) s) (fun _ s' => Good (N + total_trials mx pf) s').
Proof.
  intros H1 H2 H3 N0 LE G D DV. pose proof (epochs_bounds mx pf ltac:(lia) ltac:(lia)) as EB. assert (E1 : 1 <= total_epochs mx pf) by nia.
  unfold py_fit. eapply hp_bind with (P := fun _ s0 => Good N s0).
  { destruct warm; [apply hp_ret; auto|]. destruct (free_spec K kf wf N s G) as (sf & EF & HE & _). unfold mbind. rewrite EF.
    eapply hp_mono; [apply (init_spec FO V K kf wf mt CO VO sf HE)|]. intros [] s0 (_ & G0). eapply Good_mono; [|exact G0]. lia. }
  intros [] s0 G0. rewrite (n_epochs_eq mx pf H1 H2). apply hp_lift_ok. unfold epoch_trials. unfold total_trials in *. set (nt := Z.min mx pf) in *. assert (NT : 1 <= nt) by lia.
  assert (LOOP : forall n N i p s, 0 <= N -> N + Z.of_nat n * nt <= 2 ^ 53 -> Good N s -> 0 <= i -> p_counter p = i -> (i + Z.of_nat n) * nt <= int_max ->
    hpost FO (fit_loop V K n i nt d v shuffle [] p s) (fun r s' => fst r = [] /\ Good (N + Z.of_nat n * nt) s')).
  { clear -CO VO HT D DV NT. induction n as [|n IH]; intros N i p s N0 LE G Hi Hp O; cbn [fit_loop].
    - apply hp_ret. split; [reflexivity|]. replace (N + Z.of_nat 0 * nt) with N by lia. exact G.
    - assert (NO : 1 + i <= int_max) by nia.
      eapply hp_bind; [apply (epoch_spec FO V K kf wf mt CO VO HT N d v shuffle nt i s); auto; nia|]. intros ev s1 (_ & G1 & _).
      unfold update_metrics. rewrite Hp. rewrite (cint_ok (1 + i)) by lia. cbn [obind]. rewrite (cint_ok ((1 + i) * nt)) by nia. cbn [obind].
      apply hp_lift_ok. cbn [callbacks_run]. unfold mbind at 1. unfold mret at 1. cbn beta iota.
      eapply hp_mono; [apply (IH (N + nt) (i + 1)); cbn [p_counter]; auto; nia|]. intros r s' (R & G'). split; [exact R|].
      replace (N + Z.of_nat (S n) * nt) with (N + nt + Z.of_nat n * nt) by lia. exact G'. }
  eapply hp_bind; [apply (LOOP (Z.to_nat (total_epochs mx pf)) N 0); rewrite ?Z2Nat.id by lia; auto; try nia; reflexivity|].
  intros (c, p') s' (R & G'). cbn [fst] in R. subst c. cbn [callbacks_finish]. apply hp_ret. rewrite Z2Nat.id in G' by lia. exact G'.
Qed.

Lemma call_plain N c m s : plain_call c -> 0 <= N -> N + call_cost c <= 2 ^ 53 -> Good N s -> mem_ok m ->
  hpost FO (run_call V K c m s) (fun m' s' => Good (N + call_cost c) s' /\ mem_ok m' /\ mem_effect c m m').
Proof.
  intros P N0 LE G MO. pose proof MO as ((data0 & E0 & L0) & C0 & F0). destruct c as [data|i|xs a|d k a|mx pf d v shuffle warm]; cbn [run_call call_cost plain_call mem_effect] in *; rewrite ?Z.add_0_r in *.
  - apply hp_ret. split; [exact G|]. cbn [new_block snd]. split; [split; [|split]|split; [reflexivity|split]]; cbn [m_block m_next m_cover].
    + exists data0. split; [|exact L0]. destruct (Nat.eqb_spec (m_cover m) (m_next m)); [lia|exact E0].
    + lia.
    + intros id H. destruct (Nat.eqb_spec id (m_next m)); [lia|]. apply F0. lia.
    + rewrite Nat.eqb_refl. reflexivity.
    + intros id H. destruct (Nat.eqb_spec id (m_next m)); [congruence|reflexivity].
  - destruct (m_block m i) as [[[] dat]|] eqn:EI; [apply hp_ret; auto 10| |apply hp_ret; auto 10]. apply hp_ret. split; [exact G|].
    assert (NI : i <> m_cover m) by (intros ->; rewrite E0 in EI; discriminate).
    split; [split; [|split]|split; [reflexivity|split]]; cbn [set_block m_block m_next m_cover].
    + exists data0. split; [|exact L0]. destruct (Nat.eqb_spec (m_cover m) i); [congruence|exact E0].
    + exact C0.
    + intros id H. destruct (Nat.eqb id i); [reflexivity|]. apply F0, H.
    + intros id H. apply Nat.eqb_neq in H. rewrite H. reflexivity.
    + right. rewrite Nat.eqb_refl. split; [reflexivity|exists dat; reflexivity].
  - destruct P as (-> & FX). unfold cover_predict. destruct (new_block _ m) as (out, m1) eqn:EN. injection EN as <- <-.
    set (m1 := {| m_block := _; m_next := _; m_cover := _ |}) in *.
    assert (M1 : mem_ok m1).
    { split; [|split]; cbn [m1 m_block m_next m_cover].
      - exists data0. split; [|exact L0]. destruct (Nat.eqb_spec (m_cover m) (m_next m)); [lia|exact E0].
      - lia.
      - intros id H. destruct (Nat.eqb_spec id (m_next m)); [lia|]. apply F0. lia. }
    destruct (zero_ok m1 M1) as (m2 & E2 & M2 & (Q1 & Q2 & Q3) & _). cbn [set_cover]. rewrite E2. cbn [obind].
    eapply hp_bind with (P := fun r s' => Good N s' /\ exists dat, snd r = set_block (m_next m) (Some (mkBlock System dat)) m2).
    { apply hp_lift_ok. eapply hp_bind; [apply (predict_call_spec FO V K kf wf mt CO VO HT N); auto; apply own_cover, M2|].
      intros ps s' (_ & G'). apply hp_ret. split; [exact G'|]. exists (concat ps). reflexivity. }
    intros (r, m3) s' (G' & dat & E3). cbn [snd] in E3. subst m3. apply hp_ret. cbn [snd]. split; [exact G'|].
    assert (CV : m_cover m2 = m_cover m) by exact Q1. assert (NX : m_next m2 = S (m_next m)) by exact Q2.
    destruct M2 as ((d2 & B2 & L2) & C2 & F2). split; [split; [|split]|split; [exact CV|split]]; cbn [set_block m_block m_next m_cover].
    + exists d2. split; [|exact L2]. destruct (Nat.eqb_spec (m_cover m2) (m_next m)); [lia|exact B2].
    + lia.
    + intros id H. destruct (Nat.eqb_spec id (m_next m)); [lia|apply F2, H].
    + exists dat. rewrite Nat.eqb_refl. reflexivity.
    + intros id H3 H4. destruct (Nat.eqb_spec id (m_next m)); [congruence|]. rewrite (Q3 id H3). cbn [m1 m_block]. apply Nat.eqb_neq in H4. rewrite H4. reflexivity.
  - destruct P as (-> & D). unfold cover_score. destruct (zero_ok m MO) as (m1 & E1 & M1 & OC & _). cbn [set_cover]. rewrite E1. cbn [obind].
    eapply hp_bind with (P := fun r s' => Good N s' /\ snd r = m1).
    { apply hp_lift_ok. eapply hp_bind with (P := fun _ s' => Good N s').
      - unfold py_score. destruct (Z.ltb_spec 1 k).
        + eapply hp_mono; [apply (score_n_spec FO V K kf wf mt CO VO HT N); auto; [lia|apply own_cover, M1]|]. intros e s' (_ & G'). exact G'.
        + eapply hp_mono; [apply (score_spec FO V K kf wf mt CO VO HT N); auto; apply own_cover, M1|]. intros e s' (es & _ & _ & _ & G'). exact G'.
      - intros e s' G'. apply hp_ret. auto. }
    intros (r, m2) s' (G' & E2). cbn [snd] in E2. subst m2. apply hp_ret. auto.
  - destruct P as (H1 & H2 & H3 & D & DV).
    assert (CF : exists m1, cover_fit K warm (match v with Some _ => true | None => false end) m = Ok m1 /\ mem_ok m1 /\ mem_effect (PFit mx pf d v shuffle warm) m m1).
    { unfold cover_fit. destruct warm.
      - cbn [obind]. destruct v as [t|].
        + destruct (zero_ok m MO) as (m1 & E1 & M1 & OC & _). exists m1. auto.
        + exists m. split; [reflexivity|]. split; [exact MO|]. split; [reflexivity|]. split; reflexivity.
      - unfold cover_free. rewrite E0. cbn [b_owner obind]. set (m1 := cover_init K (set_block (m_cover m) None m)).
        assert (M1 : mem_ok m1 /\ m_cover m1 = m_next m /\ m_block m1 (m_cover m) = None /\ (forall id, id <> m_cover m -> id <> m_next m -> m_block m1 id = m_block m id)).
        { unfold m1, cover_init, mem_ok. cbn [new_block aim set_block m_block m_next m_cover]. rewrite Nat.eqb_refl. split; [split; [|split]|split; [reflexivity|split]].
          - exists (zeros (pa_size K)). split; [reflexivity|apply zeros_len, pa_size_nonneg].
          - lia.
          - intros id H. destruct (Nat.eqb_spec id (m_next m)); [lia|]. destruct (Nat.eqb id (m_cover m)); [reflexivity|]. apply F0. lia.
          - destruct (Nat.eqb_spec (m_cover m) (m_next m)); [lia|]. rewrite Nat.eqb_refl. reflexivity.
          - intros id A1 A2. apply Nat.eqb_neq in A1. apply Nat.eqb_neq in A2. rewrite A1, A2. reflexivity. }
        destruct M1 as (M1 & Q1 & Q2 & Q3). destruct v as [t|].
        + destruct (zero_ok m1 M1) as (m2 & E2 & M2 & (R1 & R2 & R3) & _). exists m2. split; [exact E2|]. split; [exact M2|]. cbn [mem_effect].
          split; [congruence|]. split; [rewrite R3; [exact Q2|rewrite Q1; lia]|]. intros id A1 A2. rewrite R3; [apply Q3; auto|rewrite Q1; exact A2].
        + exists m1. split; [reflexivity|]. split; [exact M1|]. cbn [mem_effect]. auto. }
    destruct CF as (m1 & E1 & M1 & EF). rewrite E1. apply hp_lift_ok. eapply hp_bind; [apply (fit_good N mx pf d v shuffle warm s); auto|].
    intros r0 s' G'. apply hp_ret. auto.
Qed.

(** Any program that never passes a cover array: its own arrays are untouched, and the system can be
    freed at any time. *)
Lemma C56_plain_lemma cs : forall N m s, Forall plain_call cs -> 0 <= N -> N + fold_right (fun c z => call_cost c + z) 0 cs <= 2 ^ 53 -> Good N s -> mem_ok m ->
  hpost FO (run_calls V K cs m s) (fun m' s' => mem_ok m' /\ (exists m2, cover_free m' = Ok m2) /\
    forall id data, m_block m id = Some (mkBlock Python data) -> ~ In (PDrop id) cs -> m_block m' id = Some (mkBlock Python data)).
Proof.
  induction cs as [|c cs IH]; intros N m s F N0 LE G MO; cbn [run_calls].
  - apply hp_ret. split; [exact MO|]. split; [|auto]. destruct MO as ((data & E & _) & _). unfold cover_free. rewrite E. eexists. reflexivity.
  - inversion F as [|? ? F1 F2]; subst. cbn [fold_right] in LE. pose proof (call_cost_nonneg c F1).
    assert (0 <= fold_right (fun c z => call_cost c + z) 0 cs) by (clear -F2; induction F2 as [|c cs H _ IH]; cbn; [lia|]; pose proof (call_cost_nonneg c H); lia).
    eapply hp_bind; [apply (call_plain N c m s); auto; lia|]. intros m1 s1 (G1 & M1 & EF).
    eapply hp_mono; [apply (IH (N + call_cost c) m1 s1); auto; lia|]. intros m' s' (A & C & D). split; [exact A|]. split; [exact C|].
    intros id data E ND. apply D; [|intros H'; apply ND; right; exact H']. rewrite <- E. pose proof MO as ((data0 & E0 & L0) & C0 & F0).
    assert (NC : id <> m_cover m) by (intros ->; rewrite E0 in E; discriminate).
    assert (NN : id <> m_next m) by (intros ->; rewrite F0 in E by lia; discriminate).
    destruct c as [dat|i|xs a|d k a|mx pf d v shuffle warm]; cbn [mem_effect] in EF.
    + apply EF, NN.
    + apply EF. intros ->. apply ND. left. reflexivity.
    + apply EF; auto.
    + apply EF; auto.
    + destruct warm; apply EF; auto.
Qed.
(** The destructor: xcsf_free at the end of a program. *)

(** ** With a cover array of the caller. *)
(** The call itself changes no array; but from then on xcsf->cover is the caller's array: the
    system's own is lost, and freeing the system would free the caller's. *)
Lemma C56_array_lemma N d k id data m s : n_actions K = 1 -> 0 <= N -> Good N s -> data_ok (dom := dom) K d -> mem_ok m ->
  m_block m id = Some (mkBlock Python data) -> Z.of_nat (length data) = y_dim K ->
  hpost FO (run_call V K (PScore d k (ArrayCover id)) m s) (fun m' s' => Good N s' /\
    (forall j, m_block m' j = m_block m j) /\ m_cover m' = id /\ m_cover m <> id /\
    (exists own, m_block m' (m_cover m) = Some (mkBlock System own)) /\
    cover_free m' = UB DoubleFree /\
    exists m2, cover_zero K m' = Ok m2 /\ m_block m2 id = Some (mkBlock Python (zeros (y_dim K)))).
Proof.
  intros A1 N0 G D MO E L. pose proof MO as ((data0 & E0 & L0) & C0 & F0). cbn [run_call]. unfold cover_score. cbn [set_cover]. rewrite E. cbn [b_data]. rewrite L, Z.eqb_refl.
  assert (PS : pa_size K = y_dim K) by (unfold pa_size; rewrite A1; lia).
  assert (CV : cover_ok K (Some (cover_data (aim id m)))).
  { intros cv [= <-]. unfold cover_data. cbn [aim m_block m_cover]. rewrite E. cbn [b_data]. rewrite A1. lia. }
  eapply hp_bind with (P := fun r s' => Good N s' /\ snd r = aim id m).
  { apply hp_lift_ok. eapply hp_bind with (P := fun _ s' => Good N s').
    - unfold py_score. destruct (Z.ltb_spec 1 k).
      + eapply hp_mono; [apply (score_n_spec FO V K kf wf mt CO VO HT N); auto; lia|]. intros e s' (_ & G'). exact G'.
      + eapply hp_mono; [apply (score_spec FO V K kf wf mt CO VO HT N); auto|]. intros e s' (es & _ & _ & _ & G'). exact G'.
    - intros e s' G'. apply hp_ret. auto. }
  intros (r, m2) s' (G' & E2). cbn [snd] in E2. subst m2. apply hp_ret. cbn [snd]. split; [exact G'|]. split; [reflexivity|]. split; [reflexivity|].
  split; [intros Q; rewrite <- Q, E0 in E; discriminate|]. split; [exists data0; exact E0|]. unfold cover_free, cover_zero. cbn [aim m_block m_cover]. rewrite E. cbn [b_owner b_data].
  split; [reflexivity|]. rewrite PS, L, Z.ltb_irrefl. eexists. split; [reflexivity|]. cbn [set_block m_block]. rewrite Nat.eqb_refl, skipn_all2, app_nil_r by lia. reflexivity.
Qed.
End Own.

(** ** Concrete programs. *)
Definition py_mem (K : cfg) : mem := cover_init K (mkMem (fun _ => None) 0 0).
(** One output, [n] actions. *)
Definition Kn (n : Z) : cfg := demo_cfg n 1 8 false true false false.
Definition ends {U} (n : Z) (cs : list pycall) (s : st body) (f : mem -> U) : outcome U :=
  match run_calls (rect_tab (Kn n)) (Kn n) cs (py_mem (Kn n)) s with Ok (m, _) => Ok (f m) | Exit => Exit | UB k => UB k | OutOfFuel => OutOfFuel end.
Definition fresh_run {U} (n : Z) (cs : list pycall) (f : mem -> U) : option (outcome U) :=
  match xcsf_init (rect_tab (Kn n)) (Kn n) (blank_state 1) with Ok (_, s) => Some (ends n cs s f) | _ => None end.
Lemma fresh_found {U} n cs (f : mem -> U) r : 1 <= n <= int_max -> fresh_run n cs f = Some r -> exists s, Good (Kn n) 0 0 (rect_wf (Kn n)) s /\ ends n cs s f = r.
Proof.
  intros Hn. unfold fresh_run. intros H. pose proof (init_spec False (rect_tab (Kn n)) (Kn n) 0 (rect_wf (Kn n)) (rect_mt (Kn n))
    (demo_cfg_ok n 1 8 false true false false Hn ltac:(lia) ltac:(unfold int_max; lia))
    (rect_tab_ok (Kn n) False ltac:(cbn; lia) ltac:(cbn; lia) Hn) (blank_state 1) ltac:(reflexivity)) as I.
  destruct (xcsf_init (rect_tab (Kn n)) (Kn n) (blank_state 1)) as [[[] s]| | |]; try discriminate H. exists s. split; [apply I|]. injection H as H. exact H.
Qed.
Lemma py_mem_ok K : 0 <= pa_size K -> mem_ok K (py_mem K).
Proof.
  intros P. unfold py_mem, cover_init, mem_ok. cbn [new_block aim m_block m_next m_cover]. cbn [Nat.eqb]. split; [|split; [lia|]].
  - exists (zeros (pa_size K)). split; [reflexivity|]. unfold zeros. rewrite repeat_length. lia.
  - intros [|id] H; [lia|reflexivity].
Qed.
Definition contents (o : option block) : option (owner * list (option Z)) :=
  match o with Some b => Some (b_owner b, map to_int (b_data b)) | None => None end.

(** a = array([1.0]); score(X, Y, cover=a); score(X, Y): the caller's array is overwritten, the
    system's own (block 0) is never freed. *)
Definition prog_write : list pycall := [PNew [f1]; PScore demo_data 0 (ArrayCover 1); PScore demo_data 0 NoCover].
(** ...; fit(X, Y, warm_start=False): the caller's array is passed to free(). *)
Definition prog_free : list pycall := [PNew [f1]; PScore demo_data 0 (ArrayCover 1); PFit 1 1 demo_data None false false].
(** score(X, Y, cover=[1.0]): the converted array is gone before it is read. *)
Definition prog_list : list pycall := [PScore demo_data 0 (ConvertedCover [f1])].
(** Two actions: one value per output is accepted, one per action and output is read. *)
Definition prog_short : list pycall := [PNew [f1]; PScore demo_data 0 (ArrayCover 1)].
(** predict(X); predict(X): the output arrays are never freed. *)
Definition prog_leak : list pycall := [PPredict [[f0; f1]] NoCover; PPredict [[f0; f1]] NoCover].
Definition both (m : mem) := (m_cover m, map (fun i => contents (m_block m i)) [0; 1]%nat).
Definition three (m : mem) := (m_cover m, map (fun i => contents (m_block m i)) [0; 1; 2]%nat).
Notation starts n s := (Good (Kn n) 0 0 (rect_wf (Kn n)) s /\ mem_ok (Kn n) (py_mem (Kn n))).
Lemma C56_refuted_lemma : exists s, starts 1 s /\ ends 1 prog_write s both = Ok (1%nat, [Some (System, [Some 0]); Some (Python, [Some 0])]).
Proof. edestruct (fresh_found 1 prog_write both) as (s & G & E); [unfold int_max; lia|vm_compute; reflexivity|]. exists s. split; [split; [exact G|apply py_mem_ok; vm_compute; discriminate]|exact E]. Qed.
Lemma C56_refuted_free_lemma : exists s, starts 1 s /\ ends 1 prog_free s both = UB DoubleFree.
Proof. edestruct (fresh_found 1 prog_free both) as (s & G & E); [unfold int_max; lia|vm_compute; reflexivity|]. exists s. split; [split; [exact G|apply py_mem_ok; vm_compute; discriminate]|exact E]. Qed.
Lemma C56_refuted_list_lemma : exists s, starts 1 s /\ ends 1 prog_list s both = UB OutOfBounds.
Proof. edestruct (fresh_found 1 prog_list both) as (s & G & E); [unfold int_max; lia|vm_compute; reflexivity|]. exists s. split; [split; [exact G|apply py_mem_ok; vm_compute; discriminate]|exact E]. Qed.
Lemma C56_refuted_short_lemma : exists s, starts 2 s /\ ends 2 prog_short s both = UB OutOfBounds.
Proof. edestruct (fresh_found 2 prog_short both) as (s & G & E); [unfold int_max; lia|vm_compute; reflexivity|]. exists s. split; [split; [exact G|apply py_mem_ok; vm_compute; discriminate]|exact E]. Qed.
Lemma C56_refuted_leak_lemma : exists s, starts 1 s /\ ends 1 prog_leak s three = Ok (0%nat, [Some (System, [Some 0]); Some (System, [Some 0]); Some (System, [Some 0])]).
Proof. edestruct (fresh_found 1 prog_leak three) as (s & G & E); [unfold int_max; lia|vm_compute; reflexivity|]. exists s. split; [split; [exact G|apply py_mem_ok; vm_compute; discriminate]|exact E]. Qed.

(** ** The limit of score. *)
Section Limit.
Context (FO : Prop) {B : Type} (V : vtab B) (K : cfg) (kf : Z) (wf : B -> Prop) (mt : B -> list f64 -> Prop) {dom : list f64 -> Prop}.
Hypothesis CO : cfg_ok K kf.
Hypothesis VO : vt_ok (dom := dom) FO V K wf mt.
Hypothesis HT : ea_tournament K = true -> FO.
(** [limit]: how many rows are looked at. *)
Lemma C63_lemma N d n cover s : 0 <= N -> Good K kf N wf s -> data_ok (dom := dom) K d -> cover_ok K cover ->
  hpost FO (py_score V K d n cover s) (fun e s' => exists rows es, let k := if 1 <? n then Z.min n (n_samples d) else n_samples d in
    length rows = length es /\ Z.of_nat (length es) = k /\ Forall (fun r => 0 <= r < n_samples d) rows /\
    (n <= 1 \/ n_samples d < n -> rows = map Z.of_nat (seq 0 (length es))) /\
    visited V K wf mt d cover rows es (with_explore false s) s' /\ e = fdiv (fold_left fadd es f0) (of_Z k) /\ Good K kf N wf s').
Proof.
  intros N0 G D C. unfold py_score. destruct (Z.ltb_spec 1 n) as [L|L].
  - eapply hp_mono; [apply (C54_score_lemma FO V K kf wf mt CO VO HT N); auto; lia|]. intros e s' (rows & es & H). exists rows, es.
    destruct H as (H1 & H2 & H3 & H4 & H5). cbv zeta. repeat (split; [assumption|]). split; [intros [?|?]; [lia|auto]|exact H5].
  - eapply hp_mono; [apply (C54_score_all_lemma FO V K kf wf mt CO VO HT N); auto|]. intros e s' (es & H1 & H2 & H3 & H4).
    exists (map Z.of_nat (seq 0 (length es))), es. cbv zeta. rewrite map_length, seq_length. split; [reflexivity|]. split; [exact H1|]. split; [|auto].
    apply Forall_forall. intros r Hr. apply in_map_iff in Hr. destruct Hr as (k & <- & Hk). apply in_seq in Hk. lia.
Qed.
End Limit.

(** ** Checkpoints. *)
Section Checkpoint.
Context {B : Type} (V : vtab B) (K : cfg).
(** The first observation with the least error (below DBL_MAX). *)
Definition lowest (h : list (obs (B := B))) : option obs :=
  fold_left (fun b o => if flt (o_error o) (best_error b) then Some o else b) h None.
Lemma lowest_snoc h o : lowest (h ++ [o]) = if flt (o_error o) (best_error (lowest h)) then Some o else lowest h.
Proof. unfold lowest. rewrite fold_left_app. reflexivity. Qed.
Lemma lowest_facts h : match lowest h with
  | None => forall o, In o h -> flt (o_error o) dbl_max = false
  | Some w => exists h1 h2, h = h1 ++ w :: h2 /\ nn (o_error w) /\ (forall o, In o h -> flt (o_error o) (o_error w) = false) /\
      (forall o, In o h1 -> fle (o_error o) (o_error w) = false)
  end.
Proof.
  induction h as [|o h IH] using rev_ind; [intros o []|]. rewrite lowest_snoc.
  assert (NEW : forall b : f64, (forall q, In q h -> flt (o_error q) b = false) -> flt (o_error o) b = true -> exists h1 h2, h ++ [o] = h1 ++ o :: h2 /\ nn (o_error o) /\
    (forall q, In q (h ++ [o]) -> flt (o_error q) (o_error o) = false) /\ forall q, In q h1 -> fle (o_error q) (o_error o) = false).
  { intros b A E. assert (OLD : forall q, In q h -> fle (o_error q) (o_error o) = false).
    { intros q Hq. specialize (A q Hq). destruct (fle (o_error q) (o_error o)) eqn:Q; [|reflexivity]. rewrite <- A. symmetry. eapply fle_flt_trans; eassumption. }
    exists h, []. split; [reflexivity|]. split; [apply (flt_nn _ _ E)|]. split; [|exact OLD].
    intros q Hq. apply in_app_or in Hq. destruct Hq as [Hq|[<-|[]]]; [|apply flt_irrefl]. specialize (OLD q Hq). destruct (flt (o_error q) (o_error o)) eqn:Q; [|reflexivity].
    rewrite <- OLD. symmetry. apply flt_fle, Q. }
  destruct (lowest h) as [w|] eqn:EL; cbn [best_error].
  - destruct IH as (h1 & h2 & E & Nw & A & F). destruct (flt (o_error o) (o_error w)) eqn:C; [apply (NEW _ A C)|].
    exists h1, (h2 ++ [o]). split; [rewrite E, <- app_assoc; reflexivity|]. split; [exact Nw|]. split; [|exact F].
    intros q Hq. apply in_app_or in Hq. destruct Hq as [Hq|[<-|[]]]; auto.
  - destruct (flt (o_error o) dbl_max) eqn:C; [apply (NEW _ IH C)|]. intros q Hq. apply in_app_or in Hq. destruct Hq as [Hq|[<-|[]]]; auto.
Qed.

Context (FO : Prop) (kf : Z) (wf : B -> Prop) (mt : B -> list f64 -> Prop) {dom : list f64 -> Prop}.
Hypothesis CO : cfg_ok K kf.
Hypothesis VO : vt_ok (dom := dom) FO V K wf mt.
Hypothesis HT : ea_tournament K = true -> FO.
Notation Good N := (Good K kf N wf).
(** What the epochs observe; nothing else touches the system. *)
Definition observed val d v shuffle nt i cnt h (s s' : st B) : Prop := watched V K 0 f0 val false d v shuffle nt i cnt [] h s s'.
Lemma watched_past start delta val d v shuffle nt h : forall i cnt past past' (s s' : st B),
  watched V K start delta val false d v shuffle nt i cnt past h s s' -> watched V K start delta val false d v shuffle nt i cnt past' h s s'.
Proof.
  induction h as [|o h IH]; intros i cnt past past' s s' W; [exact W|]. cbn [watched andb] in *. destruct W as (ev & s1 & A1 & A2 & A3 & A4 & A5).
  exists ev, s1. repeat (split; [assumption|]). eapply IH, A5.
Qed.

Section Loop.
Variables (val best_only : bool) (freq : Z) (d : input) (v : option input) (shuffle : bool) (nt : Z).
Hypothesis HF : 0 <= freq.
Hypothesis Hnt : 1 <= nt.
Hypothesis D : data_ok (dom := dom) K d.
Hypothesis DV : forall t, v = Some t -> data_ok (dom := dom) K t.
Lemma check_loop n : forall N i p s past c, 0 <= N -> N + Z.of_nat n * nt <= 2 ^ 53 -> Good N s -> 0 <= i -> 0 <= p_counter p ->
  (i + Z.of_nat n) * nt <= int_max -> (p_counter p + Z.of_nat n) * nt + freq <= int_max -> p_counter p + Z.of_nat n <= int_max ->
  ck_val c = val -> ck_best_only c = best_only -> ck_freq c = freq -> 0 <= ck_save_trial c <= p_counter p * nt ->
  (best_only = true -> freq = 0 -> ck_best_error c = best_error (lowest past)) ->
  hpost FO (fit_loop V K n i nt d v shuffle [Check c] p s) (fun r s' => exists h c' p', length h = n /\ r = ([Check c'], p') /\ ck_best_only c' = best_only /\
    observed val d v shuffle nt i (p_counter p) h s s' /\
    (best_only = true -> freq = 0 -> match lowest (past ++ h) with
       | None => p_files p' = p_files p
       | Some w => lowest past = Some w /\ p_files p' = p_files p \/ exists rest, p_files p' = o_sys w :: rest
       end)).
Proof.
  induction n as [|n IH]; intros N i p s past c N0 LE G Hi Hc O1 O2 O3 C1 C2 C3 C4 C5; cbn [fit_loop].
  - apply hp_ret. exists [], c, p. rewrite app_nil_r. split; [reflexivity|]. split; [reflexivity|]. split; [exact C2|]. split; [reflexivity|]. intros _ _. destruct (lowest past); auto.
  - eapply hp_bind; [apply (hp_with FO), (epoch_spec FO V K kf wf mt CO VO HT N d v shuffle nt i s); auto; nia|].
    intros ev u (EE & GD & Gu & _).
    unfold update_metrics. rewrite (cint_ok (1 + p_counter p)) by lia. cbn [obind]. rewrite (cint_ok ((1 + p_counter p) * nt)) by nia. cbn [obind].
    apply hp_lift_ok. set (o := ((1 + p_counter p) * nt, (if val then snd ev else fst ev), u) : obs (B := B)).
    cbn [callbacks_run p_trials p_val p_train newest]. set (q := {| p_counter := 1 + p_counter p; p_train := _; p_val := _; p_trials := _; p_files := _ |}) in *.
    eapply hp_bind with (P := fun (x : list callback * py * bool) s2 => exists c' q', x = ([Check c'], q', false) /\ s2 = u /\ p_counter q' = 1 + p_counter p /\
      ck_val c' = val /\ ck_best_only c' = best_only /\ ck_freq c' = freq /\ 0 <= ck_save_trial c' <= (1 + p_counter p) * nt /\
      (best_only = true -> freq = 0 -> ck_best_error c' = best_error (lowest (past ++ [o])) /\
         p_files q' = if flt (o_error o) (best_error (lowest past)) then u :: p_files p else p_files p)).
    { apply hp_lift_ok. rewrite C1. replace (newest (if val then snd ev :: p_val p else fst ev :: p_train p)) with (Ok (o_error o)) by (unfold o, o_error; cbn [fst snd]; destruct val; reflexivity).
      unfold check_run. rewrite C3. rewrite (cint_ok (ck_save_trial c + freq)) by nia. rewrite lowest_snoc.
      unfold mbind, mlift, mret, save, mget, mbind, mret. rewrite C2. destruct (Z.leb_spec (ck_save_trial c + freq) ((1 + p_counter p) * nt)) as [LD|LD].
      - destruct best_only; cbn [negb orb].
        + destruct (flt (o_error o) (ck_best_error c)) eqn:FL; cbn [ck_best_error]; rewrite ?FL; cbn [hpost].
          * do 2 eexists. split; [reflexivity|]. split; [reflexivity|]. split; [reflexivity|]. cbn [ck_val ck_best_only ck_freq ck_save_trial ck_best_error].
            split; [first [exact C1|reflexivity]|]. split; [first [exact C2|reflexivity]|]. split; [first [exact C3|reflexivity]|]. split; [nia|]. intros _ F0. rewrite <- (C5 eq_refl F0), FL. cbn [best_error]. auto.
          * do 2 eexists. split; [reflexivity|]. split; [reflexivity|]. split; [reflexivity|].
            split; [first [exact C1|reflexivity]|]. split; [first [exact C2|reflexivity]|]. split; [first [exact C3|reflexivity]|]. split; [nia|]. intros _ F0. rewrite <- (C5 eq_refl F0), FL. auto.
        + cbn [ck_best_error]. destruct (flt (o_error o) (ck_best_error c)); cbn [hpost]; do 2 eexists; (split; [reflexivity|]); (split; [reflexivity|]); (split; [reflexivity|]);
            cbn [ck_val ck_best_only ck_freq ck_save_trial ck_best_error]; (split; [first [exact C1|reflexivity]|]); (split; [first [exact C2|reflexivity]|]); (split; [first [exact C3|reflexivity]|]); (split; [nia|discriminate]).
      - cbn [hpost]. do 2 eexists. split; [reflexivity|]. split; [reflexivity|]. split; [reflexivity|]. split; [first [exact C1|reflexivity]|]. split; [first [exact C2|reflexivity]|]. split; [first [exact C3|reflexivity]|]. split; [nia|].
        intros _ F0. nia. }
    intros ((cs, q1), stop) s2 (c' & q' & [= -> -> ->] & -> & E1 & E2 & E3 & E4 & E5 & E6).
    eapply hp_mono; [apply (IH (N + nt) (i + 1) q' u (past ++ [o]) c'); rewrite ?E1; auto; try nia; intros Y1 Y2; apply (E6 Y1 Y2)|].
    intros r s' (h & c2 & p2 & H1 & -> & H3 & H4 & H5). exists (o :: h), c2, p2. split; [cbn [length]; lia|]. split; [reflexivity|]. split; [exact H3|]. split.
    + unfold observed in *. cbn [watched andb]. exists ev, u. split; [exact EE|]. split; [unfold o, o_trial; cbn [fst]; lia|]. split; [reflexivity|]. split; [reflexivity|].
      rewrite E1 in H4. replace (p_counter p + 1) with (1 + p_counter p) by lia. eapply watched_past, H4.
    + intros BO F0. specialize (H5 BO F0). destruct (E6 BO F0) as (_ & E7). replace (past ++ o :: h) with ((past ++ [o]) ++ h) by (rewrite <- app_assoc; reflexivity).
      rewrite lowest_snoc in H5. destruct (lowest ((past ++ [o]) ++ h)) as [w|] eqn:EW.
      * destruct H5 as [(H5 & H6)|H5]; [|right; exact H5]. rewrite H6, E7. destruct (flt (o_error o) (best_error (lowest past))); [|left; auto].
        injection H5 as <-. right. exists (p_files p). reflexivity.
      * rewrite H5, E7. destruct (flt (o_error o) (best_error (lowest past))) eqn:FL; [|reflexivity]. exfalso.
        unfold lowest in EW. rewrite !fold_left_app in EW. cbn [fold_left] in EW. fold (lowest past) in EW. rewrite FL in EW. clear -EW. revert EW. generalize o. clear.
        induction h as [|x h IH]; intros w; cbn [fold_left]; [discriminate|]. destruct (flt (o_error x) (best_error (Some w))); apply IH.
Qed.
End Loop.

Lemma C64_lemma N mx pf d v shuffle warm p s val best_only freq c : check_new val best_only freq = Return c ->
  1 <= mx <= int_max -> 1 <= pf <= int_max -> 0 <= N -> N + total_trials mx pf <= 2 ^ 53 -> Good N s ->
  data_ok (dom := dom) K d -> (forall t, v = Some t -> data_ok (dom := dom) K t) ->
  0 <= p_counter p -> (p_counter p + total_epochs mx pf) * Z.min mx pf + freq <= int_max -> p_counter p + total_epochs mx pf <= int_max ->
  hpost FO (py_fit V K mx pf d v shuffle warm [Check c] p s) (fun r s' => exists s0 h,
    (if warm then s0 = s else s_prev_pset s0 = empty_set /\ s_time s0 = 0) /\
    Z.of_nat (length h) = total_epochs mx pf /\ observed val d v shuffle (Z.min mx pf) 0 (p_counter p) h s0 s' /\
    (best_only = false -> exists rest, p_files (snd r) = s' :: rest) /\
    (best_only = true -> freq = 0 ->
       (p_files (snd r) = p_files p /\ forall o, In o h -> flt (o_error o) dbl_max = false) \/
       exists w h1 h2 rest, h = h1 ++ w :: h2 /\ p_files (snd r) = o_sys w :: rest /\ nn (o_error w) /\
         (forall o, In o h -> flt (o_error o) (o_error w) = false) /\ (forall o, In o h1 -> fle (o_error o) (o_error w) = false))).
Proof.
  intros CN H1 H2 N0 LE G DD DV C0 O2 O3. unfold check_new in CN. destruct (Z.ltb_spec freq 0) as [|P0]; [discriminate CN|].
  injection CN as <-. pose proof (epochs_bounds mx pf ltac:(lia) ltac:(lia)) as EB. assert (E1 : 1 <= total_epochs mx pf) by nia. unfold total_trials in LE.
  unfold py_fit. eapply hp_bind with (P := fun _ s0 => (if warm then s0 = s else s_prev_pset s0 = empty_set /\ s_time s0 = 0) /\ Good N s0).
  { destruct warm; [apply hp_ret; auto|]. destruct (free_spec K kf wf N s G) as (sf & EF & HE & _). unfold mbind. rewrite EF.
    eapply hp_mono; [apply (init_spec FO V K kf wf mt CO VO sf HE)|]. intros [] s0 ((I1 & I2 & _) & G0). split; [auto|]. eapply Good_mono; [|exact G0]. lia. }
  intros [] s0 (S0 & G0). rewrite (n_epochs_eq mx pf H1 H2). apply hp_lift_ok.
  eapply hp_bind; [apply (check_loop val best_only freq d v shuffle (epoch_trials mx pf) P0 ltac:(unfold epoch_trials; lia) DD DV (Z.to_nat (total_epochs mx pf)) N 0 p s0 [] _); unfold epoch_trials in *; rewrite ?Z2Nat.id by lia; auto; cbn [ck_save_trial]; try nia|].
  intros r s2 (h & c' & p' & A1 & -> & A3 & A4 & A5). cbn [callbacks_finish]. unfold check_finish. rewrite A3. cbn [app] in A5. pose proof (lowest_facts h) as LF.
  destruct best_only.
  - unfold mbind, mret. cbn [hpost snd]. exists s0, h. split; [exact S0|]. split; [lia|]. split; [exact A4|]. split; [discriminate|]. intros _ F0. specialize (A5 eq_refl F0).
    destruct (lowest h) as [w|].
    + right. destruct LF as (h1 & h2 & L1 & L2 & L3 & L4). destruct A5 as [(A5 & _)|(rest & A5)]; [discriminate A5|]. exists w, h1, h2, rest. auto.
    + left. auto.
  - unfold mbind, save, mbind, mget, mret. cbn [hpost snd p_files]. exists s0, h. split; [exact S0|]. split; [lia|]. split; [exact A4|]. split; [intros _; eexists; reflexivity|discriminate].
Qed.
End Checkpoint.

Lemma check_saves {B : Type} (c : check) e t (p : py) (s : st B) : cint (ck_save_trial c + ck_freq c) = Ok (ck_save_trial c + ck_freq c) ->
  ck_save_trial c + ck_freq c <= t -> flt e (ck_best_error c) = true ->
  check_run c e t p s = Ok ((mkCheck (ck_val c) (ck_best_only c) (ck_freq c) e t, mkPy (p_counter p) (p_train p) (p_val p) (p_trials p) (s :: p_files p)), s).
Proof.
  intros C L F. unfold check_run, mbind, mlift, mret, save, mget, mbind, mret. rewrite C. apply Z.leb_le in L. rewrite L, F, orb_true_r. cbn [ck_best_error]. rewrite F. reflexivity.
Qed.
(** With a save frequency, a better system between eligible trials is missed: errors 1, 1/2, 3/4
    after 2, 3 and 4 trials and save_freq = 2. *)
Lemma C64_refuted_lemma : exists c, check_new false true 2 = Return c /\ forall (B : Type) (s1 s2 s3 : st B) (p : py), exists c1 c2 c3 p1 p2 p3,
  check_run c f1 2 p s1 = Ok ((c1, p1), s1) /\ check_run c1 fhalf 3 p1 s2 = Ok ((c2, p2), s2) /\ check_run c2 (lit 3 4) 4 p2 s3 = Ok ((c3, p3), s3) /\
  p_files p3 = s3 :: s1 :: p_files p /\ flt fhalf (lit 3 4) = true /\ fle (lit 3 4) f1 = true.
Proof.
  eexists. split; [reflexivity|]. intros B s1 s2 s3 p. do 6 eexists.
  split; [apply check_saves; [reflexivity|cbn; lia|vm_compute; reflexivity]|]. split; [reflexivity|]. split; [apply check_saves; [reflexivity|cbn; lia|vm_compute; reflexivity]|].
  split; [reflexivity|]. split; vm_compute; reflexivity.
Qed.
