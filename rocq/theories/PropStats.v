(** * What is reported about the rules of a set (C79). *)
From Coq Require Import ZArith Bool List Reals Lia Lra.
From Flocq Require Import Core BinarySingleNaN.
From Verif Require Import Outcome F64 F64Facts F64Bounds Rng Arr ArrFacts Sam Pop PopSpec PopInv Clock Comp Act Layer LayerFacts MutFacts PropMut Net NetFacts NetChain RuleJson Stats.
From Verif Require Import Demo.
Import ListNotations.
Open Scope Z_scope.

Definition total (vs : list Z) : Z := fold_right Z.add 0 vs.
(** The rules [cs] are those of the set, in order. *)
Definition holds {B} (s : st B) (set : cset) (cs : list (cl B)) : Prop := map (s_heap s) (set_list set) = map Some cs.
(** The mean of the numbers [vs], rounded once; of no numbers, zero. *)
Definition mean_of (vs : list Z) (r : f64) : Prop :=
  is_finite r = true /\ B2R r = match vs with [] => 0%R | _ => rnd (IZR (total vs) / IZR (Z.of_nat (length vs))) end.
(** [m] changes nothing and gives the mean of [vs], unless their sum is not an int. *)
Definition reports {B} (m : M B f64) (vs : list Z) (s : st B) : Prop :=
  if total vs <? 2 ^ 31 then exists r, m s = Ok (r, s) /\ mean_of vs r else m s = UB IntOverflow.

Lemma total_nonneg vs : Forall (Z.le 0) vs -> 0 <= total vs.
Proof. unfold total. induction 1; cbn [fold_right]; lia. Qed.
Lemma total_in lo hi vs : Forall (fun v => lo <= v <= hi) vs -> lo * Z.of_nat (length vs) <= total vs <= hi * Z.of_nat (length vs).
Proof. unfold total. induction 1 as [|v vs H F IH]; cbn [fold_right length]; [lia|]. rewrite Nat2Z.inj_succ. nia. Qed.

Lemma cint_ok z : 0 <= z < 2 ^ 31 -> cint z = Ok z.
Proof. intros H. unfold cint. destruct (Z.leb_spec (- 2 ^ 31) z); [|lia]. destruct (Z.ltb_spec z (2 ^ 31)); [reflexivity|lia]. Qed.
Lemma cint_over z : 2 ^ 31 <= z -> cint z = UB IntOverflow.
Proof. intros H. unfold cint. destruct (Z.ltb_spec z (2 ^ 31)); [lia|]. rewrite andb_false_r. reflexivity. Qed.

Lemma sum_ints_ok {B} (f : cl B -> outcome Z) cs vs : Forall2 (fun c v => f c = Ok v) cs vs -> forall a k, Forall (Z.le 0) vs ->
  0 <= a < 2 ^ 31 -> 0 <= k -> k + Z.of_nat (length vs) < 2 ^ 31 ->
  sum_ints f cs a k = if a + total vs <? 2 ^ 31 then Ok (a + total vs, k + Z.of_nat (length vs)) else UB IntOverflow.
Proof.
  induction 1 as [|c v cs vs E F IH]; intros a k N Ha Hk L; cbn [sum_ints total fold_right length].
  - destruct (Z.ltb_spec (a + 0) (2 ^ 31)); [|lia]. f_equal. f_equal; lia.
  - inversion N as [|? ? Nv N']; subst. cbn [length] in L. rewrite E. cbn [obind]. pose proof (total_nonneg _ N') as T. unfold total in T.
    destruct (Z.lt_ge_cases (a + v) (2 ^ 31)) as [H|H].
    + rewrite cint_ok by lia. cbn [obind]. rewrite cint_ok by lia. cbn [obind]. rewrite IH by (try assumption; lia). unfold total.
      replace (a + v + fold_right Z.add 0 vs) with (a + (v + fold_right Z.add 0 vs)) by lia.
      destruct (a + (v + fold_right Z.add 0 vs) <? 2 ^ 31); [|reflexivity]. f_equal. f_equal. lia.
    + rewrite cint_over by exact H. cbn [obind]. destruct (Z.ltb_spec (a + (v + fold_right Z.add 0 vs)) (2 ^ 31)); [lia|reflexivity].
Qed.

Lemma quotient_in lo hi t n : Z.abs lo <= 2 ^ 53 -> Z.abs hi <= 2 ^ 53 -> Z.abs t <= 2 ^ 53 -> 0 < n <= 2 ^ 53 -> lo * n <= t <= hi * n ->
  is_finite (fdiv (of_Z t) (of_Z n)) = true /\ B2R (fdiv (of_Z t) (of_Z n)) = rnd (IZR t / IZR n) /\
  (IZR lo <= B2R (fdiv (of_Z t) (of_Z n)) <= IZR hi)%R.
Proof.
  intros L H T N I. destruct (of_Z_fin t T) as [Ft Et]. destruct (of_Z_fin n ltac:(lia)) as [Fn En].
  assert (P : (0 < IZR n)%R) by (apply IZR_lt; lia).
  assert (Q : (IZR lo <= IZR t / IZR n <= IZR hi)%R).
  { destruct I as [I1 I2]. apply IZR_le in I1. apply IZR_le in I2. rewrite mult_IZR in I1, I2.
    split; [apply Rmult_le_reg_r with (IZR n)|apply Rmult_le_reg_r with (IZR n)]; try exact P;
    replace (IZR t / IZR n * IZR n)%R with (IZR t) by (field; lra); assumption. }
  assert (B : forall z, Z.abs z <= 2 ^ 53 -> (- bnd < IZR z < bnd)%R).
  { intros z Hz. change bnd with (IZR (2 ^ 1024)). rewrite <- opp_IZR. assert (2 ^ 53 < 2 ^ 1024) by (apply Z.pow_lt_mono_r; lia). split; apply IZR_lt; lia. }
  assert (NZ : B2R (of_Z n : f64) <> 0%R) by (rewrite En; lra).
  assert (Q' : (IZR lo <= B2R (of_Z t : f64) / B2R (of_Z n : f64) <= IZR hi)%R) by (rewrite Et, En; exact Q).
  destruct (fdiv_R (of_Z t) (of_Z n) Ft Fn NZ (rnd_in_abs _ _ (format_IZR _ L) (format_IZR _ H) (proj1 (B _ L)) (proj2 (B _ H)) _ Q')) as [F E].
  split; [exact F|]. rewrite E, Et, En. split; [reflexivity|]. apply rnd_in; [apply format_IZR, L|apply format_IZR, H|exact Q].
Qed.

Section Means.
Context {B : Type}.
Lemma mean_ints_ok (f : cl B -> outcome Z) set s cs vs : holds s set cs -> Forall2 (fun c v => f c = Ok v) cs vs -> Forall (Z.le 0) vs ->
  Z.of_nat (length vs) < 2 ^ 31 -> reports (mean_ints true f set) vs s.
Proof.
  intros H F N L. unfold reports, mean_ints, mbind. rewrite (get_all_eq _ _ _ H). rewrite (sum_ints_ok _ _ _ F) by (try assumption; lia).
  rewrite Z.add_0_l. destruct (Z.ltb_spec (total vs) (2 ^ 31)) as [T|T]; [|reflexivity]. cbn [mlift]. eexists. split; [reflexivity|].
  cbn [fst snd]. destruct vs as [|v vs']; [split; reflexivity|]. set (vs := v :: vs') in *. pose proof (total_nonneg _ N) as TN.
  assert (1 <= Z.of_nat (length vs)) by (unfold vs; cbn [length]; lia).
  destruct (Z.eqb_spec (0 + Z.of_nat (length vs)) 0); [lia|]. rewrite Z.add_0_l.
  destruct (quotient_in 0 (2 ^ 31) (total vs) (Z.of_nat (length vs))) as (F1 & F2 & _); try lia; try (cbn; lia).
  split; [exact F1|exact F2].
Qed.
Lemma mean_between lo hi vs r : Forall (fun v => lo <= v <= hi) vs -> vs <> [] -> 0 <= lo -> hi < 2 ^ 31 -> total vs < 2 ^ 31 ->
  Z.of_nat (length vs) < 2 ^ 31 -> mean_of vs r -> (IZR lo <= B2R r <= IZR hi)%R.
Proof.
  intros F N Lo Hi T L (_ & E). destruct vs as [|v vs']; [contradiction|]. set (vs := v :: vs') in *. rewrite E.
  pose proof (total_in _ _ _ F) as I. assert (0 <= total vs) by (apply total_nonneg; eapply Forall_impl; [|exact F]; cbn; intros; lia).
  assert (lo <= hi) by (inversion F; subst; lia). assert (1 <= Z.of_nat (length vs)) by (unfold vs; cbn [length]; lia).
  destruct (quotient_in lo hi (total vs) (Z.of_nat (length vs))) as (_ & F2 & F3); try lia. rewrite <- F2. exact F3.
Qed.

(** Sums of doubles. *)
Lemma sum_sizes_ok (f : cl B -> outcome f64) cs vs : Forall2 (fun c v => f c = Ok (of_Z v)) cs vs -> Forall (Z.le 0) vs -> forall x a k,
  is_finite x = true -> B2R x = IZR a -> 0 <= a -> a + total vs <= 2 ^ 53 -> 0 <= k -> k + Z.of_nat (length vs) < 2 ^ 31 ->
  exists y, sum_dbls f cs x k = Ok (y, k + Z.of_nat (length vs)) /\ is_finite y = true /\ B2R y = IZR (a + total vs).
Proof.
  induction 1 as [|c v cs vs E F IH]; intros N x a k Fx Ex Ha T Hk L; cbn [sum_dbls total fold_right length] in *.
  - exists x. rewrite !Z.add_0_r. auto.
  - inversion N as [|? ? Nv N']; subst. rewrite E. cbn [obind]. rewrite cint_ok by lia. cbn [obind]. pose proof (total_nonneg _ N') as TN. unfold total in TN, IH.
    destruct (of_Z_fin v ltac:(lia)) as [Fv Ev].
    assert (R : rnd (B2R x + B2R (of_Z v : f64)) = IZR (a + v)) by (rewrite Ex, Ev, <- plus_IZR; apply rnd_IZR; lia).
    destruct (fadd_R x (of_Z v) Fx Fv) as [F1 E1].
    { rewrite R. rewrite <- abs_IZR. change bnd with (IZR (2 ^ 1024)). apply IZR_lt. assert (2 ^ 53 < 2 ^ 1024) by (apply Z.pow_lt_mono_r; lia). lia. }
    rewrite R in E1. destruct (IH N' (fadd x (of_Z v)) (a + v) (k + 1) F1 E1) as (y & Y1 & Y2 & Y3); try lia.
    exists y. rewrite Y1. split; [f_equal; f_equal; lia|]. split; [exact Y2|]. rewrite Y3. f_equal. unfold total. lia.
Qed.
Lemma mean_sizes_ok (f : cl B -> f64) set s cs vs : holds s set cs -> Forall2 (fun c v => f c = of_Z v) cs vs -> Forall (Z.le 0) vs -> vs <> [] ->
  Z.of_nat (length vs) < 2 ^ 31 -> total vs <= 2 ^ 53 ->
  exists r, mean_sizes f set s = Ok (r, s) /\ mean_of vs r.
Proof.
  intros H F N NE L T. unfold mean_sizes, mbind. rewrite (get_all_eq _ _ _ H).
  assert (F' : Forall2 (fun c v => Ok (f c) = Ok (of_Z v)) cs vs) by (clear -F; induction F; constructor; [congruence|assumption]).
  destruct (sum_sizes_ok (fun c => Ok (f c)) cs vs F' N f0 0 0) as (y & Y1 & Y2 & Y3); try reflexivity; try lia.
  rewrite Y1. cbn [mlift fst snd]. eexists. split; [reflexivity|]. rewrite Z.add_0_l in *.
  destruct vs as [|v vs']; [contradiction|]. set (vs := v :: vs') in *. pose proof (total_nonneg _ N) as TN.
  assert (1 <= Z.of_nat (length vs)) by (unfold vs; cbn [length]; lia).
  destruct (of_Z_fin (Z.of_nat (length vs)) ltac:(lia)) as [Fn En].
  destruct (quotient_in 0 (2 ^ 53) (total vs) (Z.of_nat (length vs))) as (F1 & F2 & F3); try lia; try nia.
  assert (NZ : B2R (of_Z (Z.of_nat (length vs)) : f64) <> 0%R) by (rewrite En; apply not_0_IZR; lia).
  destruct (of_Z_fin (total vs) ltac:(lia)) as [Ft Et].
  destruct (fdiv_R y (of_Z (Z.of_nat (length vs))) Y2 Fn NZ) as [D1 D2].
  { rewrite Y3, En, <- F2. destruct F3. apply Rabs_between with 0%R (IZR (2 ^ 53)); [split; assumption| |];
    change bnd with (IZR (2 ^ 1024)); rewrite <- ?opp_IZR; apply IZR_lt; [apply Z.opp_neg_pos|]; [apply Z.pow_pos_nonneg; lia|apply Z.pow_lt_mono_r; lia]. }
  split; [exact D1|]. rewrite D2, Y3, En. reflexivity.
Qed.
(** Rates between zero and one: so is their mean. *)
Definition unit_rate (x : f64) : Prop := fin_in 0 1 x.
Lemma sum_rates_ok (f : cl B -> outcome f64) cs xs : Forall2 (fun c x => f c = Ok x) cs xs -> Forall unit_rate xs -> forall x k,
  fin_in 0 (IZR k) x -> 0 <= k -> k + Z.of_nat (length xs) < 2 ^ 31 ->
  exists y, sum_dbls f cs x k = Ok (y, k + Z.of_nat (length xs)) /\ fin_in 0 (IZR (k + Z.of_nat (length xs))) y.
Proof.
  induction 1 as [|c v cs xs E F IH]; intros U x k I Hk L; cbn [sum_dbls length] in *.
  - exists x. rewrite Z.add_0_r. auto.
  - inversion U as [|? ? Uv U']; subst. rewrite E. cbn [obind]. rewrite cint_ok by lia. cbn [obind].
    destruct I as [Fx Rx]. destruct Uv as [Fv Rv].
    assert (I' : fin_in 0 (IZR (k + 1)) (fadd x v)).
    { apply fadd_in; try assumption; [apply fmt_0|apply format_IZR; lia| | |rewrite plus_IZR; lra].
      - assert (0 < bnd)%R by (apply bpow_gt_0). lra.
      - change bnd with (IZR (2 ^ 1024)). apply IZR_lt. assert (2 ^ 31 < 2 ^ 1024) by (apply Z.pow_lt_mono_r; lia). lia. }
    destruct (IH U' (fadd x v) (k + 1) I') as (y & Y1 & Y2); try lia. exists y. rewrite Y1.
    replace (k + 1 + Z.of_nat (length xs)) with (k + Z.of_nat (S (length xs))) in * by lia. auto.
Qed.
Lemma mean_rates_ok (f : cl B -> outcome f64) set s cs xs : holds s set cs -> Forall2 (fun c x => f c = Ok x) cs xs -> Forall unit_rate xs ->
  Z.of_nat (length xs) < 2 ^ 31 -> exists r, mean_dbls true f set s = Ok (r, s) /\ unit_rate r.
Proof.
  intros H F U L. unfold mean_dbls, mbind. rewrite (get_all_eq _ _ _ H).
  destruct (sum_rates_ok f cs xs F U f0 0) as (y & Y1 & Y2 & Y3); [split; [reflexivity|rewrite f0_R; lra]|lia|lia|].
  rewrite Y1. cbn [mlift fst snd]. rewrite Z.add_0_l in *. eexists. split; [reflexivity|].
  destruct (Z.eqb_spec (Z.of_nat (length xs)) 0) as [E|E]; [split; [reflexivity|rewrite f0_R; lra]|].
  destruct (of_Z_fin (Z.of_nat (length xs)) ltac:(lia)) as [Fn En].
  assert (P : (0 < IZR (Z.of_nat (length xs)))%R) by (apply IZR_lt; lia).
  apply fdiv_in; try assumption; [apply fmt_0|apply fmt_1| |apply one_lt_bnd|rewrite En; lra|].
  - assert (0 < bnd)%R by (apply bpow_gt_0). lra.
  - rewrite En. split.
    + apply Rmult_le_pos; [lra|]. left. apply Rinv_0_lt_compat, P.
    + apply Rmult_le_reg_r with (IZR (Z.of_nat (length xs))); [exact P|].
      replace (B2R y / IZR (Z.of_nat (length xs)) * IZR (Z.of_nat (length xs)))%R with (B2R y) by (field; lra). lra.
Qed.
Lemma empty_sizes (f : cl B -> f64) set s : set_list set = [] -> mean_sizes f set s = Ok (fnan, s).
Proof. intros E. unfold mean_sizes. rewrite E. reflexivity. Qed.
End Means.

(** ** Layers *)
Definition nth_layer (n : nn f64) (k : Z) : option (layer f64) := if k <? 0 then None else nth_error (nn_layers n) (Z.to_nat k).
Definition neurons_of (n : nn f64) (k : Z) : Z :=
  match nth_layer n k with Some l => if l_type l =? CONVOLUTIONAL then l_n_filters l else l_n_outputs l | None => 0 end.
Definition connections_of (n : nn f64) (k : Z) : Z := match nth_layer n k with Some l => l_n_active l | None => 0 end.
Definition eta_of (n : nn f64) (k : Z) : f64 := match nth_layer n k with Some l => l_eta l | None => f0 end.
Definition layers_of (n : nn f64) : Z := Z.of_nat (length (nn_layers n)).

Lemma layer_at_nth ls : forall i k, layer_at ls i k = if k <? i then None else nth_error ls (Z.to_nat (k - i)).
Proof.
  induction ls as [|l r IH]; intros i k; cbn [layer_at]; [destruct (k <? i); [reflexivity|destruct (Z.to_nat (k - i)); reflexivity]|].
  rewrite IH. destruct (Z.eqb_spec i k) as [->|E].
  - rewrite Z.ltb_irrefl, Z.sub_diag. reflexivity.
  - destruct (Z.ltb_spec k i), (Z.ltb_spec k (i + 1)); try lia; [reflexivity|].
    replace (Z.to_nat (k - i)) with (S (Z.to_nat (k - (i + 1)))) by lia. reflexivity.
Qed.
Lemma nth_layer_eq n k : layer_at (nn_layers n) 0 k = nth_layer n k.
Proof. rewrite layer_at_nth. unfold nth_layer. rewrite Z.sub_0_r. reflexivity. Qed.
Lemma neurons_eq n k : net_neurons n k = neurons_of n k.
Proof. unfold net_neurons. rewrite nth_layer_eq. reflexivity. Qed.
Lemma connections_eq n k : net_connections n k = connections_of n k.
Proof. unfold net_connections. rewrite nth_layer_eq. reflexivity. Qed.
Lemma eta_eq n k : net_eta n k = eta_of n k.
Proof. unfold net_eta. rewrite nth_layer_eq. reflexivity. Qed.

Definition countable (vs : list Z) : Prop := Forall (Z.le 0) vs /\ Z.of_nat (length vs) < 2 ^ 31.
Lemma of_part {B N X} (g : B -> option N) (f h : N -> X) (cs : list (cl B)) ns : Forall2 (fun c n => g (c_body c) = Some n) cs ns -> (forall n, f n = h n) ->
  Forall2 (fun c v => (n <- deref (g (c_body c)) ;; Ok (f n))%out = Ok v) cs (map h ns).
Proof. intros F E. induction F as [|c n cs ns G F IH]; cbn [map]; constructor; [|exact IH]. rewrite G. cbn [deref obind]. rewrite E. reflexivity. Qed.

Lemma cond_means {A P} t set (s : st (payload (nn f64) A P)) cs ns :
  t = COND_TYPE_NEURAL \/ t = RULE_TYPE_NEURAL -> holds s set cs -> Forall2 (fun c n => y_cond (c_body c) = Some n) cs ns ->
  (countable (map layers_of ns) -> reports (clset_mean_cond_layers t set) (map layers_of ns) s) /\
  forall k, (countable (map (fun n => neurons_of n k) ns) -> reports (clset_mean_cond_neurons t set k) (map (fun n => neurons_of n k) ns) s) /\
            (countable (map (fun n => connections_of n k) ns) -> reports (clset_mean_cond_connections t set k) (map (fun n => connections_of n k) ns) s).
Proof.
  intros T H F. assert (O : cond_on t = true) by (destruct T as [-> | ->]; reflexivity).
  split; [|intros k; split]; intros (N & L);
    [unfold clset_mean_cond_layers|unfold clset_mean_cond_neurons|unfold clset_mean_cond_connections]; rewrite O;
    (eapply mean_ints_ok; [exact H| |exact N|exact L]); apply (of_part (fun b => y_cond b)); try exact F; intros n;
    [reflexivity|apply neurons_eq|apply connections_eq].
Qed.
Lemma pred_means {C A} set (s : st (payload C A (nn f64))) cs ns :
  holds s set cs -> Forall2 (fun c n => y_pred (c_body c) = Some n) cs ns ->
  (countable (map layers_of ns) -> reports (clset_mean_pred_layers PRED_TYPE_NEURAL set) (map layers_of ns) s) /\
  forall k, (countable (map (fun n => neurons_of n k) ns) -> reports (clset_mean_pred_neurons PRED_TYPE_NEURAL set k) (map (fun n => neurons_of n k) ns) s) /\
            (countable (map (fun n => connections_of n k) ns) -> reports (clset_mean_pred_connections PRED_TYPE_NEURAL set k) (map (fun n => connections_of n k) ns) s) /\
            (Forall unit_rate (map (fun n => eta_of n k) ns) -> Z.of_nat (length ns) < 2 ^ 31 ->
             exists r, clset_mean_pred_eta PRED_TYPE_NEURAL set k s = Ok (r, s) /\ unit_rate r).
Proof.
  intros H F. split; [|intros k; split; [|split]].
  - intros (N & L). eapply mean_ints_ok; [exact H| |exact N|exact L]. apply (of_part (fun b => y_pred b)); [exact F|reflexivity].
  - intros (N & L). eapply mean_ints_ok; [exact H| |exact N|exact L]. apply (of_part (fun b => y_pred b)); [exact F|intros; apply neurons_eq].
  - intros (N & L). eapply mean_ints_ok; [exact H| |exact N|exact L]. apply (of_part (fun b => y_pred b)); [exact F|intros; apply connections_eq].
  - intros U L. eapply mean_rates_ok; [exact H| |exact U|rewrite map_length; exact L]. apply (of_part (fun b => y_pred b)); [exact F|intros; apply eta_eq].
Qed.
Lemma other_types {A P C} t set k (s : st (payload (nn f64) A P)) (s' : st (payload C A (nn f64))) :
  (t <> COND_TYPE_NEURAL -> t <> RULE_TYPE_NEURAL -> clset_mean_cond_layers t set s = Ok (f0, s) /\
     clset_mean_cond_neurons t set k s = Ok (f0, s) /\ clset_mean_cond_connections t set k s = Ok (f0, s)) /\
  (t <> PRED_TYPE_NEURAL -> clset_mean_pred_layers t set s' = Ok (f0, s') /\ clset_mean_pred_neurons t set k s' = Ok (f0, s') /\
     clset_mean_pred_connections t set k s' = Ok (f0, s') /\ clset_mean_pred_eta t set k s' = Ok (f0, s')).
Proof.
  split.
  - intros H1 H2. assert (O : cond_on t = false) by (unfold cond_on; destruct (Z.eqb_spec t COND_TYPE_NEURAL), (Z.eqb_spec t RULE_TYPE_NEURAL); try contradiction; reflexivity).
    unfold clset_mean_cond_layers, clset_mean_cond_neurons, clset_mean_cond_connections. rewrite O. auto.
  - intros H1. assert (O : pred_on t = false) by (unfold pred_on; destruct (Z.eqb_spec t PRED_TYPE_NEURAL); [contradiction|reflexivity]).
    unfold clset_mean_pred_layers, clset_mean_pred_neurons, clset_mean_pred_connections, clset_mean_pred_eta. rewrite O. auto.
Qed.

(** ** Many large networks *)
Definition large_layer (n w : Z) : layer f64 :=
  mkLayer CONNECTED 0 0 n n n 1 w n w f0 f0 f0 f0 f0 f0 f0 0 0 0 0 n 1 1 0 0 0
    (zeros f0 n) (zeros f0 n) (zeros f0 w) (zeros f0 w) (zeros f0 n) (zeros f0 n) (zeros f0 n) [] (zeros true w) (zeros f0 6) [].
Definition large_net (n w : Z) : nn f64 := mkNn [large_layer n w] n n.
Lemma large_ok n w : 1 <= n <= N_OUTPUTS_MAX -> w = n * n -> w <= N_WEIGHTS_MAX -> net_ok (large_net n w) /\ faces (large_net n w).
Proof.
  intros Hn Hw Hm. assert (0 <= w) by nia. split.
  - split; [discriminate|]. split.
    + cbn [large_net nn_inputs nn_layers chained]. split; [|split; [reflexivity|exact I]]. left. split; [reflexivity|]. split.
      * constructor; unfold large_layer; cbn [l_n_inputs l_n_outputs l_n_weights l_n_biases l_state l_output l_biases l_bias_updates l_delta l_weights l_weight_updates l_active];
          try (apply len_zeros; lia); lia.
      * split; [|split].
        -- split; unfold large_layer; cbn [l_n_weights l_active l_weights l_n_active].
           ++ intros k Hk E. rewrite at_zeros in E by exact Hk. discriminate E.
           ++ symmetry. apply actives_true. lia.
        -- constructor; unfold large_layer; cbn [l_n_inputs l_n_outputs l_max_outputs l_grow l_mu]; try lia. apply len_zeros. lia.
        -- unfold large_layer; cbn [l_function]. unfold NUM_ACTIVATIONS. lia.
    + cbn [large_net nn_inputs nn_layers room]. unfold large_layer; cbn [l_type l_max_outputs]. rewrite Z.eqb_refl. split; [lia|exact I].
  - exists (large_layer n w). split; reflexivity.
Qed.
(** 140 rules whose networks have 4000 neurons: all sound, but their connections cannot be counted. *)
Definition large_rule (C A : Type) : cl (payload C A (nn f64)) :=
  mkCl f0 f0 1 0 f0 0 false [] 0 0 0 (mkPay None None (Some (large_net 4000 16000000))).
Lemma large_overflow (C A : Type) : exists (s : st (payload C A (nn f64))) set cs ns,
  holds s set cs /\ Forall2 (fun c n => y_pred (c_body c) = Some n) cs ns /\ Forall (fun n => net_ok n /\ faces n) ns /\ length ns = 140%nat /\
  clset_mean_pred_connections PRED_TYPE_NEURAL set 0 s = UB IntOverflow.
Proof.
  pose (c := large_rule C A). pose (n := large_net 4000 16000000).
  pose (s := with_heap (fun _ => Some c) 140%nat (blank_state 1)). pose (set := mkSet (seq 0 140) 140 140).
  exists s, set, (repeat c 140), (repeat n 140).
  assert (H : holds s set (repeat c 140)) by reflexivity.
  assert (F : Forall2 (fun c n => y_pred (c_body c) = Some n) (repeat c 140) (repeat n 140)) by (generalize 140%nat as k; induction k; cbn [repeat]; constructor; [reflexivity|assumption]).
  split; [exact H|]. split; [exact F|]. split; [|split; [apply repeat_length|]].
  - apply Forall_forall. intros x Hx. apply repeat_spec in Hx. subst x. apply large_ok; unfold N_OUTPUTS_MAX, N_WEIGHTS_MAX; lia.
  - destruct (proj2 (pred_means set s _ _ H F) 0) as (_ & R & _). change (map (fun n => connections_of n 0) (repeat n 140)) with (repeat 16000000 140) in R.
    unfold reports in R. replace (total (repeat 16000000 140)) with 2240000000 in R by reflexivity. apply R.
    split; [apply Forall_forall; intros x Hx; apply repeat_spec in Hx; lia|rewrite repeat_length; lia].
Qed.
