(** * Dynamical GP graphs: shape, meaning of an update, ranges. *)
From Coq Require Import ZArith Bool List Lia Reals Lra.
From Flocq Require Import Core BinarySingleNaN.
From Verif Require Import Outcome F64 F64Facts F64Bounds Rng RngFacts RandInt Pop PopSpec PopInv Arr ArrFacts Sam SamFacts Cond Comp TernFacts CompFacts Dgp.
Import ListNotations.
Open Scope Z_scope.

(** Admissible sizes: at least one node, one connection per node, one cycle, one input; all
    numbers computed from them are ints. *)
Definition dargs_ok (a : dargs) : Prop :=
  1 <= da_n a /\ 1 <= da_max_k a /\ 1 <= da_max_t a <= int_max /\ 1 <= da_n_inputs a /\
  da_n a * da_max_k a <= int_max /\ da_n a + da_n_inputs a <= int_max.
(** A number in [0,1]. *)
Definition in01 (v : f64) : Prop := is_finite v = true /\ (0 <= B2R v <= 1)%R.
(** What graph_init sets. *)
Definition graph_base (a : dargs) (g : graph) : Prop :=
  d_evolve g = da_evolve a /\ d_klen g = da_n a * da_max_k a /\ d_max_k g = da_max_k a /\ d_max_t g = da_max_t a /\
  d_n g = da_n a /\ d_n_inputs g = da_n_inputs a /\ 1 <= d_t g <= da_max_t a /\ len (d_mu g) = 3 /\ rate_ok (at_ f0 (d_mu g) 2).
(** A complete graph: every connection names an input or a node, every function exists, the number
    of cycles is in [1, max_t]. *)
Definition graph_sh (a : dargs) (g : graph) : Prop :=
  graph_base a g /\ len (d_initial g) = da_n a /\ len (d_state g) = da_n a /\ len (d_func g) = da_n a /\
  len (d_conn g) = da_n a * da_max_k a /\ Forall (fun f => 0 <= f <= 2) (d_func g) /\
  Forall (fun c => 0 <= c < da_n a + da_n_inputs a) (d_conn g).
Definition graph_ok (a : dargs) (g : graph) : Prop :=
  graph_sh a g /\ Forall in01 (d_initial g) /\ Forall in01 (d_state g).

(** ** What an update computes. *)
Definition with_state (g : graph) (s : list f64) : graph :=
  mkGraph (d_evolve g) (d_initial g) s (d_conn g) (d_func g) (d_klen g) (d_max_k g) (d_max_t g) (d_n g) (d_n_inputs g) (d_t g) (d_mu g).
(** NOT of the first argument, product or sum of all. *)
Definition fuzzy (f : Z) (l : list f64) : f64 :=
  match l with
  | [] => f0
  | v :: r => if f =? 0 then fsub f1 v else if f =? 1 then fold_left fmul r v else fold_left fadd r v
  end.
Definition source (g : graph) (x s : list f64) (c : Z) : f64 :=
  if c <? d_n_inputs g then at_ f0 x c else at_ f0 s (c - d_n_inputs g).
Definition arguments (g : graph) (x s : list f64) (i : Z) : list f64 :=
  map (fun k => source g x s (at_ 0 (d_conn g) (i * d_max_k g + k))) (iota (d_max_k g)).
(** All nodes at once, from the states [s]. *)
Definition next (g : graph) (x s : list f64) : list f64 :=
  map (fun i => clamp (fuzzy (at_ 0 (d_func g) i) (arguments g x s i)) f0 f1) (iota (d_n g)).

Lemma len_iota n : 0 <= n -> len (iota n) = n.
Proof. intros H. unfold len, iota. rewrite map_length, seq_length. lia. Qed.
Lemma len_map {A B} (f : A -> B) l : len (map f l) = len l.
Proof. unfold len. now rewrite map_length. Qed.
Lemma at_map_iota {A} (d : A) (h : Z -> A) n i : 0 <= i < n -> at_ d (map h (iota n)) i = h i.
Proof.
  intros H. unfold at_, iota. rewrite map_map. rewrite (nth_indep _ d (h (Z.of_nat 0))) by (rewrite map_length, seq_length; lia).
  rewrite (map_nth (fun x => h (Z.of_nat x)) _ 0%nat). rewrite seq_nth by lia. f_equal. lia.
Qed.
Lemma map_at {A} (d : A) l : map (at_ d l) (iota (len l)) = l.
Proof.
  apply (list_ext d); [rewrite len_map, len_iota by apply len_nonneg; reflexivity|]. intros i Hi.
  rewrite len_map, len_iota in Hi by apply len_nonneg. apply at_map_iota. exact Hi.
Qed.
Lemma otab_from {A} (f : Z -> outcome A) (h : Z -> A) n : forall k, (forall j, Z.of_nat k <= j < Z.of_nat k + Z.of_nat n -> f j = Ok (h j)) ->
  otab n (Z.of_nat k) f = Ok (map h (map Z.of_nat (seq k n))).
Proof.
  induction n as [|n IH]; intros k H; cbn [otab seq map]; [reflexivity|]. rewrite H by lia. cbn [obind].
  replace (Z.of_nat k + 1) with (Z.of_nat (S k)) by lia. rewrite IH by (intros j Hj; apply H; lia). reflexivity.
Qed.
Lemma otab_ok {A} (f : Z -> outcome A) (h : Z -> A) n : 0 <= n -> (forall j, 0 <= j < n -> f j = Ok (h j)) ->
  otab (Z.to_nat n) 0 f = Ok (map h (iota n)).
Proof. intros Hn H. apply (otab_from f h (Z.to_nat n) 0). intros j Hj. apply H. lia. Qed.

Lemma fold_rest (op : f64 -> f64 -> f64) v r : (ofor (len (v :: r) - 1) (fun i s => w <- rd (v :: r) (i + 1) ;; Ok (op s w)) v)%out = Ok (fold_left op r v).
Proof.
  assert (L : len (v :: r) - 1 = len r) by (unfold len; cbn [length]; lia). rewrite L.
  rewrite (ofor_fold _ (fun i s => op s (at_ f0 r i))); [|apply len_nonneg|].
  - f_equal. rewrite <- (map_at f0 r) at 2. generalize (iota (len r)). intros l. revert v L. 
    assert (G : forall l v, fold_left (fun s i => op s (at_ f0 r i)) l v = fold_left op (map (at_ f0 r) l) v).
    { clear. induction l as [|i l IH]; intros v; cbn; [reflexivity|apply IH]. }
    intros v _. apply G.
  - intros j s Hj. rewrite (rd_ok f0) by lia. cbn [obind]. unfold at_. replace (Z.to_nat (j + 1)) with (S (Z.to_nat j)) by lia. reflexivity.
Qed.
Lemma activate_ok f l : 0 <= f <= 2 -> 1 <= len l -> node_activate f l (len l) = Ok (clamp (fuzzy f l) f0 f1).
Proof.
  intros Hf Hl. destruct l as [|v r]; [unfold len in Hl; cbn [length] in Hl; lia|]. unfold node_activate, fuzzy, FUZZY_NOT, FUZZY_CFMQVS_AND, FUZZY_CFMQVS_OR.
  destruct (f =? 0) eqn:E0; [reflexivity|]. change (rd (v :: r) 0) with (Ok v). cbn [obind]. rewrite !fold_rest.
  destruct (f =? 1) eqn:E1; [reflexivity|]. destruct (f =? 2) eqn:E2; [reflexivity|lia].
Qed.

Section Args.
Context (a : dargs) (DA : dargs_ok a).

Lemma conn_at g i k : graph_sh a g -> 0 <= i < da_n a -> 0 <= k < da_max_k a ->
  0 <= i * da_max_k a + k < len (d_conn g) /\ 0 <= at_ 0 (d_conn g) (i * da_max_k a + k) < da_n a + da_n_inputs a.
Proof.
  intros (_ & _ & _ & _ & LC & _ & FC) Hi Hk. assert (B : 0 <= i * da_max_k a + k < da_n a * da_max_k a) by nia.
  split; [lia|]. rewrite (Forall_at _ 0) in FC. apply FC. lia.
Qed.
Lemma len_arguments g x s i : graph_sh a g -> len (arguments g x s i) = da_max_k a.
Proof. intros ((_ & _ & E & _) & _). destruct DA as (_ & H & _). unfold arguments. rewrite len_map, len_iota, E; lia. Qed.
Lemma len_next g x s : graph_sh a g -> len (next g x s) = da_n a.
Proof. intros ((_ & _ & _ & _ & E & _) & _). destruct DA as (H & _). unfold next. rewrite len_map, len_iota, E; lia. Qed.

Lemma sync_ok g x : graph_sh a g -> da_n_inputs a <= len x -> synchronous_update g x = Ok (with_state g (next g x (d_state g))).
Proof.
  intros SH HX. pose proof SH as ((E1 & E2 & E3 & E4 & E5 & E6 & ET & EM) & LI & LS & LF & LC & FF & FC).
  destruct DA as (D1 & D2 & D3 & D4 & D5 & D6). unfold synchronous_update.
  rewrite (otab_ok _ (fun i => clamp (fuzzy (at_ 0 (d_func g) i) (arguments g x (d_state g) i)) f0 f1)); [reflexivity|lia|].
  intros i Hi. rewrite E5 in Hi. rewrite (otab_ok _ (fun k => source g x (d_state g) (at_ 0 (d_conn g) (i * d_max_k g + k)))); [|lia|].
  - cbn [obind]. rewrite (rd_ok 0) by lia. cbn [obind]. fold (arguments g x (d_state g) i).
    rewrite E3, <- (len_arguments g x (d_state g) i SH). apply activate_ok.
    + rewrite (Forall_at _ 0) in FF. apply FF. lia.
    + rewrite (len_arguments g x (d_state g) i SH). lia.
  - intros k Hk. rewrite E3 in *. destruct (conn_at g i k SH Hi Hk) as (B & C). rewrite (rd_ok 0) by exact B. cbn [obind].
    unfold source. rewrite E6. destruct (Z.ltb_spec (at_ 0 (d_conn g) (i * da_max_k a + k)) (da_n_inputs a)); apply rd_ok; lia.
Qed.
Lemma sh_state g s : graph_sh a g -> len s = da_n a -> graph_sh a (with_state g s).
Proof. intros (B & LI & LS & LF & LC & FF & FC) H. split; [exact B|]. do 5 (split; [assumption|]). exact FC. Qed.
Lemma next_state g s x s' : next (with_state g s) x s' = next g x s'. Proof. reflexivity. Qed.

Lemma reset_ok g : graph_sh a g -> graph_reset g = Ok (with_state g (d_initial g)).
Proof.
  intros ((_ & _ & _ & _ & E & _) & LI & LS & _). destruct DA as (H & _). unfold graph_reset. rewrite E.
  destruct (ofor_ind (fun n s => len s = da_n a /\ forall i, 0 <= i < n -> at_ f0 s i = at_ f0 (d_initial g) i)
    (fun i s => v <- rd (d_initial g) i ;; wr s i v)%out (da_n a) (d_state g)) as (s & ES & L & S).
  - lia.
  - split; [exact LS|lia].
  - intros i s Hi (L & S). rewrite (rd_ok f0) by lia. cbn [obind]. destruct (wr_ok s i (at_ f0 (d_initial g) i)) as (s' & -> & (W1 & W2 & W3 & _)); [lia|].
    exists s'. split; [reflexivity|]. split; [lia|]. intros j Hj. destruct (Z.eq_dec j i) as [->|D]; [apply W2|]. rewrite W3 by lia. apply S. lia.
  - rewrite ES. cbn [obind]. replace s with (d_initial g); [rewrite <- E; reflexivity|]. symmetry. apply (list_ext f0); [lia|]. intros i Hi. apply S. lia.
Qed.
(** An update: [t] steps from the initial or the current states. *)
Lemma update_ok g x reset : graph_sh a g -> da_n_inputs a <= len x ->
  graph_update g x reset = Ok (with_state g (Nat.iter (Z.to_nat (d_t g)) (next g x) (if reset then d_initial g else d_state g))).
Proof.
  intros SH HX. unfold graph_update. set (s0 := if reset then d_initial g else d_state g).
  assert (L0 : len s0 = da_n a) by (destruct SH as (_ & LI & LS & _); destruct reset; assumption).
  assert (E0 : (if reset then graph_reset g else Ok g) = Ok (with_state g s0)).
  { destruct reset; [apply reset_ok, SH|]. destruct g; reflexivity. }
  rewrite E0. cbn [obind]. unfold ofor. generalize 0 as i. clearbody s0.
  assert (EQ : forall n i, oloop n i (fun _ g => synchronous_update g x) (with_state g s0) = Ok (with_state g (Nat.iter n (next g x) s0)) /\
    len (Nat.iter n (next g x) s0) = da_n a); [|intros i; apply EQ].
  induction n as [|n IH]; intros i.
  - split; [reflexivity|exact L0].
  - assert (LAST : forall n i s, oloop (S n) i (fun _ g => synchronous_update g x) s = 
      (s' <- oloop n i (fun _ g => synchronous_update g x) s ;; synchronous_update s' x)%out).
    { clear. induction n as [|n IH]; intros i s; [cbn; destruct (synchronous_update s x); reflexivity|].
      change (oloop (S (S n)) i (fun _ g => synchronous_update g x) s) with
        (s' <- synchronous_update s x ;; oloop (S n) (i + 1) (fun _ g => synchronous_update g x) s')%out.
      cbn [oloop]. destruct (synchronous_update s x) as [s'| | |]; cbn [obind]; try reflexivity. apply (IH (i + 1) s'). }
    rewrite LAST. destruct (IH i) as (-> & L). cbn [obind]. rewrite sync_ok; [|apply sh_state; assumption|exact HX]. split; [reflexivity|].
    cbn [Nat.iter]. apply len_next, SH.
Qed.
Lemma update_sh g x reset : graph_sh a g -> da_n_inputs a <= len x -> exists g', graph_update g x reset = Ok g' /\ graph_sh a g' /\ 
  exists s, g' = with_state g s.
Proof.
  intros SH HX. rewrite update_ok by assumption. eexists. split; [reflexivity|]. split; [|eexists; reflexivity]. apply sh_state; [exact SH|].
  destruct (Z.to_nat (d_t g)) as [|n]; [|apply len_next, SH]. cbn. destruct SH as (_ & LI & LS & _); destruct reset; assumption.
Qed.

(** ** Ranges. *)
(** Inputs small enough that no product of max_k of them overflows. *)
Definition tame (x : list f64) : Prop := exists m, 0 <= m /\ m * da_max_k a <= 1023 /\
  Forall (fun v => is_finite v = true /\ (Rabs (B2R v) <= bpow radix2 m)%R) x.

Lemma clamp01 v : nn v -> in01 (clamp v f0 f1).
Proof.
  intros N. unfold clamp. destruct (flt v f0) eqn:E1; [split; [reflexivity|rewrite f0_R; lra]|].
  destruct (fgt v f1) eqn:E2; [split; [apply f1_fin|rewrite f1_R; lra]|].
  change (flt f1 v = false) in E2. apply (flt_X_false v f0 N nn_f0) in E1. apply (flt_X_false f1 v nn_f1 N) in E2.
  rewrite X_f0 in E1. rewrite X_f1 in E2. pose proof one_lt_bnd.
  assert (F : is_finite v = true) by (apply nn_X_finite; [exact N|lra]). rewrite (X_finite v F) in *. split; [exact F|lra].
Qed.
Lemma nn_fadd v w : nn v -> is_finite w = true -> nn (fadd v w).
Proof.
  intros N F. destruct (is_finite v) eqn:E; [apply (fadd_fin v w E F)|]. destruct v as [s|s| |s m e H]; try discriminate.
  destruct w as [s'|s'| |s' m' e' H']; try discriminate; reflexivity.
Qed.
Lemma nn_sum l : Forall (fun v => is_finite v = true) l -> forall v, nn v -> nn (fold_left fadd l v).
Proof. induction 1 as [|w l F _ IH]; intros v N; cbn; [exact N|]. apply IH, nn_fadd; assumption. Qed.
Lemma prod_bound m l : 0 <= m -> Forall (fun v => is_finite v = true /\ (Rabs (B2R v) <= bpow radix2 m)%R) l ->
  forall j v, 0 <= j -> m * (j + len l) <= 1023 -> is_finite v = true -> (Rabs (B2R v) <= bpow radix2 (m * j))%R ->
  is_finite (fold_left fmul l v) = true.
Proof.
  intros Hm. induction 1 as [|w l (F & B) _ IH]; intros j v Hj HB FV BV; cbn [fold_left]; [exact FV|].
  assert (LL : len (w :: l) = len l + 1) by (unfold len; cbn [length]; lia). pose proof (len_nonneg l).
  assert (P : (Rabs (B2R v * B2R w) <= bpow radix2 (m * (j + 1)))%R).
  { rewrite Rabs_mult. replace (m * (j + 1)) with (m * j + m) by lia. rewrite bpow_plus. apply Rmult_le_compat; try apply Rabs_pos; assumption. }
  apply Rabs_le_inv in P. assert (FM : fmt64 (bpow radix2 (m * (j + 1)))) by (apply format_bpow; nia).
  assert (LT : (bpow radix2 (m * (j + 1)) < bnd)%R) by (apply bpow_lt_bnd; nia).
  destruct (fmul_in _ _ (fmt_opp _ FM) FM ltac:(lra) LT v w FV F P) as (F2 & B2). apply (IH (j + 1)); [lia|rewrite LL in HB; nia|exact F2|].
  apply Rabs_le. exact B2.
Qed.
Lemma fuzzy_nn m f l : 0 <= m -> m * len l <= 1023 -> Forall (fun v => is_finite v = true /\ (Rabs (B2R v) <= bpow radix2 m)%R) l -> nn (fuzzy f l).
Proof.
  intros Hm HB H. destruct l as [|v r]; [reflexivity|]. cbn [fuzzy]. inversion H as [|? ? (F & B) HR]; subst.
  assert (LL : len (v :: r) = len r + 1) by (unfold len; cbn [length]; lia).
  destruct (f =? 0); [apply (fsub_fin f1 v f1_fin F)|]. destruct (f =? 1).
  - apply fin_nn. apply (prod_bound m r Hm HR 1 v); [lia|nia|exact F|]. now rewrite Z.mul_1_r.
  - apply nn_sum; [|apply fin_nn, F]. eapply Forall_impl; [|exact HR]. intros w (W & _). exact W.
Qed.
Lemma next_01 g x s : graph_sh a g -> da_n_inputs a <= len x -> tame x -> len s = da_n a -> Forall in01 s -> Forall in01 (next g x s).
Proof.
  intros SH HX (m & Hm & HB & TX) LS FS. unfold next. rewrite Forall_map, Forall_forall. intros i Hi. rewrite in_iota in Hi.
  apply clamp01, (fuzzy_nn m); [exact Hm|rewrite len_arguments by exact SH; exact HB|]. unfold arguments. rewrite Forall_map, Forall_forall.
  intros k Hk. rewrite in_iota in Hk. pose proof SH as ((_ & _ & E3 & _ & E5 & E6 & _) & _). rewrite E3 in *. rewrite E5 in *.
  destruct (conn_at g i k SH Hi Hk) as (_ & C). unfold source. rewrite E6. rewrite (Forall_at _ f0) in TX. rewrite (Forall_at _ f0) in FS.
  destruct (Z.ltb_spec (at_ 0 (d_conn g) (i * da_max_k a + k)) (da_n_inputs a)).
  - apply TX. lia.
  - destruct (FS (at_ 0 (d_conn g) (i * da_max_k a + k) - da_n_inputs a)) as (F & B); [lia|]. split; [exact F|].
    rewrite Rabs_pos_eq by apply B. apply Rle_trans with 1%R; [apply B|apply bpow_ge_1, Hm].
Qed.
Lemma iter_01 g x n s : graph_sh a g -> da_n_inputs a <= len x -> tame x -> len s = da_n a -> Forall in01 s -> Forall in01 (Nat.iter n (next g x) s).
Proof.
  intros SH HX TX LS FS. induction n as [|n IH]; [exact FS|]. cbn. apply next_01; try assumption.
  destruct n as [|n]; [exact LS|]. apply len_next, SH.
Qed.
Lemma update_01 g x reset : graph_ok a g -> da_n_inputs a <= len x -> tame x -> exists g', graph_update g x reset = Ok g' /\ graph_ok a g'.
Proof.
  intros (SH & FI & FS) HX TX. rewrite update_ok by assumption. eexists. split; [reflexivity|]. split.
  - apply sh_state; [exact SH|]. destruct (Z.to_nat (d_t g)); [|apply len_next, SH]. destruct SH as (_ & LI & LS & _). destruct reset; assumption.
  - split; [exact FI|]. cbn [with_state d_state]. pose proof SH as (_ & LI & LS & _). destruct reset; apply iter_01; assumption.
Qed.

(** ** Random graphs, copies, mutation. *)
Section Ops.
Context (J : rng -> Prop) (lm : libm) (Zok : f64 -> Prop) (SR : src lm J Zok).
Notation rt := (rt J).

Lemma rt_tab {A} (m : RM A) P n : rt m P -> rt (rtab n m) (fun l => length l = n /\ Forall P l).
Proof.
  intros H. induction n as [|n IH]; cbn [rtab]; [apply rt_ret; auto|]. eapply rt_bind; [exact H|]. intros v V. eapply rt_bind; [exact IH|].
  intros l (L & F). apply rt_ret. cbn. auto.
Qed.
Lemma rt_01 : rt (rand_uniform f0 f1) in01.
Proof.
  intros g G. pose proof (rand_01 g) as T. destruct (rand_uniform f0 f1 g) as [[v g']| | |]; try contradiction.
  destruct T as (F & B & ->). exists v, (advance g). split; [reflexivity|]. split; [|split; [exact F|lra]].
  destruct g. apply (src_draw _ _ _ SR). exact G.
Qed.
Lemma rt_conn : rt (random_connection (da_n a) (da_n_inputs a)) (fun c => 0 <= c < da_n a + da_n_inputs a).
Proof.
  destruct DA as (D1 & D2 & D3 & D4 & D5 & D6). unfold random_connection. eapply rt_bind; [apply rt_01|]. intros u _. destruct (flt u fhalf).
  - eapply rt_bind; [apply (rt_uniform_int J lm Zok SR); lia|]. intros c Hc. cbv beta in Hc. apply rt_ret. lia.
  - eapply rt_mono; [apply (rt_uniform_int J lm Zok SR); lia|]. cbv beta. intros c Hc. lia.
Qed.
Lemma rt_func : rt (rand_uniform_int 0 NUM_FUNC) (fun f => 0 <= f <= 2).
Proof. eapply rt_mono; [apply (rt_uniform_int J lm Zok SR 3); unfold int_max; lia|]. cbv beta. intros f Hf. lia. Qed.
Lemma rt_cycles : rt (rand_uniform_int 1 (da_max_t a)) (fun t => 1 <= t <= da_max_t a).
Proof.
  destruct DA as (_ & _ & D3 & _). intros g G. pose proof (rand_uniform_int_eq 1 (da_max_t a) g eq_refl) as H.
  assert (HI : in_int (da_max_t a) = true) by (unfold in_int, int_min, int_max in *; lia). specialize (H HI ltac:(lia)).
  destruct (rand_uniform_int 1 (da_max_t a) g) as [[z g']| | |]; try contradiction. destruct H as (B & -> & _).
  exists z, (advance g). split; [reflexivity|]. split; [|lia]. destruct g. apply (src_draw _ _ _ SR). exact G.
Qed.
Lemma rand_ok g : graph_base a g -> rt (graph_rand g) (fun g' => graph_ok a g' /\ d_mu g' = d_mu g).
Proof.
  intros (E1 & E2 & E3 & E4 & E5 & E6 & ET & EM & ER). unfold graph_rand. rewrite E4, E5, E6.
  eapply rt_bind with (P := fun t => 1 <= t <= da_max_t a).
  { destruct (d_evolve g); [apply rt_cycles|apply rt_ret, ET]. }
  intros t Ht. eapply rt_bind; [apply rt_tab with (P := fun p => 0 <= fst (fst p) <= 2 /\ in01 (snd (fst p)) /\ in01 (snd p))|].
  { eapply rt_bind; [apply rt_func|]. intros f Hf. eapply rt_bind; [apply rt_01|]. intros i Hi. eapply rt_bind; [apply rt_01|]. intros s Hs.
    apply rt_ret. auto. }
  intros ns (LN & FN). eapply rt_bind; [apply rt_tab, rt_conn|]. intros cs (LC & FC). apply rt_ret. split; [|reflexivity].
  destruct DA as (D1 & D2 & D3 & D4 & D5 & D6).
  assert (LZ : len ns = da_n a) by (unfold len; lia).
  split; [|split; cbn [d_initial d_state]; rewrite Forall_map; eapply Forall_impl; try exact FN; cbv beta; tauto].
  split; [unfold graph_base; cbn [d_evolve d_klen d_max_k d_max_t d_n d_n_inputs d_t d_mu]; auto 12|]. cbn [d_initial d_state d_func d_conn]. rewrite !len_map. do 3 (split; [exact LZ|]).
  split; [unfold len; nia|]. split; [|exact FC]. rewrite Forall_map. eapply Forall_impl; [|exact FN]. cbv beta. tauto.
Qed.
Lemma init_ok : rt (graph_init a) (fun g => graph_base a g /\ Forall rate_ok (d_mu g)).
Proof.
  unfold graph_init. eapply rt_bind; [apply (sam_init_ok J lm Zok SR dgp_mu_type)|].
  { unfold dgp_mu_type, scheme_ok. repeat (apply Forall_cons || apply Forall_nil); auto. }
  intros mu (L & F). apply rt_ret. destruct DA as (D1 & D2 & D3 & D4 & D5 & D6). change (length dgp_mu_type) with 3%nat in L.
  split; [|exact F]. unfold graph_base. cbn [d_evolve d_klen d_max_k d_max_t d_n d_n_inputs d_t d_mu]. do 6 (split; [reflexivity|]).
  split; [lia|]. split; [unfold len; lia|]. rewrite (Forall_at _ f0) in F. apply F. unfold len. lia.
Qed.
Lemma dgp_init_ok : rt (dgp_init a) (fun g => graph_ok a g /\ Forall rate_ok (d_mu g)).
Proof.
  unfold dgp_init. eapply rt_bind; [apply init_ok|]. intros g (B & R). eapply rt_mono; [apply rand_ok, B|]. intros g' (G & ->). auto.
Qed.
Lemma copy_array_ok {A} (l : list A) n cap : len l = n -> n <= cap -> copy_array l n cap = Ok l.
Proof.
  intros <- H. unfold copy_array, len in *. destruct (Z.ltb_spec (Z.of_nat (length l)) 0); [lia|].
  destruct (Z.ltb_spec (Z.of_nat (length l)) (Z.of_nat (length l))); [lia|]. destruct (Z.ltb_spec cap (Z.of_nat (length l))); [lia|]. cbn [orb].
  rewrite Nat2Z.id, firstn_all. reflexivity.
Qed.
Lemma copy_ok g : graph_sh a g -> graph_copy a g = Ok g.
Proof.
  intros ((E1 & E2 & E3 & E4 & E5 & E6 & ET & EM & ER) & LI & LS & LF & LC & _). unfold graph_copy. rewrite E5, E2.
  rewrite !copy_array_ok by (assumption || lia). cbn [obind]. rewrite E2 || idtac. destruct g; cbn in *; subst; reflexivity.
Qed.
Lemma dgp_copy_ok g : graph_sh a g -> rt (dgp_copy a g) (fun g' => g' = g).
Proof. intros SH. unfold dgp_copy. eapply rt_bind; [apply init_ok|]. intros _ _. eapply rt_lift; [apply copy_ok, SH|reflexivity]. Qed.

(** Mutating an array: the reported flag is whether it differs. *)
Lemma mutate_array_ok (P : Z -> Prop) n l rate v draw : rate = Ok v -> len l = n -> Forall P l -> rt draw P ->
  rt (mutate_array n l rate draw) (fun r => len (fst r) = n /\ Forall P (fst r) /\ (snd r = true <-> fst r <> l)).
Proof.
  intros -> L F D. unfold mutate_array. eapply rt_for_mono with (I := fun i st => len (fst st) = n /\ Forall P (fst st) /\
    (forall k, i <= k < n -> at_ 0 (fst st) k = at_ 0 l k) /\ (snd st = false -> fst st = l) /\
    (snd st = true -> exists k, 0 <= k < i /\ at_ 0 (fst st) k <> at_ 0 l k)).
  - pose proof (len_nonneg l). lia.
  - cbn [fst snd]. split; [exact L|]. split; [exact F|]. split; [auto|]. split; [auto|discriminate].
  - intros i [s ch] Hi (S1 & S2 & S3 & S4 & S5). cbn [fst snd] in *. eapply rt_bind; [apply rt_01|]. intros u _.
    eapply rt_bind_lift; [reflexivity|]. destruct (flt u v).
    + eapply rt_bind_lift; [apply (rd_ok 0); lia|]. eapply rt_bind; [exact D|]. intros w Hw.
      destruct (wr_ok s i w) as (s' & EW & (W1 & W2 & W3 & W4)); [lia|]. eapply rt_bind_lift; [exact EW|]. apply rt_ret. cbn [fst snd].
      split; [lia|]. split; [apply W4; assumption|]. split; [intros k Hk; rewrite W3 by lia; apply S3; lia|].
      rewrite S3 by lia. destruct (Z.eqb_spec (at_ 0 l i) w) as [E|E].
      * assert (SS : s' = s). { apply (list_ext 0); [exact W1|]. intros k Hk. destruct (Z.eq_dec k i) as [->|Dk]; [rewrite W2, S3 by lia; auto|apply W3; lia]. }
        rewrite SS. split; [exact S4|]. intros C. destruct (S5 C) as (k & K1 & K2). exists k. split; [lia|exact K2].
      * split; [discriminate|]. intros _. exists i. split; [lia|]. rewrite W2. auto.
    + apply rt_ret. cbn [fst snd]. split; [exact S1|]. split; [exact S2|]. split; [intros k Hk; apply S3; lia|]. split; [exact S4|].
      intros C. destruct (S5 C) as (k & K1 & K2). exists k. split; [lia|exact K2].
  - intros [s ch] (S1 & S2 & _ & S4 & S5). cbn [fst snd] in *. split; [exact S1|]. split; [exact S2|]. split.
    + intros C ->. destruct (S5 C) as (k & _ & K2). apply K2. reflexivity.
    + intros C. destruct ch; [reflexivity|]. elim C. auto.
Qed.

Lemma fround_R (x : f64) : is_finite x = true -> is_finite (fround x) = true /\ B2R (fround x) = IZR (Znearest (Z.leb 0) (B2R x)).
Proof.
  intros Fx. destruct (Bnearbyint_correct 53 1024 _ mode_NA x) as (H1 & H2 & _). unfold fround.
  split; [rewrite H2; exact Fx|]. rewrite H1. change (round_mode mode_NA) with (Znearest (Z.leb 0)).
  unfold round, F2R, scaled_mantissa, cexp, FIX_exp; simpl. rewrite !Rmult_1_r. reflexivity.
Qed.
Lemma f2_fin : is_finite f2 = true /\ B2R f2 = 2%R. Proof. apply (of_Z_fin 2). lia. Qed.
(** The step of the number of cycles is -1, 0 or 1. *)
Lemma step_range m : rate_ok m -> exists n, to_int (fround (fsub (fmul f2 m) f1)) = Some n /\ -1 <= n <= 1.
Proof.
  intros R. apply rate_R in R. destruct R as (F & B). pose proof mu_eps_R as EPS. destruct f2_fin as (F2 & R2).
  assert (L2 : (2 < bnd)%R) by (apply (lt_bnd 2); lia). assert (FM2 : fmt64 2) by (apply (format_IZR 2); lia).
  destruct (fmul_in 0 2 fmt_0 FM2 ltac:(lra) L2 f2 m F2 F) as (FP & BP); [rewrite R2; lra|].
  destruct (fsub_in (-1) 1 (fmt_opp _ fmt_1) fmt_1 ltac:(lra) ltac:(lra) (fmul f2 m) f1 FP f1_fin) as (FS & BS); [rewrite f1_R; lra|].
  destruct (fround_R _ FS) as (FR & ER). exists (Znearest (Z.leb 0) (B2R (fsub (fmul f2 m) f1))).
  assert (BZ : -1 <= Znearest (Z.leb 0) (B2R (fsub (fmul f2 m) f1)) <= 1).
  { split.
    - rewrite <- (Zrnd_IZR (Znearest (Z.leb 0)) (-1)). apply Zrnd_le; [apply valid_rnd_N|]. apply BS.
    - rewrite <- (Zrnd_IZR (Znearest (Z.leb 0)) 1). apply Zrnd_le; [apply valid_rnd_N|]. apply BS. }
  split; [|exact BZ]. rewrite (to_int_R _ _ FR ER). match goal with |- (if ?b then _ else _) = _ => destruct b eqn:E end; [reflexivity|unfold in_int, int_min, int_max in E; lia].
Qed.
Lemma cycles_ok t mu : len mu = 3 -> rate_ok (at_ f0 mu 2) -> 1 <= t <= da_max_t a ->
  exists t' ch, mutate_cycles t (da_max_t a) mu = Ok (t', ch) /\ 1 <= t' <= da_max_t a /\ t - 1 <= t' <= t + 1 /\ (ch = false -> t' = t).
Proof.
  intros L R Ht. unfold mutate_cycles. rewrite (rd_ok f0) by lia. cbn [obind]. destruct (step_range _ R) as (n & -> & Hn).
  destruct ((t + n <? 1) || (da_max_t a <? t + n)) eqn:E.
  - exists t, false. split; [reflexivity|]. repeat split; try lia.
  - apply orb_false_elim in E. destruct E as (E1 & E2). exists (t + n), true. split; [reflexivity|]. split; [lia|]. split; [lia|discriminate].
Qed.
Lemma adapt_ok mu : len mu = 3 -> rate_ok (at_ f0 mu 2) -> rt (sam_adapt lm dgp_mu_type mu) (fun mu' => len mu' = 3 /\ rate_ok (at_ f0 mu' 2)).
Proof.
  intros L R. destruct mu as [|m0 [|m1 [|m2 [|m3 mu]]]]; unfold len in L; cbn [length] in L; try lia. change (at_ f0 [m0; m1; m2] 2) with m2 in R.
  cbn [sam_adapt dgp_mu_type]. unfold sam_adapt1. cbn [Z.eqb orb SAM_LOG_NORMAL SAM_RATE_SELECT SAM_UNIFORM].
  eapply rt_bind with (P := fun _ => True); [eapply rt_bind; [apply (rt_normal J lm Zok SR)|intros z _; apply rt_ret; exact I]|]. intros n0 _.
  eapply rt_bind with (P := fun r => exists n1 n2, r = [n1; n2] /\ rate_ok n2); [|intros r (n1 & n2 & -> & H); apply rt_ret; split; [reflexivity|exact H]].
  eapply rt_bind with (P := fun _ => True); [eapply rt_bind; [apply (rt_normal J lm Zok SR)|intros z _; apply rt_ret; exact I]|]. intros n1 _.
  eapply rt_bind with (P := fun r => exists n2, r = [n2] /\ rate_ok n2); [|intros r (n2 & -> & H); apply rt_ret; eauto].
  eapply rt_bind with (P := rate_ok).
  - eapply rt_bind; [apply (rt_uniform J lm Zok SR)|]. intros u _. destruct (flt u (lit 1 10)); [|apply rt_ret, R].
    eapply rt_mono; [apply (rt_uniform J lm Zok SR)|]. intros v (k & ->). apply rate_uniform.
  - intros n2 H. eapply rt_bind with (P := fun r => r = []); [apply rt_ret; reflexivity|]. intros r ->. apply rt_ret. eauto.
Qed.
(** Mutation: the states stay; functions, connections and cycles stay in range; cycles move by at
    most one and only if they evolve; nothing changes (but the mutation rates) unless reported. *)
Definition mutated_graph (g : graph) (r : graph * bool) : Prop :=
  let g' := fst r in graph_sh a g' /\ d_initial g' = d_initial g /\ d_state g' = d_state g /\ 
  d_t g - 1 <= d_t g' <= d_t g + 1 /\ (da_evolve a = false -> d_t g' = d_t g) /\
  (snd r = false -> d_func g' = d_func g /\ d_conn g' = d_conn g /\ d_t g' = d_t g) /\
  (snd r = true -> da_evolve a = false -> d_func g' <> d_func g \/ d_conn g' <> d_conn g).
Lemma graph_mutate_ok g : graph_sh a g -> rt (graph_mutate lm g) (mutated_graph g).
Proof.
  intros ((E1 & E2 & E3 & E4 & E5 & E6 & ET & EM & ER) & LI & LS & LF & LC & FF & FC). unfold graph_mutate.
  eapply rt_bind; [apply adapt_ok; assumption|]. intros mu (M1 & M2). rewrite E1, E2, E4, E5, E6.
  eapply rt_bind; [eapply mutate_array_ok; [apply (rd_ok f0); lia|exact LF|exact FF|apply rt_func]|]. intros [fs fb] (F1 & F2 & F3).
  eapply rt_bind; [eapply mutate_array_ok; [apply (rd_ok f0); lia|exact LC|exact FC|apply rt_conn]|]. intros [cs cb] (C1 & C2 & C3). cbn [fst snd] in *.
  eapply rt_bind with (P := fun r => 1 <= fst r <= da_max_t a /\ d_t g - 1 <= fst r <= d_t g + 1 /\ (snd r = false -> fst r = d_t g) /\ (da_evolve a = false -> r = (d_t g, false))).
  { destruct (da_evolve a).
    - destruct (cycles_ok (d_t g) mu M1 M2 ET) as (t' & ch & E & T1 & T2 & T3). eapply rt_lift; [exact E|]. cbn [fst snd]. split; [exact T1|split; [exact T2|split; [exact T3|discriminate]]].
    - apply rt_ret. cbn [fst snd]. split; [lia|split; [lia|auto]]. }
  intros [t' tb] (T1 & T2 & T3 & T4). cbn [fst snd] in *. apply rt_ret. unfold mutated_graph. cbn [fst snd].
  split; [|split; [reflexivity|split; [reflexivity|split; [exact T2|split; [|split]]]]].
  - split; [unfold graph_base; cbn [d_evolve d_klen d_max_k d_max_t d_n d_n_inputs d_t d_mu]; auto 12|]. cbn [d_initial d_state d_func d_conn]. repeat (split; [assumption|]). assumption.
  - intros H. specialize (T4 H). injection T4 as -> _. reflexivity.
  - intros H. apply orb_false_elim in H. destruct H as (H & H3). apply orb_false_elim in H. destruct H as (H1 & H2). cbn [d_func d_conn d_t].
    split; [|split; [|apply T3, H3]].
    + destruct (list_eq_dec Z.eq_dec fs (d_func g)) as [E|E]; [exact E|]. apply F3 in E. congruence.
    + destruct (list_eq_dec Z.eq_dec cs (d_conn g)) as [E|E]; [exact E|]. apply C3 in E. congruence.
  - intros H H0. specialize (T4 H0). injection T4 as _ ->. rewrite orb_false_r in H. apply orb_prop in H. cbn [d_func d_conn]. destruct H as [H|H]; [left; apply F3, H|right; apply C3, H].
Qed.
End Ops.
End Args.
