(** * Proofs for C40 (dynamical GP graphs) and the DGP part of C41. *)
From Coq Require Import ZArith Bool List Lia Reals Lra.
From Flocq Require Import Core BinarySingleNaN.
From Verif Require Import Outcome F64 F64Facts F64Bounds Rng RngFacts RandInt Pop PopSpec PopInv Arr ArrFacts Sam SamFacts Cond Comp TernFacts CompFacts Env EnvFacts Dgp DgpFacts.
Import ListNotations.
Open Scope Z_scope.

(** Graphs the library can hold: random ones, and whatever copying, mutation, matching and covering
    make of them; the inputs are [tame]. *)
Inductive made_graph (a : dargs) (lm : libm) (stateful : bool) : graph -> Prop :=
| MG_init r g r' : dgp_init a r = Ok (g, r') -> made_graph a lm stateful g
| MG_copy g r d r' : made_graph a lm stateful g -> dgp_copy a g r = Ok (d, r') -> made_graph a lm stateful d
| MG_mutate g r d ch r' : made_graph a lm stateful g -> graph_mutate lm g r = Ok ((d, ch), r') -> made_graph a lm stateful d
| MG_match g x d b : made_graph a lm stateful g -> da_n_inputs a <= len x -> tame a x -> dgp_match stateful g x = Ok (d, b) -> made_graph a lm stateful d
| MG_cover g fuel x r d r' : made_graph a lm stateful g -> da_n_inputs a <= len x -> tame a x ->
    dgp_cover stateful fuel g x r = Ok (d, r') -> made_graph a lm stateful d.

Section C40.
Context (a : dargs) (DA : dargs_ok a) (lm : libm).
Notation sany := (src_any lm).

Lemma match_ok stateful g x : graph_sh a g -> da_n_inputs a <= len x ->
  exists s, dgp_match stateful g x = Ok (with_state g s, fgt (at_ f0 s 0) fhalf) /\ graph_sh a (with_state g s) /\
    s = Nat.iter (Z.to_nat (d_t g)) (next g x) (if stateful then d_state g else d_initial g).
Proof.
  intros SH HX. unfold dgp_match. rewrite (update_ok a DA g x (negb stateful) SH HX). cbn [obind].
  set (s := Nat.iter _ _ _). exists s.
  assert (LS : len s = da_n a).
  { unfold s. destruct (Z.to_nat (d_t g)); [|apply (len_next a DA), SH]. destruct SH as (_ & LI & LS & _). destruct stateful; assumption. }
  split; [|split; [apply (sh_state a); assumption|unfold s; destruct stateful; reflexivity]].
  unfold graph_output. cbn [with_state d_state]. rewrite (rd_ok f0) by (destruct DA as (D & _); lia). reflexivity.
Qed.
Lemma match_01 stateful g x d b : graph_ok a g -> da_n_inputs a <= len x -> tame a x -> dgp_match stateful g x = Ok (d, b) -> graph_ok a d.
Proof.
  intros G HX TX E. unfold dgp_match in E. destruct (update_01 a DA g x (negb stateful) G HX TX) as (g' & E' & G'). rewrite E' in E. cbn [obind] in E.
  destruct (graph_output g' 0); try discriminate. injection E as <- _. exact G'.
Qed.
Lemma base_state g s : graph_sh a g -> graph_base a (with_state g s).
Proof. intros (B & _). exact B. Qed.
(** Covering ends only with a graph that matches. *)
Lemma C40_cover_lemma stateful fuel x : da_n_inputs a <= len x -> forall g r, graph_base a g -> match dgp_cover stateful fuel g x r with
  | Ok (d, _) => graph_sh a d /\ (tame a x -> graph_ok a d) /\ fgt (at_ f0 (d_state d) 0) fhalf = true /\
      (stateful = false -> dgp_match false d x = Ok (d, true))
  | OutOfFuel => True
  | _ => False
  end.
Proof.
  intros HX. induction fuel as [|fuel IH]; intros g r B; [exact I|]. cbn [dgp_cover]. unfold bind at 1.
  destruct (rand_ok a DA _ lm _ sany g B r I) as (g1 & r1 & -> & _ & G1 & _). pose proof G1 as (SH & _).
  destruct (match_ok stateful g1 x SH HX) as (s & E & SH' & ES). unfold bind, lift. rewrite E. cbn [fst snd].
  destruct (fgt (at_ f0 s 0) fhalf) eqn:EF; [|apply IH; exact (proj1 SH)]. cbn [ret]. split; [exact SH'|].
  split; [intros TX; eapply match_01; eauto|]. split; [exact EF|]. intros ->. unfold dgp_match.
  cbn [negb]. rewrite (update_ok a DA _ x true SH' HX). cbn [obind with_state d_initial d_t].
  change (next (with_state g1 s) x) with (next g1 x). rewrite <- ES. unfold graph_output, with_state at 1. cbn [d_state].
  rewrite (rd_ok f0) by (destruct DA as (D & _); destruct SH' as (_ & _ & L & _); cbn [with_state d_state] in L; lia). cbn [obind]. rewrite EF. reflexivity.
Qed.
Lemma C40_lemma stateful g : made_graph a lm stateful g -> graph_ok a g.
Proof.
  induction 1 as [r g r' E|g r d r' _ IH E|g r d ch r' _ IH E|g x d b _ IH HX TX E|g fuel x r d r' _ IH HX TX E].
  - destruct (dgp_init_ok a DA _ lm _ sany r I) as (g' & r1 & E' & _ & G & _). rewrite E in E'. injection E' as <- <-. exact G.
  - destruct (dgp_copy_ok a DA _ lm _ sany g (proj1 IH) r I) as (g' & r1 & E' & _ & ->). rewrite E in E'. injection E' as <- <-. exact IH.
  - destruct (graph_mutate_ok a DA _ lm _ sany g (proj1 IH) r I) as ([g' ch'] & r1 & E' & _ & (SH & EI & ES & _)). rewrite E in E'. injection E' as <- <- <-.
    cbn [fst] in *. split; [exact SH|]. rewrite EI, ES. exact (proj2 IH).
  - eapply match_01; eauto.
  - pose proof (C40_cover_lemma stateful fuel x HX g r (proj1 (proj1 IH))) as H. rewrite E in H. apply H, TX.
Qed.
(** Statement spelled out: states, connections, cycles, outputs. *)
Lemma C40_range_lemma stateful g : made_graph a lm stateful g ->
  (forall i, 0 <= i < da_n a -> exists v, graph_output g i = Ok v /\ is_finite v = true /\ (0 <= B2R v <= 1)%R) /\
  len (d_conn g) = da_n a * da_max_k a /\
  (forall c, In c (d_conn g) -> 0 <= c < da_n a + da_n_inputs a) /\
  (forall f, In f (d_func g) -> f = 0 \/ f = 1 \/ f = 2) /\
  1 <= d_t g <= da_max_t a /\
  forall x reset, da_n_inputs a <= len x -> exists g', graph_update g x reset = Ok g'.
Proof.
  intros M. pose proof (C40_lemma stateful g M) as (SH & _ & FS). pose proof SH as (B & LI & LS & LF & LC & FF & FC).
  split; [|split; [exact LC|split; [|split; [|split; [apply B|]]]]].
  - intros i Hi. unfold graph_output. rewrite (rd_ok f0) by lia. eexists. split; [reflexivity|]. rewrite (Forall_at _ f0) in FS. apply FS. lia.
  - rewrite Forall_forall in FC. exact FC.
  - rewrite Forall_forall in FF. intros f Hf. specialize (FF f Hf). cbv beta in FF. lia.
  - intros x reset HX. destruct (update_sh a DA g x reset SH HX) as (g' & E & _). eauto.
Qed.
Lemma C40_update_lemma g x reset : graph_sh a g -> da_n_inputs a <= len x ->
  graph_update g x reset = Ok (with_state g (Nat.iter (Z.to_nat (d_t g)) (next g x) (if reset then d_initial g else d_state g))).
Proof. exact (update_ok a DA g x reset). Qed.
Lemma C40_copy_lemma g r : graph_sh a g -> exists r', dgp_copy a g r = Ok (g, r').
Proof. intros SH. destruct (dgp_copy_ok a DA _ lm _ sany g SH r I) as (g' & r1 & E' & _ & ->). eauto. Qed.
Lemma C40_mutate_lemma g r : graph_sh a g -> exists g' ch r', graph_mutate lm g r = Ok ((g', ch), r') /\ 
  graph_sh a g' /\ d_initial g' = d_initial g /\ d_state g' = d_state g /\ 
  d_t g - 1 <= d_t g' <= d_t g + 1 /\ (da_evolve a = false -> d_t g' = d_t g) /\
  (ch = false -> d_func g' = d_func g /\ d_conn g' = d_conn g /\ d_t g' = d_t g) /\
  (ch = true -> da_evolve a = false -> d_func g' <> d_func g \/ d_conn g' <> d_conn g).
Proof.
  intros SH. destruct (graph_mutate_ok a DA _ lm _ sany g SH r I) as ([g' ch] & r1 & E & _ & M). exists g', ch, r1. split; [exact E|exact M].
Qed.
(** Importing connections: accepted exactly when every number is at most n + n_inputs, one too many. *)
Lemma C40_import_lemma g items : graph_sh a g ->
  match import_connectivity g items with
  | Ok g' => len items = da_n a * da_max_k a /\ d_conn g' = items /\ (~ In (da_n a + da_n_inputs a) items -> graph_sh a g')
  | Exit => len items <> da_n a * da_max_k a \/ exists c, In c items /\ ~ 0 <= c < da_n a + da_n_inputs a
  | _ => False
  end.
Proof.
  intros ((E1 & E2 & E3 & E4 & E5 & E6 & ET & EM & ER) & LI & LS & LF & LC & FF & FC). unfold import_connectivity.
  rewrite E2, E5, E6. fold (len items). destruct (Z.eqb_spec (len items) (da_n a * da_max_k a)) as [L|L]; cbn [negb]; [|left; exact L].
  match goal with |- match (if ?b then _ else _) with _ => _ end => destruct b eqn:EX end.
  - right. apply existsb_exists in EX. destruct EX as (c & Hc & H). exists c. split; [exact Hc|]. apply orb_prop in H. rewrite !Z.ltb_lt in H. lia.
  - split; [exact L|]. split; [reflexivity|]. intros NI. split; [unfold graph_base; cbn [d_evolve d_klen d_max_k d_max_t d_n d_n_inputs d_t d_mu]; auto 12|].
    cbn [d_initial d_state d_func d_conn]. do 5 (split; [assumption|]). rewrite Forall_forall. intros c Hc.
    assert (H : ((c <? 0) || (da_n a + da_n_inputs a <? c)) = false).
    { destruct ((c <? 0) || (da_n a + da_n_inputs a <? c)) eqn:E; [|reflexivity].
      assert (existsb (fun v => (v <? 0) || (da_n a + da_n_inputs a <? v)) items = true); [|congruence]. apply existsb_exists. eauto. }
    apply orb_false_elim in H. rewrite !Z.ltb_ge in H. assert (c <> da_n a + da_n_inputs a) by (intros ->; contradiction). lia.
Qed.
Lemma C40_import_states_lemma n items : match import_states n items with
  | Ok s => s = items /\ len items = n /\ (Forall nn items -> Forall in01 items)
  | Exit => len items <> n \/ ~ Forall in01 items
  | _ => False
  end.
Proof.
  unfold import_states. fold (len items). destruct (Z.eqb_spec (len items) n) as [L|L]; cbn [negb]; [|left; exact L].
  destruct (existsb (fun v => flt v f0 || fgt v f1) items) eqn:EX.
  - right. intros F. apply existsb_exists in EX. destruct EX as (v & Hv & H). rewrite Forall_forall in F. destruct (F v Hv) as (FV & BV).
    unfold fgt in H. apply orb_prop in H. destruct H as [H|H].
    + apply flt_X in H; [|apply fin_nn, FV|exact nn_f0]. rewrite X_f0, X_finite in H by exact FV. lra.
    + change (flt f1 v = true) in H. apply flt_X in H; [|exact nn_f1|apply fin_nn, FV]. rewrite X_f1, X_finite in H by exact FV. lra.
  - split; [reflexivity|]. split; [exact L|]. intros N. rewrite Forall_forall in N |- *. intros v Hv.
    assert (H : flt v f0 || fgt v f1 = false).
    { destruct (flt v f0 || fgt v f1) eqn:E; [|reflexivity]. assert (existsb (fun v => flt v f0 || fgt v f1) items = true); [|congruence]. apply existsb_exists. eauto. }
    apply orb_false_elim in H. destruct H as (H1 & H2). pose proof (clamp01 v (N v Hv)) as C. unfold clamp in C. rewrite H1, H2 in C. exact C.
Qed.

(** ** Rules with DGP conditions meet the contract of the population code. *)
Definition dgp_matches (g : graph) (x : list f64) : Prop := fgt (at_ f0 (d_state g) 0) fhalf = true.
Lemma dgp_ok dom (FO : Prop) (K : cfg) stateful : FO -> da_n_inputs a <= x_dim K ->
  cond_ok dom FO K (dgp_cond K a stateful) (graph_sh a) dgp_matches.
Proof.
  intros F HX. split; cbn [dgp_cond k_init k_copy k_cover k_match k_update k_general k_crossover k_mutate].
  - apply rt_rpost. eapply rt_mono; [apply (dgp_init_ok a DA _ (Pop.lm K) _ (src_any _))|]. intros g (G & _). exact (proj1 G).
  - intros g SH. apply rt_rpost. eapply rt_mono; [apply (dgp_copy_ok a DA _ (Pop.lm K) _ (src_any _)), SH|]. intros g' ->. exact SH.
  - intros g x SH (LX & _) r. pose proof (C40_cover_lemma stateful (loop_fuel K) x ltac:(unfold len; lia) g r (proj1 SH)) as H.
    destruct (dgp_cover stateful (loop_fuel K) g x r) as [[d r']| | |]; try contradiction; [|exact F]. destruct H as (SH' & _ & M & _). split; [exact SH'|exact M].
  - intros g x SH (LX & _). destruct (match_ok stateful g x SH ltac:(unfold len; lia)) as (s & E & SH' & _). eapply rp_lift; [exact E|].
    cbn [fst snd]. split; [exact SH'|]. unfold dgp_matches. cbn [with_state d_state]. tauto.
  - intros c x y W _ _. apply rp_ret, W.
  - intros c1 c2 _ _. exists false. reflexivity.
  - intros c1 c2 W1 W2. apply rp_ret. cbn [fst snd]. auto.
  - intros g SH. apply rt_rpost. eapply rt_mono; [apply (graph_mutate_ok a DA _ (Pop.lm K) _ (src_any _)), SH|]. intros r M. exact (proj1 M).
Qed.
End C40.

Lemma C40_system_lemma dom (FO : Prop) (K : cfg) a stateful {A Q} (VA : actT A) (VP : Comp.predT Q) wa wp :
  FO -> dargs_ok a -> da_n_inputs a <= x_dim K -> CompFacts.act_ok dom FO K VA wa -> pred_ok dom FO K VP wp ->
  vt_ok (dom := dom) FO (join (dgp_cond K a stateful) VA VP) K (wf_pay (graph_sh a) wa wp) (mt_pay dgp_matches).
Proof. intros F DA HX HA HP. apply join_ok; [apply (dgp_ok a DA (lm K)); assumption|exact HA|exact HP]. Qed.

(** ** Inputs for which the states are not numbers. *)
Definition mid_gen : rng := mkRng (fun _ => 2 ^ 51) 0 false f0.
Definition seq_gen (l : list Z) : rng := mkRng (fun n => nth n l (2 ^ 51)) 0 false f0.
Definition state_nan (a : dargs) (r : rng) (x : list f64) : bool :=
  match dgp_init a r with
  | Ok (g, _) => match graph_update g x true with Ok g' => match d_state g' with v :: _ => is_nan v | [] => false end | _ => false end
  | _ => false
  end.
Lemma state_nan_ex a r x : state_nan a r x = true -> exists g r' g' v, dgp_init a r = Ok (g, r') /\ graph_update g x true = Ok g' /\
  graph_output g' 0 = Ok v /\ is_nan v = true.
Proof.
  unfold state_nan. destruct (dgp_init a r) as [[g r']| | |]; try discriminate. destruct (graph_update g x true) as [g1| | |] eqn:EU; try discriminate.
  intros T. exists g, r', g1. destruct (d_state g1) as [|v s] eqn:ES; [discriminate|]. exists v. unfold graph_output. rewrite ES. repeat split; auto.
Qed.
Lemma made_init a lm stateful r (P : graph -> rng -> Prop) :
  match dgp_init a r with Ok (g, r') => P g r' | _ => False end ->
  match dgp_init a r with Ok (g, r') => made_graph a lm stateful g /\ P g r' | _ => False end.
Proof. destruct (dgp_init a r) as [[g r']| | |] eqn:E; try contradiction. intros H. split; [eapply MG_init; exact E|exact H]. Qed.
(** The inputs may even be finite: the product of two numbers of 1e200 is infinite, and infinity times zero is no number. *)
Lemma C40_refuted_lemma : exists a r x g r' g' v, dargs_ok a /\ dgp_init a r = Ok (g, r') /\ len x = da_n_inputs a /\
  Forall (fun u => is_finite u = true) x /\ graph_update g x true = Ok g' /\ graph_output g' 0 = Ok v /\ is_nan v = true.
Proof.
  set (a := mkDargs false 3 1 1 2).
  (* rates, function, states, connections to inputs 0, 0 and 1 *)
  set (r := seq_gen [2 ^ 51; 2 ^ 51; 2 ^ 51; 2 ^ 51; 2 ^ 51; 2 ^ 51; 2 ^ 51; 1; 2 ^ 51; 1]).
  set (x := [of_Z (10 ^ 200); f0]).
  assert (T : state_nan a r x = true) by (vm_compute; reflexivity).
  destruct (state_nan_ex a r x T) as (g & r' & g' & v & E1 & E2 & E3 & E4). exists a, r, x, g, r', g', v.
  split; [unfold a, dargs_ok, int_max; cbn; lia|]. split; [exact E1|]. split; [reflexivity|].
  split; [repeat constructor; vm_compute; reflexivity|]. auto.
Qed.
(** Importing: a connection to the node after the last is accepted; the next update reads past the states. *)
Lemma C40_import_refuted_lemma : forall a g x reset, dargs_ok a -> graph_sh a g -> len x = da_n_inputs a ->
  exists items g', import_connectivity g items = Ok g' /\ graph_update g' x reset = UB OutOfBounds.
Proof.
  intros a g x reset DA SH HX. pose proof DA as (D1 & D2 & D3 & D4 & D5 & D6).
  set (bad := da_n a + da_n_inputs a). set (items := repeat bad (Z.to_nat (da_n a * da_max_k a))).
  pose proof SH as ((E1 & E2 & E3 & E4 & E5 & E6 & ET & EM & ER) & LI & LS & LF & LC & FF & FC).
  assert (LZ : len items = da_n a * da_max_k a) by (apply len_repeat; nia).
  pose proof (C40_import_lemma a g items SH) as H.
  assert (EI : import_connectivity g items = Ok (mkGraph (d_evolve g) (d_initial g) (d_state g) items (d_func g) (d_klen g) (d_max_k g) (d_max_t g)
             (d_n g) (d_n_inputs g) (d_t g) (d_mu g))).
  { unfold import_connectivity. rewrite E2. fold (len items). rewrite LZ, Z.eqb_refl. cbn [negb].
    match goal with |- (if ?b then _ else _) = _ => destruct b eqn:EX end; [|rewrite <- E2; reflexivity].
    apply existsb_exists in EX. destruct EX as (c & Hc & X). apply repeat_spec in Hc. subst c. rewrite E5, E6 in X. unfold bad in X. apply orb_prop in X. rewrite !Z.ltb_lt in X. lia. }
  eexists _, _. split; [exact EI|]. clear H. set (g1 := mkGraph _ _ _ _ _ _ _ _ _ _ _ _).
  assert (SU : forall s, len s = da_n a -> synchronous_update (with_state g1 s) x = UB OutOfBounds).
  { intros s L. unfold synchronous_update. cbn [with_state g1 d_n d_max_k d_conn d_state d_n_inputs d_func]. rewrite E5, E3.
    destruct (Z.to_nat (da_n a)) as [|n] eqn:EN; [lia|]. cbn [otab]. destruct (Z.to_nat (da_max_k a)) as [|k] eqn:EK; [lia|]. cbn [otab].
    rewrite (rd_ok 0) by (change (d_conn g1) with items; rewrite LZ; nia). change (d_conn g1) with items.
    assert (AT : at_ 0 items (0 * da_max_k a + 0) = bad).
    { unfold items. apply at_repeat. nia. }
    rewrite AT. cbn [obind]. unfold bad. rewrite E6. destruct (Z.ltb_spec (da_n a + da_n_inputs a) (da_n_inputs a)); [lia|].
    rewrite rd_out by lia. reflexivity. }
  unfold graph_update. assert (E0 : exists s, (if reset then graph_reset g1 else Ok g1) = Ok (with_state g1 s) /\ len s = da_n a).
  { destruct reset; [|exists (d_state g); split; [reflexivity|exact LS]]. exists (d_initial g). split; [|exact LI].
    assert (R : graph_reset g1 = match graph_reset g with Ok h => Ok (with_state g1 (d_state h)) | Exit => Exit | UB k => UB k | OutOfFuel => OutOfFuel end).
    { unfold graph_reset. cbn [g1 d_n d_initial d_state]. destruct (ofor (d_n g) _ (d_state g)); reflexivity. }
    rewrite R, (reset_ok a DA g SH). reflexivity. }
  destruct E0 as (s & E0 & L). rewrite E0. cbn [obind]. unfold ofor. cbn [g1 d_t]. destruct (Z.to_nat (d_t g)) as [|n] eqn:EN; [lia|]. cbn [oloop].
  rewrite (SU s L). reflexivity.
Qed.

(** ** C41 for DGP rules. *)
(** The number in the outputs 1 .. n, low bit first. *)
Definition bits_value (s : list f64) (n : Z) : Z :=
  fold_left (fun z i => if fgt (at_ f0 s (i + 1)) fhalf then z + 2 ^ i else z) (iota n) 0.
Lemma bits_value_range s n : 0 <= n -> 0 <= bits_value s n < 2 ^ n.
Proof.
  intros H. pattern n. apply natlike_ind; [cbn; lia| |exact H]. clear n H. intros n Hn IH. unfold bits_value in *. unfold Z.succ. rewrite iota_S, fold_left_app by lia.
  cbn [fold_left]. rewrite Z.pow_add_r by lia. change (2 ^ 1) with 2. destruct (fgt _ fhalf); lia.
Qed.
Definition rg_ok (a : dargs) (c : rgraph) : Prop := graph_sh a (rg_graph c) /\ 0 <= rg_outputs c <= 31 /\ rg_outputs c < da_n a.

Section C41.
Context (K : cfg) (a : dargs) (DA : dargs_ok a) (P2 : pow2_exact (lm K)) (NA : 1 <= n_actions K).

Lemma compute_ok c : rg_ok a c ->
  rdgp_compute K c = Ok (Z.min (bits_value (d_state (rg_graph c)) (rg_outputs c)) (n_actions K - 1)).
Proof.
  intros ((_ & _ & LS & _) & (R0 & R1) & R2). unfold rdgp_compute. set (s := d_state (rg_graph c)) in *. 
  destruct (ofor_ind (fun n z => z = bits_value s n) (fun i z =>
     v <- graph_output (rg_graph c) (i + 1) ;;
     if fgt v fhalf then
       match to_int (m_pow (lm K) f2 (of_Z i)) with
       | None => UB BadCast
       | Some p => if in_int (z + p) then Ok (z + p) else UB IntOverflow
       end
     else Ok z)%out (rg_outputs c) 0) as (z & -> & ->).
  - lia.
  - reflexivity.
  - intros i z Hi ->. unfold graph_output. fold s. rewrite (rd_ok f0) by lia. cbn [obind].
    assert (EQ : bits_value s (i + 1) = if fgt (at_ f0 s (i + 1)) fhalf then bits_value s i + 2 ^ i else bits_value s i).
    { unfold bits_value. rewrite iota_S, fold_left_app by lia. reflexivity. }
    rewrite EQ. pose proof (bits_value_range s i ltac:(lia)) as BR. destruct (fgt (at_ f0 s (i + 1)) fhalf); [|eauto].
    pose proof (pow2_in i ltac:(lia)) as PW. rewrite P2 by lia. change (2 ^ 30) with 1073741824 in PW.
    rewrite to_int_of_Z by (apply in_int_iff; lia). 
    assert (II : in_int (bits_value s i + 2 ^ i) = true) by (apply in_int_iff; lia). rewrite II. eauto.
  - cbn [obind]. f_equal. pose proof (bits_value_range s (rg_outputs c) ltac:(lia)). unfold clamp_int.
    destruct (Z.ltb_spec (bits_value s (rg_outputs c)) 0); [lia|]. rewrite Z.gtb_ltb. destruct (Z.ltb_spec (n_actions K - 1) (bits_value s (rg_outputs c))); lia.
Qed.
(** Covering a DGP rule: the result matches or computes the action; the loop ends for either reason. *)
Lemma C41_dgp_lemma stateful fuel x action : da_n_inputs a <= len x -> forall c r, rg_ok a c ->
  match rdgp_cover K stateful fuel c x action r with
  | Ok (d, _) => rg_ok a d /\ rg_outputs d = rg_outputs c /\
      (fgt (at_ f0 (d_state (rg_graph d)) 0) fhalf = true \/ rdgp_compute K d = Ok action)
  | OutOfFuel => True
  | _ => False
  end.
Proof.
  intros HX. induction fuel as [|fuel IH]; intros c r RG; [exact I|]. cbn [rdgp_cover]. unfold bind at 1. pose proof RG as (SH & R1 & R2).
  destruct (rand_ok a DA _ (lm K) _ (src_any _) (rg_graph c) (proj1 SH) r I) as (g1 & r1 & -> & _ & (SH1 & _) & _).
  destruct (match_ok a DA stateful g1 x SH1 HX) as (s & E & SH' & _). unfold rdgp_match. cbn [rg_graph rg_outputs]. rewrite E. cbn [obind].
  unfold bind, lift. cbn [fst snd].
  assert (RG' : rg_ok a (mkRgraph (with_state g1 s) (rg_outputs c))) by (split; [exact SH'|split; assumption]).
  destruct (fgt (at_ f0 s 0) fhalf) eqn:EF.
  - cbn [ret]. split; [exact RG'|]. split; [reflexivity|]. left. exact EF.
  - rewrite (compute_ok _ RG'). set (z := Z.min _ _). destruct (Z.eqb_spec z action) as [EA|EA].
    + cbn [ret]. split; [exact RG'|]. split; [reflexivity|]. right. rewrite (compute_ok _ RG'). fold z. now rewrite EA.
    + specialize (IH (mkRgraph (with_state g1 s) (rg_outputs c)) r1 RG'). destruct (rdgp_cover K stateful fuel _ x action r1) as [[d r2]| | |]; try contradiction; [|exact I].
      exact IH.
Qed.
(** With no more nodes than action outputs, computing the action reads past the states. *)
Lemma C41_short_lemma c : graph_sh a (rg_graph c) -> da_n a <= rg_outputs c -> da_n a <= 31 -> rdgp_compute K c = UB OutOfBounds.
Proof.
  intros (_ & _ & LS & _) R H31. unfold rdgp_compute, ofor. destruct DA as (D1 & _). set (s := d_state (rg_graph c)) in *.
  assert (G : forall n i z, i + Z.of_nat n = rg_outputs c -> 0 <= i <= da_n a - 1 -> 0 <= z < 2 ^ i ->
    oloop n i (fun i z =>
     v <- graph_output (rg_graph c) (i + 1) ;;
     if fgt v fhalf then
       match to_int (m_pow (lm K) f2 (of_Z i)) with
       | None => UB BadCast
       | Some p => if in_int (z + p) then Ok (z + p) else UB IntOverflow
       end
     else Ok z)%out z = UB OutOfBounds).
  { induction n as [|n IH]; intros i z Hn Hi Hz; [lia|]. cbn [oloop]. unfold graph_output. fold s.
    destruct (Z.eq_dec i (da_n a - 1)) as [->|D].
    - rewrite rd_out by lia. reflexivity.
    - rewrite (rd_ok f0) by lia. cbn [obind]. pose proof (pow2_in i ltac:(lia)) as PW. change (2 ^ 30) with 1073741824 in PW.
      assert (Z1 : 2 ^ (i + 1) = 2 * 2 ^ i) by (rewrite Z.pow_add_r by lia; lia).
      destruct (fgt (at_ f0 s (i + 1)) fhalf).
      + rewrite P2 by lia. rewrite to_int_of_Z by (apply in_int_iff; lia).
        assert (II : in_int (z + 2 ^ i) = true) by (apply in_int_iff; lia). rewrite II. cbn [obind]. apply IH; lia.
      + cbn [obind]. apply IH; lia. }
  rewrite G; [reflexivity|lia|lia|cbn; lia].
Qed.
End C41.
Lemma at_most_4 v : fle (of_Z (-4)) v = true -> fle v (of_Z 4) = true -> is_finite v = true /\ (Rabs (B2R v) <= bpow radix2 2)%R.
Proof.
  intros L U. destruct (of_Z_fin 4 ltac:(lia)) as (F4 & R4). destruct (of_Z_fin (-4) ltac:(lia)) as (F5 & R5).
  destruct (fin_between (of_Z (-4)) (of_Z 4) v F5 F4 L U) as (F & B). split; [exact F|]. rewrite R4, R5 in B. apply Rabs_le. change (bpow radix2 2) with 4%R. lra.
Qed.
