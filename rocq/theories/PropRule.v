(** * Covering with rule-level representations (property C41); the DGP part is in PropDgp.v. *)
From Coq Require Import ZArith Bool List Lia.
From Verif Require Import Outcome F64 Rng RngFacts RandInt Sam SamFacts Pop PopSpec Arr ArrFacts Blas BlasFacts Clock Comp Env EnvFacts Dgp DgpFacts PropDgp Act Image Layer LayerFacts MutFacts UpdFacts PropMut Loss Demo Net NetFacts NetLayer NetChain PropNet.
Import ListNotations.
Open Scope Z_scope.

(** The outputs of a network as it last computed them. *)
Definition outputs (n : nn f64) : list f64 := match out_layer n with Some p => l_output p | None => [] end.
(** A network rule: one output for the condition and up to 31 for the action. *)
Definition rnet_ok (c : nn f64) : Prop := net_ok c /\ faces c /\ 1 <= nn_outputs c <= 32.

Lemma rnet_same c ls : rnet_ok c -> net_ok (with_layers c ls) -> map dims ls = map dims (nn_layers c) -> rnet_ok (with_layers c ls).
Proof. intros (_ & F & B) H D. split; [exact H|]. split; [now apply faces_same|exact B]. Qed.
Lemma outputs_ok c i : net_ok c -> faces c -> 0 <= i < nn_outputs c -> neural_output c i = Ok (at_ f0 (outputs c) i).
Proof. intros H F HI. destruct (output_ok c i H F HI) as (p & O & E). unfold outputs. rewrite O. exact E. Qed.
Lemma map_content_dims (ls ls' : list (layer f64)) : map content ls' = map content ls -> map dims ls' = map dims ls.
Proof. intros E. apply (f_equal (map (fun d => fst (fst (fst (fst (fst d))))))) in E. rewrite !map_map in E. exact E. Qed.

Section Rule.
Context (K : cfg) (P2 : pow2_exact (lm K)) (NA : 1 <= n_actions K).

Lemma rnet_compute_ok c : rnet_ok c -> rnet_compute K c = Ok (Z.min (bits_value (outputs c) (nn_outputs c - 1)) (n_actions K - 1)).
Proof.
  intros (H & F & R0 & R1). unfold rnet_compute.
  match goal with |- obind (ofor _ ?f _) _ = _ => destruct (ofor_ind (fun n z => z = bits_value (outputs c) n) f (nn_outputs c - 1) 0) as (z & -> & ->) end.
  - lia.
  - reflexivity.
  - intros i z Hi ->. rewrite (outputs_ok c (i + 1) H F) by lia. cbn [obind]. set (s := outputs c).
    assert (EQ : bits_value s (i + 1) = if fgt (at_ f0 s (i + 1)) fhalf then bits_value s i + 2 ^ i else bits_value s i).
    { unfold bits_value. rewrite iota_S, fold_left_app by lia. reflexivity. }
    rewrite EQ. pose proof (bits_value_range s i ltac:(lia)) as BR. destruct (fgt (at_ f0 s (i + 1)) fhalf); [|eauto].
    pose proof (pow2_in i ltac:(lia)) as PW. rewrite P2 by lia. change (2 ^ 30) with 1073741824 in PW.
    rewrite to_int_of_Z by (apply in_int_iff; lia).
    assert (II : in_int (bits_value s i + 2 ^ i) = true) by (apply in_int_iff; lia). rewrite II. eauto.
  - cbn [obind]. f_equal. pose proof (bits_value_range (outputs c) (nn_outputs c - 1) ltac:(lia)). unfold clamp_int.
    destruct (Z.ltb_spec (bits_value (outputs c) (nn_outputs c - 1)) 0); [lia|]. rewrite Z.gtb_ltb. destruct (Z.ltb_spec (n_actions K - 1) (bits_value (outputs c) (nn_outputs c - 1))); lia.
Qed.
Lemma net_match_ok train c x g : rnet_ok c -> nn_inputs c <= len x ->
  exists d g', net_match K train c x g = Ok (d, fgt (at_ f0 (outputs d) 0) fhalf, g') /\ rnet_ok d /\ nn_inputs d = nn_inputs c /\ nn_outputs d = nn_outputs c /\
    map content (nn_layers d) = map content (nn_layers c).
Proof.
  intros R L. pose proof R as (H & F & B). destruct (C66_propagate_lemma (lm K) train c x g H L) as (ls & g' & E & H' & C').
  assert (R' : rnet_ok (with_layers c ls)) by (apply rnet_same; [exact R|exact H'|now apply map_content_dims]).
  exists (with_layers c ls), g'. unfold net_match, bind. rewrite E. pose proof R' as (_ & F' & B'). rewrite (outputs_ok _ 0 H' F') by lia.
  split; [reflexivity|]. split; [exact R'|]. split; [reflexivity|]. split; [reflexivity|exact C'].
Qed.
Lemma C41_neural_lemma (train : bool) (fuel : nat) (x : list f64) (action : Z) : forall (c : nn f64) (g : rng), rnet_ok c -> nn_inputs c <= len x ->
  match rnet_cover K train fuel c x action g with
  | Ok (d, _) => rnet_ok d /\ nn_outputs d = nn_outputs c /\
      (fgt (at_ f0 (outputs d) 0) fhalf = true \/ rnet_compute K d = Ok action)
  | OutOfFuel => True
  | _ => False
  end.
Proof.
  induction fuel as [|fuel IH]; intros c g R L; [exact I|]. cbn [rnet_cover]. unfold bind at 1. pose proof R as (H & F & B).
  destruct (C66_rand_lemma (lm K) c g H) as (ls & g1 & -> & H1 & D1).
  assert (R1 : rnet_ok (with_layers c ls)) by (apply rnet_same; assumption).
  destruct (net_match_ok train (with_layers c ls) x g1 R1 L) as (d & g2 & E & R2 & NI & NO & _). unfold bind at 1. rewrite E. cbv iota beta.
  destruct (fgt (at_ f0 (outputs d) 0) fhalf) eqn:EF.
  - cbn [ret]. split; [exact R2|]. split; [exact NO|]. left. exact EF.
  - unfold bind, lift. rewrite (rnet_compute_ok d R2). set (z := Z.min _ _). destruct (Z.eqb_spec z action) as [EA|EA].
    + cbn [ret]. split; [exact R2|]. split; [exact NO|]. right. rewrite (rnet_compute_ok d R2). f_equal. exact EA.
    + specialize (IH d g2 R2 ltac:(rewrite NI; exact L)). destruct (rnet_cover K train fuel d x action g2) as [(e, g3)| | |]; try contradiction; [|exact I].
      destruct IH as (I1 & I2 & I3). split; [exact I1|]. split; [rewrite I2; exact NO|exact I3].
Qed.
End Rule.

(** ** Witnesses *)
Definition bit_pow (x y : f64) : f64 := match to_int y with Some k => if 0 <=? k then of_Z (2 ^ k) else fhalf | None => finf end.
Definition bit_lm : libm := mkLibm (m_exp const_lm) (m_log const_lm) (m_sin const_lm) (m_cos const_lm) (m_tanh const_lm) bit_pow (m_expm1 const_lm) (m_log1p const_lm).
Lemma bit_pow_ok : pow2_exact bit_lm.
Proof.
  intros i Hi. cbn [m_pow bit_lm]. unfold bit_pow. rewrite to_int_of_Z by (apply in_int_iff; lia). destruct (Z.leb_spec 0 i); [reflexivity|lia].
Qed.
(** Two actions. *)
Definition rule_cfg : cfg := mkCfg 2 1 1 10 20 10000 1 50
  (lit 1 10) (lit 1 5) (lit 1 10) (lit 1 2) f0 (lit 1 100) (of_Z 5) (lit 95 100) (lit 9 10)
  false false true false (lit 2 5) (of_Z 2) 2 false false f1 (lit 1 10)
  (loss_fun bit_lm 1 f1 LOSS_MSE) bit_lm 100 false.
Definition one_bit (x : f64) : f64 := f1.

(** One input, two neurons with linear activation. *)
Definition rule_args : list largs := [mkLargs CONNECTED 1 2 2 0 LINEAR 0 0 0 0 0 0 fhalf f0 f0 f0 f0 f0 true false true true true true].
Lemma rule_args_ok : args_ok 1 rule_args.
Proof. split; [reflexivity|]. split; [lia|]. cbn [rule_args args_fit]. split; [left; vm_compute; intuition congruence|exact I]. Qed.

Lemma C41_refuted_neural_lemma : exists (K : cfg) (args : list largs) (log2 : f64 -> f64) (c : nn f64) (g0 g0' : rng) (x : list f64) (action : Z) (fuel : nat),
  pow2_exact (lm K) /\ args_ok (len x) args /\ 0 <= action < n_actions K /\ rnet_init K args log2 g0 = Ok (c, g0') /\
  (exists g d g', rnet_cover K false fuel c x action g = Ok (d, g') /\ rnet_compute K d = Ok action /\
     exists e g2, net_match K false d x g' = Ok (e, false, g2)) /\
  (exists g d g' z, rnet_cover K false fuel c x action g = Ok (d, g') /\ rnet_compute K d = Ok z /\ z <> action).
Proof.
  assert (X : match rnet_init rule_cfg rule_args one_bit tape3 with
    | Ok (c, _) =>
      match rnet_cover rule_cfg false 100 c [f1] 1 tape3, rnet_cover rule_cfg false 100 c [f1] 1 tape3c with
      | Ok (d, g'), Ok (d2, _) => (rnet_compute rule_cfg d, match net_match rule_cfg false d [f1] g' with Ok (_, b, _) => negb b | _ => false end, rnet_compute rule_cfg d2) = (Ok 1, true, Ok 0)
      | _, _ => False
      end
    | _ => False
    end) by (vm_compute; reflexivity).
  exists rule_cfg, rule_args, one_bit. destruct (rnet_init rule_cfg rule_args one_bit tape3) as [(c, g0')| | |] eqn:E0; try contradiction X.
  exists c, tape3, g0', [f1], 1, 100%nat. split; [exact bit_pow_ok|]. split; [exact rule_args_ok|]. split; [vm_compute; intuition congruence|]. split; [exact E0|].
  destruct (rnet_cover rule_cfg false 100 c [f1] 1 tape3) as [(d, g')| | |] eqn:E1; try contradiction X.
  destruct (rnet_cover rule_cfg false 100 c [f1] 1 tape3c) as [(d2, g2')| | |] eqn:E2; try contradiction X.
  injection X as X1 X2 X3. split.
  - exists tape3, d, g'. split; [exact E1|]. split; [exact X1|]. destruct (net_match rule_cfg false d [f1] g') as [((e, b), g2)| | |]; try discriminate X2. exists e, g2. destruct b; [discriminate X2|reflexivity].
  - exists tape3c, d2, g2', 0. split; [exact E2|]. split; [exact X3|discriminate].
Qed.

(** Two nodes, one connection each, one cycle, one input; a constant tape. *)
Definition rule_dargs : dargs := mkDargs false 1 1 2 1.
Definition half_tape : rng := mkRng (fun _ => 2 ^ 51) 0 false f0.
Lemma C41_refuted_dgp_lemma : exists (K : cfg) (a : dargs) (log2 : f64 -> f64) (c : rgraph) (g0 g0' : rng) (fuel : nat),
  pow2_exact (lm K) /\ dargs_ok a /\ rdgp_init K a log2 g0 = Ok (c, g0') /\
  (exists x action g d g', 0 <= action < n_actions K /\ len x = da_n_inputs a /\ rdgp_cover K false fuel c x action g = Ok (d, g') /\ rdgp_compute K d = Ok action /\
     exists e, rdgp_match false d x = Ok (e, false)) /\
  (exists x action g d g' z, 0 <= action < n_actions K /\ len x = da_n_inputs a /\ rdgp_cover K false fuel c x action g = Ok (d, g') /\ rdgp_compute K d = Ok z /\ z <> action).
Proof.
  assert (X : match rdgp_init rule_cfg rule_dargs one_bit half_tape with
    | Ok (c, _) =>
      match rdgp_cover rule_cfg false 10 c [f0] 0 half_tape, rdgp_cover rule_cfg false 10 c [f1] 0 half_tape with
      | Ok (d, g'), Ok (d2, _) => (rdgp_compute rule_cfg d, match rdgp_match false d [f0] with Ok (_, b) => negb b | _ => false end, rdgp_compute rule_cfg d2) = (Ok 0, true, Ok 1)
      | _, _ => False
      end
    | _ => False
    end) by (vm_compute; reflexivity).
  exists rule_cfg, rule_dargs, one_bit. destruct (rdgp_init rule_cfg rule_dargs one_bit half_tape) as [(c, g0')| | |] eqn:E0; try contradiction X.
  exists c, half_tape, g0', 10%nat. split; [exact bit_pow_ok|]. split; [vm_compute; intuition congruence|]. split; [exact E0|].
  destruct (rdgp_cover rule_cfg false 10 c [f0] 0 half_tape) as [(d, g')| | |] eqn:E1; try contradiction X.
  destruct (rdgp_cover rule_cfg false 10 c [f1] 0 half_tape) as [(d2, g2')| | |] eqn:E2; try contradiction X.
  injection X as X1 X2 X3. split.
  - exists [f0], 0, half_tape, d, g'. split; [vm_compute; intuition congruence|]. split; [reflexivity|]. split; [exact E1|]. split; [exact X1|]. destruct (rdgp_match false d [f0]) as [(e, b)| | |]; try discriminate X2. exists e. destruct b; [discriminate X2|reflexivity].
  - exists [f1], 0, half_tape, d2, g2', 1. split; [vm_compute; intuition congruence|]. split; [reflexivity|]. split; [exact E2|]. split; [exact X3|discriminate].
Qed.
