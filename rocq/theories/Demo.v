(** * Small concrete systems, used to show that the hypotheses of the theorems can be met. *)
From Coq Require Import ZArith Bool List Reals Lia Lra.
From Flocq Require Import Core BinarySingleNaN.
From Verif Require Import Outcome F64 F64Facts F64Bounds Rng RngFacts Pop PopSpec PopFit PopRL PopOps PopSeq
  Arr Cond Blas Pred Loss Comp ArrFacts SamFacts TernFacts RectFacts EllipFacts PredFacts CompFacts.
Import ListNotations.
Open Scope Z_scope.

(** Mathematical functions that meet the contracts (not meant to be accurate). *)
Definition demo_pow (x y : f64) : f64 :=
  if feq x f2 && fge y f1 then match to_int y with Some k => of_Z (2 ^ k) | None => finf end else fhalf.
Definition demo_lm : libm := mkLibm (fun _ => f1) (fun _ => fneg f1) (fun _ => fhalf) (fun _ => fhalf)
  (fun _ => f0) demo_pow (fun _ => f1) (fun _ => f1).

(** Two inputs, [n] actions, [y] outputs, at most [pop] micro-rules. *)
Definition demo_cfg (n y pop : Z) (tour subs reset vla : bool) : cfg := mkCfg n 2 y pop 20 10000 1 50
  (lit 1 10) (lit 1 5) (lit 1 10) (lit 1 2) f0 (lit 1 100) (of_Z 5) (lit 95 100) (lit 9 10)
  false subs true tour (lit 2 5) (of_Z 2) 2 subs reset f1 (lit 1 10)
  (loss_fun demo_lm y f1 LOSS_MSE) demo_lm 100 vla.
Definition demo_cpar (type : Z) : cpar := mkCpar type (lit 1 10) f1 f0 fhalf (lit 1 10) 2 (lit 8 10).
Definition demo_ppar (type : Z) : ppar := mkPpar type true (lit 1 10) (lit 1 1000) f1 (of_Z 100) f1.


Lemma demo_pow_ok : pow_ok demo_pow.
Proof.
  intros x y _ Hy. unfold demo_pow.
  assert (E : fge y f1 = false).
  { unfold fge. fold (fle f1 y). destruct (fle f1 y) eqn:E; [exfalso|reflexivity].
    destruct (fle_nn _ _ E) as (_ & Ny). apply fle_X in E; [|apply nn_f1|exact Ny]. apply fle_X in Hy; [|exact Ny|reflexivity].
    rewrite X_f1 in E. rewrite X_f0 in Hy. lra. }
  rewrite E, andb_false_r. split; reflexivity.
Qed.

Lemma demo_cfg_ok n y pop tour subs reset vla : 1 <= n <= int_max -> 1 <= y -> 1 <= pop <= int_max ->
  cfg_ok (demo_cfg n y pop tour subs reset vla) 0.
Proof.
  intros Hn Hy Hp. constructor; cbn; try lia; try assumption; try reflexivity; try (apply fle_01_in; reflexivity).
  - assert (fin_in 0 1 (lit 1 100)) as (F & H) by (apply fle_01_in; reflexivity). split; [reflexivity|split; [reflexivity|apply H]].
  - assert (fin_in 0 1 (lit 1 10)) as (F & H) by (apply fle_01_in; reflexivity). split; [reflexivity|split; [reflexivity|apply H]].
  - exact demo_pow_ok.
Qed.

(** Pseudo-random tapes. *)
Definition demo_tape (seed : Z) (i : nat) : Z :=
  let z := Z.of_nat i + seed in ((z * z * z + 12345 * z + 678) * 2862933555777941757 / 1024) mod 2 ^ 52.
Definition demo_rng (seed : Z) : rng := mkRng (demo_tape seed) 0 false f0.
Definition blank_state {B} (seed : Z) : st B := mkSt (fun _ => None) 0%nat empty_set empty_set empty_set empty_set empty_set empty_set
  0 f0 f0 f0 f0 f0 f0 [] [] [] false (demo_rng seed).

(** ** Rules with hyperrectangle conditions, integer actions and NLMS predictions. *)
Section Rect.
Context (K : cfg).
Definition rect_tab := join (rect_cond K (demo_cpar COND_TYPE_HYPERRECTANGLE_CSR)) (integer_act K)
                            (nlms_pred K (demo_ppar PRED_TYPE_NLMS_LINEAR)).
Definition rect_wf := wf_pay (wf_rect K) (act_wf K) (wf_nlms K (demo_ppar PRED_TYPE_NLMS_LINEAR)).
Definition rect_mt := mt_pay (A := actint) (P := nlms) (box K (demo_cpar COND_TYPE_HYPERRECTANGLE_CSR)).
Lemma rect_tab_ok FO : 1 <= x_dim K -> 1 <= y_dim K -> 1 <= n_actions K <= int_max ->
  vt_ok (dom := fun _ => True) FO rect_tab K rect_wf rect_mt.
Proof.
  intros HX HY HN. apply join_ok.
  - apply rect_ok; [exact HX|reflexivity].
  - apply integer_ok; exact HN.
  - apply nlms_ok; try assumption. left; reflexivity.
Qed.
End Rect.

Definition demo_data : input := mkInput
  [[lit 1 4; lit 1 2]; [lit 3 4; lit 1 8]; [lit 1 2; lit 7 8]] [[f1]; [f0]; [lit 1 2]].

(** A corridor: [e] steps to the end; staying pays nothing, moving on pays one at the end. *)
Definition corridor : env nat := mkEnv nat
  (fun _ => ret 2%nat) (fun e => ret (e, [lit (Z.of_nat e) 4; fhalf]))
  (fun e a => ret (if a =? 0 then e else Nat.pred e, if a =? 0 then f0 else f1))
  (fun e => match e with O => true | _ => false end) (fun _ => f1) true.

(** A system with two actions and at most eight micro-rules: ten trials of learning, a
    snapshot, predictions, going back, scoring, reinforcement learning. *)
Definition K2 : cfg := demo_cfg 2 1 8 false true false false.
Definition V2 := rect_tab K2.
Definition any_x : list f64 -> Prop := fun _ => True.
Definition demo_ops : list (op (B := payload rect actint nlms) (E := nat)) :=
  [OFit demo_data None true 0 10; OStore; OPredict (in_x demo_data) (Some [f0; f1]); ORetrieve;
   OScore demo_data 2 None; ORlTrial 2%nat true; ORlFit [fhalf; fhalf] 1 f1].

Lemma K2_ok : cfg_ok K2 0.
Proof. apply demo_cfg_ok; unfold int_max; lia. Qed.
Lemma V2_ok FO : vt_ok (dom := any_x) FO V2 K2 (rect_wf K2) (rect_mt K2).
Proof. apply rect_tab_ok; cbn; unfold int_max; lia. Qed.
Lemma K2_roulette (FO : Prop) : ea_tournament K2 = true -> FO.
Proof. discriminate. Qed.
Lemma corridor_ok FO n y pop tour subs reset vla : env_ok (dom := any_x) FO (demo_cfg n y pop tour subs reset vla) corridor (fun _ => True).
Proof.
  exists (fun _ => True). split; [|split; [auto|intros e _ g; exact I]].
  intros e _ g. split; [split; [reflexivity|exact I]|]. intros a _ g'. exact I.
Qed.
Lemma demo_data_ok n pop tour subs reset vla : data_ok (dom := any_x) (demo_cfg n 1 pop tour subs reset vla) demo_data.
Proof. repeat split; try (cbn; unfold int_max; lia); repeat constructor. Qed.
Lemma demo_ops_ok : Forall (op_ok (dom := any_x) True K2 0 (rect_wf K2) (E := nat) (fun _ => True)) demo_ops.
Proof.
  unfold demo_ops. repeat match goal with |- Forall _ (_ :: _) => apply Forall_cons | |- Forall _ [] => apply Forall_nil end; cbn [op_ok]; try exact I.
  - split; [apply demo_data_ok|split; [discriminate|lia]].
  - split; [apply (demo_data_ok 2 8 false true false false)|]. intros c E. injection E as <-. cbn. lia.
  - split; [apply demo_data_ok|split; [discriminate|lia]].
  - cbn. repeat split. lia.
  - cbn. repeat split.
Qed.

(** The members of the population, their numerosities, and the two counters. *)
Definition shape {B} (o : outcome (unit * st B)) : option (list loc * list Z * Z * Z) :=
  match o with
  | Ok (_, s) => Some (set_list (s_pset s), map (num_of (s_heap s)) (set_list (s_pset s)), set_sz (s_pset s), set_nm (s_pset s))
  | _ => None
  end.
Lemma demo_shape : shape ((xcsf_init V2 K2 ;;; run_ops V2 K2 corridor demo_ops)%m (blank_state 1)) =
  Some ([24; 23; 22; 19; 18; 13]%nat, [1; 1; 1; 2; 1; 2], 6, 8).
Proof. vm_compute. reflexivity. Qed.
Lemma shape_ok {B} (FO : Prop) (o : outcome (unit * st B)) (P : st B -> Prop) ls ns z n : shape o = Some (ls, ns, z, n) ->
  hpost FO o (fun _ s => P s) -> exists s, o = Ok (tt, s) /\ P s /\ set_list (s_pset s) = ls /\
  map (num_of (s_heap s)) (set_list (s_pset s)) = ns.
Proof.
  intros H G. destruct o as [[[] s]| | |]; try discriminate H. exists s.
  cbn [shape] in H. injection H as H1 H2 H3 H4. cbn [hpost] in G. auto.
Qed.
Lemma demo_cost : costs K2 demo_ops <= 2 ^ 53.
Proof. vm_compute. discriminate. Qed.
Lemma corridor_K2 FO : env_ok (dom := any_x) FO K2 corridor (fun _ => True).
Proof. apply corridor_ok. Qed.
(** The number of live rules, among those allocated. *)
Definition live_count {B} (o : outcome (unit * st B)) : option (nat * nat) :=
  match o with
  | Ok (_, s) => Some (length (filter (fun l => match s_heap s l with Some _ => true | None => false end) (seq 0 (s_next s))), s_next s)
  | _ => None
  end.
Lemma demo_live : live_count ((xcsf_init V2 K2 ;;; run_ops V2 K2 corridor demo_ops)%m (blank_state 1)) = Some (6, 25)%nat.
Proof. vm_compute. reflexivity. Qed.
Lemma demo_freed : live_count ((xcsf_init V2 K2 ;;; run_ops V2 K2 corridor demo_ops ;;; xcsf_free K2)%m (blank_state 1)) = Some (0, 25)%nat.
Proof. vm_compute. reflexivity. Qed.

(** A finite double as sign, mantissa and exponent. *)
Definition parts (x : f64) : option (bool * positive * Z) :=
  match x with B754_finite s m e _ => Some (s, m, e) | _ => None end.
Definition fitnesses {B} (o : outcome (unit * st B)) : list (option (bool * positive * Z)) :=
  match o with
  | Ok (_, s) => map (fun l => match s_heap s l with Some c => parts (c_fit c) | None => None end) (set_list (s_pset s))
  | _ => []
  end.
Lemma demo_fitness : fitnesses ((xcsf_init V2 K2 ;;; run_ops V2 K2 corridor demo_ops)%m (blank_state 1)) =
  map Some [(false, 8484717752890107%positive, -57); (false, 8484717752890107%positive, -57);
            (false, 4625558318919413%positive, -61); (false, 4998835723691480%positive, -55);
            (false, 5385336819610553%positive, -56); (false, 4759269281626250%positive, -54)].
Proof. vm_compute. reflexivity. Qed.
