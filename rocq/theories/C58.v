(** * C58 Clock and counters do not overflow. *)
From Coq Require Import ZArith Bool List.
From Verif Require Import Outcome F64 F64Facts F64Bounds Rng RngFacts Pop PopSpec PopInv PopUpdate PopPA PopTrial PopFit PopRL PopOps PopSeq PopClock Clock Arr Cond Blas Pred Comp CompFacts Demo DemoEx PropStore PropMulti PropClock.
Import ListNotations.
Open Scope Z_scope.

(** After any operations: if the population limit times the clock (or the latest time stamp T of a
    rule inserted from outside, if that is later) fits into an int, the next training trial
    evaluates the trigger of the EA without overflow, to the value it has in unbounded arithmetic.
    [all_ticks] bounds the clock: one tick per training trial, two per reinforcement learning step.
    [before_ea] is the trial up to the EA. *)
Theorem C58_training :
  forall (B : Type) (FO : Prop) (V : vtab B) (K : cfg) (kf : Z) (wf : B -> Prop)
    (mt : B -> list f64 -> Prop),
  cfg_ok K kf ->
  forall dom : list f64 -> Prop,
  vt_ok (dom := dom) FO V K wf mt ->
  forall (E : Type) (VE : env E) (einv : E -> Prop),
  env_ok (dom := dom) FO K VE einv ->
  (ea_tournament K = true -> FO) ->
  forall (T : Z) (os : list op) (x y : list f64) (s : st B),
  (forall l : loc, s_heap s l = None) ->
  Forall (op_ok (dom := dom) FO K kf wf einv) os ->
  Forall (op_stamped T) os ->
  costs K os + 1 <= 2 ^ 53 ->
  xok K dom x ->
  Z.of_nat (length y) = y_dim K ->
  POP_SIZE K * Z.max (all_ticks K os + 1) T <= int_max ->
  hpost FO ((xcsf_init V K;;; run_ops V K VE os;;; before_ea V K x y) s)
    (fun (_ : unit) (c : st B) =>
     exists cs : list (cl B),
       map (s_heap c) (set_list (s_mset c)) = map Some cs /\ trigger_c K MSET c = Ok (due K MSET c cs)).
Proof. exact @C58_training_lemma. Qed.
Print Assumptions C58_training.

(** A training trial is [before_ea], then the EA, then freeing the removed rules. *)
Theorem C58_split :
  forall (B : Type) (V : vtab B) (K : cfg) (T : Z) (x y : list f64) (s : st B),
  stamped T s ->
  s_explore s = true ->
  supervised_trial V K x y None s =
  (before_ea V K x y;;; ea V K MSET;;; clset_kill KSET;;; clset_free MSET) s.
Proof. exact @C58_split_lemma. Qed.
Print Assumptions C58_split.

(** For any set (match or action set) of any state meeting the population invariant. *)
Theorem C58_step :
  forall (B : Type) (K : cfg) (kf : Z) (wf : B -> Prop),
  cfg_ok K kf ->
  forall (T N : Z) (w : sel) (s : st B) (ex0 : list loc),
  Inv K kf N wf s ex0 ->
  PopSpec.act_ok s (get_set w s) ->
  set_nm (s_pset s) <= POP_SIZE K ->
  stamped T s ->
  POP_SIZE K * Z.max (s_time s + 1) T <= int_max ->
  exists cs : list (cl B),
    map (s_heap s) (set_list (get_set w s)) = map Some cs /\ trigger_c K w s = Ok (due K w s cs).
Proof. exact @C58_step_lemma. Qed.
Print Assumptions C58_step.

(** Reachable states: every time stamp is between 0 and the clock (or T), and no rule has matched
    more often than it was tested. *)
Theorem C58_clock :
  forall (B : Type) (FO : Prop) (V : vtab B) (K : cfg) (kf : Z) (wf : B -> Prop)
    (mt : B -> list f64 -> Prop),
  cfg_ok K kf ->
  forall dom : list f64 -> Prop,
  vt_ok (dom := dom) FO V K wf mt ->
  forall (E : Type) (VE : env E) (einv : E -> Prop),
  env_ok (dom := dom) FO K VE einv ->
  (ea_tournament K = true -> FO) ->
  forall (T : Z) (os : list op) (s : st B),
  (forall l : loc, s_heap s l = None) ->
  Forall (op_ok (dom := dom) FO K kf wf einv) os ->
  Forall (op_stamped T) os ->
  costs K os <= 2 ^ 53 ->
  hpost FO ((xcsf_init V K;;; run_ops V K VE os) s)
    (fun (_ : unit) (s' : st B) =>
     Good K kf (costs K os) wf s' /\ stamped T s' /\ s_time s' <= all_ticks K os).
Proof. exact @C58_life_lemma. Qed.
Print Assumptions C58_clock.

(** REFUTED for trial counts far below INT_MAX: with the population limit 2000, one rule of
    numerosity 2000 whose time stamp is 1073742 makes the product overflow. *)
Theorem C58_refuted :
  exists (x y : list f64) (s c : st body),
    Good Kbig 0 5 (rect_wf Kbig) s /\
    stamped 1073742 s /\
    before_ea (rect_tab Kbig) Kbig x y s = Ok (tt, c) /\ trigger_c Kbig MSET c = UB IntOverflow.
Proof. exact @C58_refuted_lemma. Qed.
Print Assumptions C58_refuted.

(** Six rules: the bound holds, the trial reaches the EA and the trigger is evaluated. *)
Example C58_example :
  cfg_ok (Kl 2 (of_Z 2)) 0 /\ vt_ok (dom := any_x) True (rect_tab (Kl 2 (of_Z 2))) (Kl 2 (of_Z 2)) (rect_wf (Kl 2 (of_Z 2))) (rect_mt (Kl 2 (of_Z 2))) /\
  exists s : st body, is_ready 2 (of_Z 2) (cost 2 (of_Z 2) six) s /\
    (POP_SIZE (Kl 2 (of_Z 2)) * Z.max (s_time s + 1) 0 <=? int_max, run (before_ea (rect_tab (Kl 2 (of_Z 2))) (Kl 2 (of_Z 2)) x1 [f1]) s (fun _ c => (length (set_list (s_mset c)), match trigger_c (Kl 2 (of_Z 2)) MSET c with Ok b => Some b | _ => None end))) =
      (true, Some (4%nat, Some false)).
Proof.
  split; [apply Kl_ok|split; [apply Vl_ok|]].
  apply (look_stage 2 (of_Z 2) six (fun s => (POP_SIZE (Kl 2 (of_Z 2)) * Z.max (s_time s + 1) 0 <=? int_max, run (before_ea (rect_tab (Kl 2 (of_Z 2))) (Kl 2 (of_Z 2)) x1 [f1]) s (fun _ c => (length (set_list (s_mset c)), match trigger_c (Kl 2 (of_Z 2)) MSET c with Ok b => Some b | _ => None end)))) _);
    [apply six_fine|vm_compute; discriminate|vm_compute; reflexivity].
Qed.
