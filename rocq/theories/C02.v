(** * C02 Population never exceeds its configured size. *)
From Coq Require Import ZArith Bool List.
From Verif Require Import Outcome F64 F64Bounds Rng Pop PopSpec PopFit PopRL PopSeq PropPop Cond Pred Comp Demo.
Import ListNotations.
Open Scope Z_scope.

(** Whatever operations have run, the total numerosity is at most the configured size. *)
Theorem C02_size_limit :
  forall (B : Type) (FO : Prop) (V : vtab B) (K : cfg) (kf : Z) (wf : B -> Prop) (mt : B -> list f64 -> Prop)
    (dom : list f64 -> Prop) (E : Type) (VE : env E) (einv : E -> Prop),
  cfg_ok K kf -> vt_ok (dom := dom) FO V K wf mt -> (ea_tournament K = true -> FO) ->
  env_ok (dom := dom) FO K VE einv ->
  forall (os : list op) (s : st B), (forall l, s_heap s l = None) ->
  Forall (op_ok (dom := dom) FO K kf wf einv) os -> costs K os <= 2 ^ 53 ->
  hpost FO ((xcsf_init V K ;;; run_ops V K VE os)%m s) (fun _ s' =>
    sum_nums (s_heap s') (set_list (s_pset s')) <= POP_SIZE K).
Proof. exact @C02_lemma. Qed.
Print Assumptions C02_size_limit.

(** The limit of eight is reached, in a system whose learning would exceed it. *)
Example C02_example :
  cfg_ok K2 0 /\ vt_ok (dom := any_x) True V2 K2 (rect_wf K2) (rect_mt K2) /\
  env_ok (dom := any_x) True K2 corridor (fun _ => True) /\
  Forall (op_ok (dom := any_x) True K2 0 (rect_wf K2) (fun _ => True)) demo_ops /\ costs K2 demo_ops <= 2 ^ 53 /\
  shape ((xcsf_init V2 K2 ;;; run_ops V2 K2 corridor demo_ops)%m (blank_state 1)) =
    Some ([24; 23; 22; 19; 18; 13]%nat, [1; 1; 1; 2; 1; 2], 6, POP_SIZE K2).
Proof.
  exact (conj K2_ok (conj (V2_ok True) (conj (corridor_K2 True) (conj demo_ops_ok (conj demo_cost demo_shape))))).
Qed.
