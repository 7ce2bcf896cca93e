(** * C03 Rule memory is released exactly once and never used after release. *)
From Coq Require Import ZArith Bool List.
From Verif Require Import Outcome F64 F64Bounds Rng Pop PopSpec PopFit PopRL PopSeq PropPop Cond Pred Comp Demo.
Import ListNotations.
Open Scope Z_scope.

(** No operation ends in undefined behaviour (in particular not in a use after free or a
    double free); between operations the live rules are exactly the members of the current
    and of the stored population, none shared. *)
Theorem C03_no_leak :
  forall (B : Type) (FO : Prop) (V : vtab B) (K : cfg) (kf : Z) (wf : B -> Prop) (mt : B -> list f64 -> Prop)
    (dom : list f64 -> Prop) (E : Type) (VE : env E) (einv : E -> Prop),
  cfg_ok K kf -> vt_ok (dom := dom) FO V K wf mt -> (ea_tournament K = true -> FO) ->
  env_ok (dom := dom) FO K VE einv ->
  forall (os : list op) (s : st B), (forall l, s_heap s l = None) ->
  Forall (op_ok (dom := dom) FO K kf wf einv) os -> costs K os <= 2 ^ 53 ->
  hpost FO ((xcsf_init V K ;;; run_ops V K VE os)%m s) (fun _ s' =>
    (forall l, s_heap s' l <> None <-> In l (set_list (s_pset s')) \/ In l (set_list (s_prev_pset s'))) /\
    NoDup (set_list (s_pset s') ++ set_list (s_prev_pset s'))).
Proof. exact @C03_lemma. Qed.
Print Assumptions C03_no_leak.

(** Freeing the system afterwards releases everything, again without a fault. *)
Theorem C03_all_freed :
  forall (B : Type) (FO : Prop) (V : vtab B) (K : cfg) (kf : Z) (wf : B -> Prop) (mt : B -> list f64 -> Prop)
    (dom : list f64 -> Prop) (E : Type) (VE : env E) (einv : E -> Prop),
  cfg_ok K kf -> vt_ok (dom := dom) FO V K wf mt -> (ea_tournament K = true -> FO) ->
  env_ok (dom := dom) FO K VE einv ->
  forall (os : list op) (s : st B), (forall l, s_heap s l = None) ->
  Forall (op_ok (dom := dom) FO K kf wf einv) os -> costs K os <= 2 ^ 53 ->
  hpost FO ((xcsf_init V K ;;; run_ops V K VE os ;;; xcsf_free K)%m s) (fun _ s' => forall l, s_heap s' l = None).
Proof. exact @C03_free_lemma. Qed.
Print Assumptions C03_all_freed.

(** Seven operations on a system of rectangle rules end normally with six live rules of the 25
    allocated; so does freeing it, with none. *)
Example C03_example :
  cfg_ok K2 0 /\ vt_ok (dom := any_x) True V2 K2 (rect_wf K2) (rect_mt K2) /\
  env_ok (dom := any_x) True K2 corridor (fun _ => True) /\
  Forall (op_ok (dom := any_x) True K2 0 (rect_wf K2) (fun _ => True)) demo_ops /\ costs K2 demo_ops <= 2 ^ 53 /\
  live_count ((xcsf_init V2 K2 ;;; run_ops V2 K2 corridor demo_ops)%m (blank_state 1)) = Some (6%nat, 25%nat) /\
  live_count ((xcsf_init V2 K2 ;;; run_ops V2 K2 corridor demo_ops ;;; xcsf_free K2)%m (blank_state 1)) = Some (0%nat, 25%nat).
Proof.
  exact (conj K2_ok (conj (V2_ok True) (conj (corridor_K2 True) (conj demo_ops_ok (conj demo_cost (conj demo_live demo_freed)))))).
Qed.
