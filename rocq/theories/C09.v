(** * C09 Fitness stays within [0,1]. *)
From Coq Require Import ZArith Bool List Reals.
From Flocq Require Import Core BinarySingleNaN.
From Verif Require Import Outcome F64 F64Bounds Rng Pop PopSpec PopFit PopRL PopSeq PropPop Cond Pred Comp Demo.
Import ListNotations.
Open Scope Z_scope.

(** The initial fitness being at most 1 (kf = 0), every rule's fitness stays a number in
    [0, 1], in double precision, whatever operations are run. *)
Theorem C09_fitness_in_unit :
  forall (B : Type) (FO : Prop) (V : vtab B) (K : cfg) (wf : B -> Prop) (mt : B -> list f64 -> Prop)
    (dom : list f64 -> Prop) (E : Type) (VE : env E) (einv : E -> Prop),
  cfg_ok K 0 -> vt_ok (dom := dom) FO V K wf mt -> (ea_tournament K = true -> FO) ->
  env_ok (dom := dom) FO K VE einv ->
  forall (os : list op) (s : st B), (forall l, s_heap s l = None) ->
  Forall (op_ok (dom := dom) FO K 0 wf einv) os -> costs K os <= 2 ^ 53 ->
  hpost FO ((xcsf_init V K ;;; run_ops V K VE os)%m s) (fun _ s' =>
    forall l c, In l (set_list (s_pset s')) -> s_heap s' l = Some c -> fin_in 0 1 (c_fit c)).
Proof. exact @C09_lemma01. Qed.
Print Assumptions C09_fitness_in_unit.

(** The update of one fitness: the value moves towards the rule's share of the accuracy sum
    and stays in [0, 2^kf], never becoming NaN or negative zero. *)
Theorem C09_fitness_step :
  forall (B : Type) (K : cfg) (kf : Z), cfg_ok K kf ->
  forall (cs : list (cl B)) (c : cl B), In c cs -> Forall (fun d => 1 <= c_num d <= 2 ^ 53) cs ->
  fin_p (bpow radix2 kf) (c_fit c) ->
  fin_p (bpow radix2 kf) (c_fit (cl_update_fit K c (acc_sum K cs) (cl_acc K c))) /\
  c_fit (cl_update_fit K c (acc_sum K cs) (cl_acc K c)) =
    fadd (c_fit c) (fmul (BETA K)
      (fsub (fdiv (fmul (cl_acc K c) (of_Z (c_num c))) (fold_left fadd (map (fun d => fmul (cl_acc K d) (of_Z (c_num d))) cs) f0))
            (c_fit c))).
Proof. exact @C09_step_lemma. Qed.
Print Assumptions C09_fitness_step.

Example C09_example :
  cfg_ok K2 0 /\ vt_ok (dom := any_x) True V2 K2 (rect_wf K2) (rect_mt K2) /\
  env_ok (dom := any_x) True K2 corridor (fun _ => True) /\
  Forall (op_ok (dom := any_x) True K2 0 (rect_wf K2) (fun _ => True)) demo_ops /\ costs K2 demo_ops <= 2 ^ 53 /\
  fitnesses ((xcsf_init V2 K2 ;;; run_ops V2 K2 corridor demo_ops)%m (blank_state 1)) =
    map Some [(false, 8484717752890107%positive, -57); (false, 8484717752890107%positive, -57);
              (false, 4625558318919413%positive, -61); (false, 4998835723691480%positive, -55);
              (false, 5385336819610553%positive, -56); (false, 4759269281626250%positive, -54)].
Proof.
  exact (conj K2_ok (conj (V2_ok True) (conj (corridor_K2 True) (conj demo_ops_ok (conj demo_cost demo_fitness))))).
Qed.
