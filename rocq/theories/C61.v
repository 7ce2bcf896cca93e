(** * C61 Defaults and setters keep every parameter in its range. *)
From Coq Require Import ZArith Bool List String Ascii Reals Relations Lia.
From Flocq Require Import Core BinarySingleNaN.
From Verif Require Import Outcome F64 F64Facts F64Bounds Arr Names Param PropNames Rng Pop PopSpec PropParam.
Import ListNotations.
Open Scope Z_scope.

(** Default values: whatever the memory held before, param_init with positive dimensions gives every
    parameter a value in its documented range ([in_range], PropParam.v). *)
Theorem C61_init :
  forall (x : sys) (xd yd na : Z),
  1 <= xd <= int_max ->
  1 <= yd <= int_max ->
  1 <= na <= int_max ->
  exists y : sys,
    param_init x xd yd na = Ok y /\
    in_range y /\
    ints y i_X_DIM = Some xd /\
    ints y i_Y_DIM = Some yd /\
    ints y i_N_ACTIONS = Some na /\ ints y i_DGP_N_INPUTS = Some xd /\ ints y i_GP_N_INPUTS = Some xd.
Proof. exact @param_init_ok. Qed.
Print Assumptions C61_init.

(** After any sequence of setter calls, valid or not, with any arguments but NaN ([call],
    PropParam.v), every parameter is still in its range and the loss function called is the selected
    one. *)
Theorem C61_calls :
  forall (x : sys) (xd yd na : Z) (y z : sys),
  1 <= xd <= int_max ->
  1 <= yd <= int_max ->
  1 <= na <= int_max -> param_init x xd yd na = Ok y -> clos_refl_trans sys call y z -> in_range z.
Proof. exact @from_defaults. Qed.
Print Assumptions C61_calls.

(** Such parameters meet the assumption cfg_ok of the theorems about populations and trials, once
    the initial fitness and the fitness reduction are positive (and the former at most 2^400). *)
Theorem C61_cfg :
  forall (x : sys) (K0 : cfg) (kf : Z),
  in_range x ->
  0 <= kf <= 400 ->
  pow_ok (m_pow (lm K0)) ->
  (forall v : f64, dbls x d_INIT_FITNESS = Some v -> fin_p (bpow radix2 kf) v) ->
  (forall v : f64, dbls x d_EA_FIT_REDUC = Some v -> fin_p 1 v) ->
  exists K : cfg, cfg_of x K0 = Some K /\ cfg_ok K kf.
Proof. exact @in_range_cfg. Qed.
Print Assumptions C61_cfg.

(** REFUTED for a rejected dimension: param_init ignores the error of the setter and then reads the
    number of inputs, which was never written. *)
Theorem C61_init_refuted :
  exists x : sys, param_init x 0 1 1 = UB Uninit.
Proof. exact @param_init_refuted. Qed.
Print Assumptions C61_init_refuted.

Definition C61_blank : sys := mkSys (fun _ => None) (fun _ => None) (fun _ => None) [] None None.
Definition C61_get (m : outcome sys) (p : ipar) : option Z := match m with Ok y => ints y p | _ => None end.
Example C61_example :
  exists y, param_init C61_blank 4 1 2 = Ok y /\ in_range y /\
    ints y i_POP_SIZE = Some 2000 /\ ints y i_X_DIM = Some 4 /\
    exists z, clos_refl_trans _ call y z /\ ints z i_POP_SIZE = Some 500 /\ ints z i_LOSS_FUNC = Some 1 /\ loss_code z = Some 1 /\ in_range z.
Proof.
  destruct (C61_init C61_blank 4 1 2) as (y & E & R & _); try (unfold int_max; lia). exists y. split; [exact E|]. split; [exact R|].
  split; [change (C61_get (Ok y) i_POP_SIZE = Some 2000); rewrite <- E; vm_compute; reflexivity|].
  split; [change (C61_get (Ok y) i_X_DIM = Some 4); rewrite <- E; vm_compute; reflexivity|].
  assert (C : clos_refl_trans _ call y (with_loss (snd (param_set_pop_size y 500)) 1)).
  { eapply rt_trans; apply rt_step.
    - apply (call_i param_set_pop_size y 500); [cbn; tauto|unfold int_max; lia].
    - apply (call_loss _ 1). destruct (loss_setter_ok (snd (param_set_pop_size y 500)) 1) as [(_ & Q)|(W & _)]; [exact Q|exfalso; lia]. }
  eexists. split; [exact C|]. split; [reflexivity|]. split; [reflexivity|]. split; [reflexivity|].
  eapply C61_calls; [| | |exact E|exact C]; unfold int_max; lia.
Qed.
