(** * C53 Multi-step learning uses the discounted one-step target. *)
From Coq Require Import ZArith Bool List.
From Verif Require Import Outcome F64 F64Facts F64Bounds Rng RngFacts Pop PopSpec PopInv PopUpdate PopPA PopTrial PopFit PopRL PopOps PopSeq Arr Cond Blas Pred Comp CompFacts Demo DemoEx PropStore PropMulti.
Import ListNotations.
Open Scope Z_scope.

(** A trial, for any environment: a list of at most TELETRANSPORTATION steps, none but the last
    ending in a terminal state, and the last one ending in a terminal state unless the limit is
    reached. A step [step_rel] chooses an action, executes it, then updates as in C53_update with
    the reward received, and remembers state, reward, prediction and action set for the next step.
    Afterwards all removed rules are freed. The result is the number of steps (the correctness for
    single-step problems) and the mean error of the steps. (FO: choosing a random action may fail to
    end, see C19.) *)
Theorem C53_trial :
  forall (FO : Prop) (B : Type) (V : vtab B) (K : cfg) (kf : Z) (wf : B -> Prop)
    (mt : B -> list f64 -> Prop) (dom : list f64 -> Prop),
  cfg_ok K kf ->
  vt_ok (dom := dom) FO V K wf mt ->
  (ea_tournament K = true -> FO) ->
  forall (E : Type) (VE : env E),
  y_dim K = 1 ->
  vla0_is_ub K = false ->
  forall einv : E -> Prop,
  env_ok (dom := dom) FO K VE einv ->
  forall (N : Z) (e : E) (explore : bool) (s : st B),
  FO ->
  einv e ->
  0 <= N ->
  0 <= TELETRANSPORTATION K ->
  N + 2 * TELETRANSPORTATION K <= 2 ^ 53 ->
  Good K kf N wf s ->
  hpost FO (rl_trial V K VE e explore s)
    (fun (q : E * f64 * f64) (s' : st B) =>
     let
     '(e', perf, err) := q in
      exists (e0 : E) (g : rng) (l : list (E * f64 * bool * f64)) (s2 : st B),
        rout (env_reset VE e) e0 /\
        steps_rel V K wf mt VE e0 (begun K (with_explore explore (with_rng g s))) l s2 /\
        Z.of_nat (length l) <= TELETRANSPORTATION K /\
        Forall (fun q0 : E * f64 * bool * f64 => snd (fst q0) = false) (removelast l) /\
        (last (map (fun q0 : E * f64 * bool * f64 => snd (fst q0)) l) false = true \/
         Z.of_nat (length l) = TELETRANSPORTATION K) /\
        ended s2 s' /\
        e' = last (map (fun q0 : E * f64 * bool * f64 => fst (fst (fst q0))) l) e0 /\
        err = fdiv (fold_left fadd (map snd l) f0) (of_Z (Z.of_nat (length l))) /\
        perf =
        (if env_multistep VE
         then of_Z (Z.of_nat (length l))
         else
          if fgt (last (map (fun q0 : E * f64 * bool * f64 => snd (fst (fst q0))) l) f0) f0
          then f1
          else f0) /\ Good K kf (N + 2 * TELETRANSPORTATION K) wf s').
Proof. exact @C53_trial_lemma. Qed.
Print Assumptions C53_trial.

(** The update within a step: the action set is built; if there is a previous action set, its
    surviving rules are updated once, at the previous state, towards previous reward + GAMMA * (the
    largest value of the prediction array); in a terminal state the rules of the current action set
    are updated once, at the current state, towards the reward. Nothing else is updated. *)
Theorem C53_update :
  forall (B : Type) (FO : Prop) (V : vtab B) (K : cfg) (kf : Z) (wf : B -> Prop)
    (mt : B -> list f64 -> Prop),
  cfg_ok K kf ->
  forall dom : list f64 -> Prop,
  vt_ok (dom := dom) FO V K wf mt ->
  (ea_tournament K = true -> FO) ->
  y_dim K = 1 ->
  vla0_is_ub K = false ->
  forall (N : Z) (state : list f64) (a : Z) (reward : f64) (done : bool) (s : st B),
  0 <= N ->
  N + 2 <= 2 ^ 53 ->
  Inv K kf N wf s [] ->
  PopSpec.act_ok s (s_mset s) ->
  sub_ok s (s_prev_aset s) ->
  s_aset s = empty_set ->
  set_nm (s_pset s) <= POP_SIZE K ->
  xok K dom state ->
  (set_list (s_prev_aset s) <> [] -> xok K dom (s_prev_state s)) ->
  Z.of_nat (length (s_pa s)) = n_actions K ->
  hpost FO (rl_update V K state a reward done s)
    (fun (_ : unit) (s' : st B) =>
     update_rel V K wf state a reward done s s' /\
     Inv K kf (N + 2) wf s' [] /\
     set_nm (s_pset s') <= POP_SIZE K /\
     sub_ok s' (s_aset s') /\
     s_prev_pset s' = s_prev_pset s /\
     s_pa s' = s_pa s /\
     s_prev_reward s' = s_prev_reward s /\ s_prev_pred s' = s_prev_pred s /\ s_explore s' = s_explore s).
Proof. exact @rl_update_spec. Qed.
Print Assumptions C53_update.

(** The single-step interface: match, update the action set of the given action towards the reward,
    once. *)
Theorem C53_fit :
  forall (B : Type) (FO : Prop) (V : vtab B) (K : cfg) (kf : Z) (wf : B -> Prop)
    (mt : B -> list f64 -> Prop),
  cfg_ok K kf ->
  forall dom : list f64 -> Prop,
  vt_ok (dom := dom) FO V K wf mt ->
  (ea_tournament K = true -> FO) ->
  y_dim K = 1 ->
  vla0_is_ub K = false ->
  forall (N : Z) (state : list f64) (a : Z) (reward : f64) (s : st B),
  0 <= N ->
  N + 2 <= 2 ^ 53 ->
  Good K kf N wf s ->
  xok K dom state ->
  0 <= a < n_actions K ->
  hpost FO (rl_fit V K state a reward s)
    (fun (err : f64) (s' : st B) =>
     rl_fit_rel V K wf mt state a reward err s s' /\ Good K kf (N + 2) wf s').
Proof. exact @rl_fit_spec. Qed.
Print Assumptions C53_fit.

(** REFUTED for the terminal update of rules also in the previous action set: the update of the
    previous action set leaves behind the prediction and the input of the previous state, and the
    terminal update uses those. A rule that predicts 1 at the first and 0 at the second state of a
    two-step problem paying 1 and then 0 is perfect (the trial has error 0), but the trial changes
    its predictions to 0.95 and -0.05. *)
Theorem C53_refuted :
  exists (s s' : st body) (steps err : f64),
    Good Kone 0 5 (rect_wf Kone) s /\
    rl_trial (rect_tab Kone) Kone chain 2%nat false s = Ok (0%nat, steps, err, s') /\
    to_int steps = Some 2 /\
    feq err f0 = true /\
    tells (chain_x 2) s = [Some 10000] /\
    tells (chain_x 1) s = [Some 0] /\
    tells (chain_x 2) s' = [Some 9500] /\ tells (chain_x 1) s' = [Some (-500)].
Proof. exact @C53_refuted_lemma. Qed.
Print Assumptions C53_refuted.

(** A whole experiment: 2 n trials alternately exploring and exploiting, each starting from the
    environment and the population the previous one left; the result is the mean performance of the
    exploiting ones. *)
Theorem C53_experiment :
  forall (FO : Prop) (B : Type) (V : vtab B) (K : cfg) (kf : Z) (wf : B -> Prop)
    (mt : B -> list f64 -> Prop) (dom : list f64 -> Prop),
  cfg_ok K kf ->
  vt_ok (dom := dom) FO V K wf mt ->
  (ea_tournament K = true -> FO) ->
  forall (E : Type) (VE : env E),
  y_dim K = 1 ->
  vla0_is_ub K = false ->
  forall einv : E -> Prop,
  env_ok (dom := dom) FO K VE einv ->
  forall (N : Z) (e : E) (n : Z) (s : st B),
  FO ->
  einv e ->
  0 <= N ->
  0 <= n ->
  0 <= TELETRANSPORTATION K ->
  N + 4 * TELETRANSPORTATION K * n <= 2 ^ 53 ->
  Good K kf N wf s ->
  hpost FO (rl_exp V K VE e n s)
    (fun (q : E * f64) (s' : st B) =>
     exists l : list (E * f64 * f64 * st B),
       trials_rel V K wf mt VE e true s l /\
       Z.of_nat (length l) = 2 * n /\
       s' = last (map snd l) s /\
       fst q = last (map (fun q0 : E * f64 * f64 * st B => fst (fst (fst q0))) l) e /\
       snd q =
       fdiv
         (fold_left fadd
            (map
               (fun i : nat =>
                nth (2 * i + 1) (map (fun q0 : E * f64 * f64 * st B => snd (fst (fst q0))) l) f0)
               (seq 0 (Z.to_nat n))) f0) (of_Z n) /\ Good K kf (N + 4 * TELETRANSPORTATION K * n) wf s').
Proof. exact @C53_experiment_lemma. Qed.
Print Assumptions C53_experiment.

(** A corridor of two steps and six rules: the trial meets the hypotheses, takes four steps here,
    and its result, error and the clock are as shown. *)
Example C53_example :
  cfg_ok (Kl 2 (of_Z 2)) 0 /\ vt_ok (dom := any_x) True (rect_tab (Kl 2 (of_Z 2))) (Kl 2 (of_Z 2)) (rect_wf (Kl 2 (of_Z 2))) (rect_mt (Kl 2 (of_Z 2))) /\
  exists s : st body, is_ready 2 (of_Z 2) (cost 2 (of_Z 2) six) s /\
    run (rl_trial (rect_tab (Kl 2 (of_Z 2))) (Kl 2 (of_Z 2)) corridor 2%nat true) s (fun r s' => (match r with (e, p, er) => (e, to_int p, parts er) end, s_time s', length (set_list (s_kset s')))) =
      (Some (0%nat, Some 4, Some (false, 5814950839478823%positive, -57), 4, 0%nat)).
Proof.
  split; [apply Kl_ok|split; [apply Vl_ok|]].
  apply (look_stage 2 (of_Z 2) six (fun s => run (rl_trial (rect_tab (Kl 2 (of_Z 2))) (Kl 2 (of_Z 2)) corridor 2%nat true) s (fun r s' => (match r with (e, p, er) => (e, to_int p, parts er) end, s_time s', length (set_list (s_kset s'))))) _);
    [apply six_fine|vm_compute; discriminate|vm_compute; reflexivity].
Qed.

(** One iteration, as above. *)
Example C53_experiment_example :
  cfg_ok (Kl 2 (of_Z 2)) 0 /\ vt_ok (dom := any_x) True (rect_tab (Kl 2 (of_Z 2))) (Kl 2 (of_Z 2)) (rect_wf (Kl 2 (of_Z 2))) (rect_mt (Kl 2 (of_Z 2))) /\
  exists s : st body, is_ready 2 (of_Z 2) (cost 2 (of_Z 2) six) s /\
    run (rl_exp (rect_tab (Kl 2 (of_Z 2))) (Kl 2 (of_Z 2)) corridor 2%nat 1) s (fun r s' => (fst r, to_int (snd r), s_time s')) =
      (Some (0%nat, Some 2, 4)).
Proof.
  split; [apply Kl_ok|split; [apply Vl_ok|]].
  apply (look_stage 2 (of_Z 2) six (fun s => run (rl_exp (rect_tab (Kl 2 (of_Z 2))) (Kl 2 (of_Z 2)) corridor 2%nat 1) s (fun r s' => (fst r, to_int (snd r), s_time s'))) _);
    [apply six_fine|vm_compute; discriminate|vm_compute; reflexivity].
Qed.
