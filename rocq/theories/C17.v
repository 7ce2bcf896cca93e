(** * C17 Set-size estimates use the true set numerosity. *)
From Coq Require Import ZArith Bool List.
From Verif Require Import Outcome F64 F64Facts F64Bounds Rng Pop PopSpec PopSel PopDel PopMset PopUpdate PopEA PopPA PopTrial PopFit PopRL PropTrial PropFrame PropSel PropRef Cond Pred Comp Demo DemoEx.
Import ListNotations.
Open Scope Z_scope.

(** What holds: the recorded numerosity of the match set is never too small, and exact if no rule
    was created. *)
Theorem C17_match :
  forall (B : Type) (FO : Prop) (V : vtab B) (K : cfg) (kf : Z) (wf : B -> Prop)
    (mt : B -> list f64 -> Prop) (dom : list f64 -> Prop),
  cfg_ok K kf ->
  vt_ok (dom := dom) FO V K wf mt ->
  forall (N : Z) (x : list f64) (cv : bool) (s : st B) (held : list loc),
  0 <= N ->
  xok K dom x ->
  Inv K kf N wf s held ->
  s_mset s = empty_set ->
  set_nm (s_pset s) <= POP_SIZE K ->
  hpost FO (clset_match V K x cv s)
    (fun (_ : unit) (s' : st B) =>
     sum_nums (s_heap s') (set_list (s_mset s')) <= set_nm (s_mset s') /\
     (s_next s' = s_next s -> set_nm (s_mset s') = sum_nums (s_heap s') (set_list (s_mset s')))).
Proof. exact @C17_match_lemma. Qed.
Print Assumptions C17_match.

(** A supervised training trial: the set is updated ([update_steps], PopUpdate) in a state s1 in
    which it is exact unless covering created a rule. *)
Theorem C17_supervised :
  forall (B : Type) (FO : Prop) (V : vtab B) (K : cfg) (kf : Z) (wf : B -> Prop)
    (mt : B -> list f64 -> Prop) (dom : list f64 -> Prop),
  cfg_ok K kf ->
  vt_ok (dom := dom) FO V K wf mt ->
  forall (N : Z) (x y : list f64) (s : st B),
  0 <= N ->
  (ea_tournament K = true -> FO) ->
  Good K kf N wf s ->
  xok K dom x ->
  s_explore s = true ->
  Z.of_nat (length y) = y_dim K ->
  N + 1 <= 2 ^ 53 ->
  hpost FO (supervised_trial V K x y None s)
    (fun (_ : unit) (s' : st B) =>
     exists (s1 a : st B) (cs : list (cl B)) (b c s2 : st B),
       update_steps V K wf MSET x y true s1 a cs b c /\
       ea_rel V K wf MSET c s2 /\
       finished s2 s' /\
       (s_next s1 = s_next s -> set_nm (s_mset s1) = sum_nums (s_heap s1) (set_list (s_mset s1)))).
Proof. exact @C17_trial_lemma. Qed.
Print Assumptions C17_supervised.

(** Reinforcement learning: the action sets are exact when they are updated. *)
Theorem C17_reinforcement :
  forall (B : Type) (FO : Prop) (V : vtab B) (K : cfg) (kf : Z) (wf : B -> Prop)
    (mt : B -> list f64 -> Prop) (dom : list f64 -> Prop),
  cfg_ok K kf ->
  vt_ok (dom := dom) FO V K wf mt ->
  forall (N : Z) (state : list f64) (a : Z) (reward : f64) (done : bool) (s : st B),
  y_dim K = 1 ->
  vla0_is_ub K = false ->
  (ea_tournament K = true -> FO) ->
  0 <= N ->
  N + 2 <= 2 ^ 53 ->
  Inv K kf N wf s [] ->
  act_ok s (s_mset s) ->
  sub_ok s (s_prev_aset s) ->
  s_aset s = empty_set ->
  set_nm (s_pset s) <= POP_SIZE K ->
  xok K dom state ->
  (set_list (s_prev_aset s) <> [] -> xok K dom (s_prev_state s)) ->
  Z.of_nat (length (s_pa s)) = n_actions K ->
  hpost FO (rl_update V K state a reward done s)
    (fun (_ : unit) (s' : st B) =>
     exists s2 : st B,
       (set_list (s_prev_aset s) <> [] ->
        exists (t : f64) (s1 u : st B) (cs : list (cl B)) (b c : st B),
          update_steps V K wf PREV_ASET (s_prev_state s) [t] false s1 u cs b c /\
          (if s_explore s then ea_rel V K wf PREV_ASET c s2 else s2 = c) /\
          set_nm (s_prev_aset s1) = sum_nums (s_heap s1) (set_list (s_prev_aset s1))) /\
       (done = true ->
        exists (s1 u : st B) (cs : list (cl B)) (b c : st B),
          update_steps V K wf ASET state [reward] true s1 u cs b c /\
          (if s_explore s2 then ea_rel V K wf ASET c s' else s' = c) /\
          set_nm (s_aset s1) = sum_nums (s_heap s1) (set_list (s_aset s1)))).
Proof. exact @C17_rl_lemma. Qed.
Print Assumptions C17_reinforcement.

(** REFUTED for the match set of a supervised trial: if covering deletes a micro-rule of a
    member of the match set, the recorded numerosity stays too large. *)
Theorem C17_refuted :
  exists (B : Type) (V : vtab B) (K : cfg) (wf : B -> Prop) (mt : B -> list f64 -> Prop) (N : Z) (x : list f64) (s s' : st B),
    cfg_ok K 0 /\ vt_ok (dom := any_x) True V K wf mt /\ xok K any_x x /\ Inv K 0 N wf s [] /\ s_mset s = empty_set /\
    set_nm (s_pset s) <= POP_SIZE K /\ clset_match V K x true s = Ok (tt, s') /\
    set_nm (s_mset s') = 9 /\ sum_nums (s_heap s') (set_list (s_mset s')) = 8.
Proof. exact C17_refuted_lemma. Qed.
Print Assumptions C17_refuted.

(** The recorded numerosity is that of the four matching rules. *)
Example C17_example :
  cfg_ok (Kl 2 (of_Z 2)) 0 /\ vt_ok (dom := any_x) True (rect_tab (Kl 2 (of_Z 2))) (Kl 2 (of_Z 2)) (rect_wf (Kl 2 (of_Z 2))) (rect_mt (Kl 2 (of_Z 2))) /\
  exists s : st body, is_ready 2 (of_Z 2) (cost 2 (of_Z 2) six) s /\
    run (clset_match (rect_tab (Kl 2 (of_Z 2))) (Kl 2 (of_Z 2)) x1 true) s (fun _ s' => (counted (s_mset s') s', sum_nums (s_heap s') (set_list (s_mset s')), (s_next s, s_next s'))) =
      (Some ([(0%nat, 1, 0); (1%nat, 2, 1); (2%nat, 2, 0); (3%nat, 1, 0)], 4, 6, 6, (6%nat, 6%nat))).
Proof.
  split; [apply Kl_ok|split; [apply Vl_ok|]].
  apply (look_stage 2 (of_Z 2) six (fun s => run (clset_match (rect_tab (Kl 2 (of_Z 2))) (Kl 2 (of_Z 2)) x1 true) s (fun _ s' => (counted (s_mset s') s', sum_nums (s_heap s') (set_list (s_mset s')), (s_next s, s_next s')))) _);
    [apply six_fine|vm_compute; discriminate|vm_compute; reflexivity].
Qed.
