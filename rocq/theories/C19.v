(** * C19 Action selection returns a valid best / represented action. *)
From Coq Require Import ZArith Bool List.
From Verif Require Import Outcome F64 F64Facts F64Bounds Rng Pop PopSpec PopSel PopDel PopMset PopUpdate PopEA PopPA PopTrial PopFit PopRL PropTrial PropFrame PropSel PropRef Cond Pred Comp Demo DemoEx.
Import ListNotations.
Open Scope Z_scope.

(** Exploiting returns an action no other beats in the prediction array; exploring at random returns
    an action some matching rule advocates. *)
Theorem C19_decision :
  forall (B : Type) (FO : Prop) (V : vtab B) (K : cfg) (kf : Z) (wf : B -> Prop)
    (mt : B -> list f64 -> Prop) (dom : list f64 -> Prop),
  cfg_ok K kf ->
  vt_ok (dom := dom) FO V K wf mt ->
  forall (N : Z) (x : list f64) (s : st B),
  FO ->
  y_dim K = 1 ->
  0 <= N ->
  xok K dom x ->
  Inv K kf N wf s [] ->
  s_mset s = empty_set ->
  set_nm (s_pset s) <= POP_SIZE K ->
  hpost FO (rl_decision V K x s)
    (fun (a : Z) (s' : st B) =>
     0 <= a < n_actions K /\
     Z.of_nat (length (s_pa s')) = n_actions K /\
     (let best :=
        forall b : Z,
        0 <= b < n_actions K ->
        fgt (nth (Z.to_nat b) (s_pa s') f0) (nth (Z.to_nat a) (s_pa s') f0) = false in
      let represented :=
        exists (l : loc) (c : cl B), In l (set_list (s_mset s')) /\ s_heap s' l = Some c /\ c_action c = a
        in
      (s_explore s = false -> best) /\
      (s_explore s = true ->
       exists u : f64,
         rout (rand_uniform f0 f1) u /\
         (flt u (P_EXPLORE K) = true -> represented) /\ (flt u (P_EXPLORE K) = false -> best)))).
Proof. exact @C19_decision_lemma. Qed.
Print Assumptions C19_decision.

(** Selecting the best action returns one that no action beats, whatever the array contains. *)
Theorem C19_best :
  forall (K : cfg) (FO : Prop) (pa : list f64),
  1 <= n_actions K <= int_max ->
  n_actions K <= Z.of_nat (length pa) ->
  rpost FO (pa_best_action K pa)
    (fun a : Z =>
     0 <= a < n_actions K /\
     (forall b : Z, 0 <= b < n_actions K -> fgt (vals_at pa b) (vals_at pa a) = false)).
Proof. exact @best_action_rpost. Qed.
Print Assumptions C19_best.

(** Selecting a random action returns one whose fitness sum is not zero. *)
Theorem C19_random :
  forall (K : cfg) (FO : Prop) (fuel : nat) (nr : list f64),
  FO ->
  1 <= n_actions K <= int_max ->
  n_actions K <= Z.of_nat (length nr) ->
  rpost FO (pa_rand_action K fuel nr) (fun a : Z => 0 <= a < n_actions K /\ feq (vals_at nr a) f0 = false).
Proof. exact @rand_action_rpost. Qed.
Print Assumptions C19_random.

(** The best value is one of the array that none exceeds. *)
Theorem C19_best_value :
  forall pa : list f64,
  pa <> [] ->
  exists v : f64, pa_best_val pa = Ok v /\ In v pa /\ (forall u : f64, In u pa -> fgt u v = false).
Proof. exact @pa_best_val_spec. Qed.
Print Assumptions C19_best_value.

(** Redrawing until the fitness sum of the action is not zero never ends if all are zero. *)
Theorem C19_random_never_ends :
  forall (K : cfg) (fuel : nat) (nr : list f64),
  1 <= n_actions K <= int_max ->
  n_actions K <= Z.of_nat (length nr) ->
  (forall a : Z, 0 <= a < n_actions K -> feq (nth (Z.to_nat a) nr f0) f0 = true) ->
  forall g : rng, pa_rand_action K fuel nr g = OutOfFuel.
Proof. exact @C19_loops_lemma. Qed.
Print Assumptions C19_random_never_ends.

(** Action 1 has the higher prediction and is chosen when exploiting; this exploring trial chose
    action 0. *)
Example C19_example :
  cfg_ok (Kl 2 (of_Z 2)) 0 /\ vt_ok (dom := any_x) True (rect_tab (Kl 2 (of_Z 2))) (Kl 2 (of_Z 2)) (rect_wf (Kl 2 (of_Z 2))) (rect_mt (Kl 2 (of_Z 2))) /\
  exists s : st body, is_ready 2 (of_Z 2) (cost 2 (of_Z 2) six) s /\
    map (fun b => run (rl_decision (rect_tab (Kl 2 (of_Z 2))) (Kl 2 (of_Z 2)) x1) (with_explore b s) (fun a s' => (a, map parts (s_pa s')))) [true; false] =
      [Some (0, [Some (false, 5196800746485366%positive, -53); Some (false, 7430939385161318%positive, -53)]); Some
       (1, [Some (false, 5196800746485366%positive, -53); Some (false, 7430939385161318%positive, -53)])].
Proof.
  split; [apply Kl_ok|split; [apply Vl_ok|]].
  apply (look_stage 2 (of_Z 2) six (fun s => map (fun b => run (rl_decision (rect_tab (Kl 2 (of_Z 2))) (Kl 2 (of_Z 2)) x1) (with_explore b s) (fun a s' => (a, map parts (s_pa s')))) [true; false]) _);
    [apply six_fine|vm_compute; discriminate|vm_compute; reflexivity].
Qed.
