(** * C04 Covering makes every action available. *)
From Coq Require Import ZArith Bool List.
From Verif Require Import Outcome F64 F64Facts F64Bounds Rng Pop PopSpec PopSel PopDel PopMset PopUpdate PopEA PopPA PopTrial PopFit PopRL PropTrial PropFrame PropSel PropRef Cond Pred Comp Demo DemoEx.
Import ListNotations.
Open Scope Z_scope.

(** After matching with covering enabled, every action is advocated by a member of the match set;
    every member matches the input, belongs to the population, and is listed once; the size limit
    holds; [matching] (PopTrial) says what else changed. *)
Theorem C04_covering :
  forall (B : Type) (FO : Prop) (V : vtab B) (K : cfg) (kf : Z) (wf : B -> Prop)
    (mt : B -> list f64 -> Prop) (dom : list f64 -> Prop),
  cfg_ok K kf ->
  vt_ok (dom := dom) FO V K wf mt ->
  forall (N : Z) (x : list f64) (s : st B) (held : list loc),
  0 <= N ->
  xok K dom x ->
  Inv K kf N wf s held ->
  s_mset s = empty_set ->
  set_nm (s_pset s) <= POP_SIZE K ->
  hpost FO (clset_match V K x true s)
    (fun (_ : unit) (s' : st B) =>
     (forall a : Z,
      0 <= a < n_actions K ->
      exists (l : loc) (c : cl B), In l (set_list (s_mset s')) /\ s_heap s' l = Some c /\ c_action c = a) /\
     (forall l : loc,
      In l (set_list (s_mset s')) ->
      In l (set_list (s_pset s')) /\ (exists c : cl B, s_heap s' l = Some c /\ mt (c_body c) x)) /\
     NoDup (set_list (s_mset s')) /\
     set_sz (s_mset s') = Z.of_nat (length (set_list (s_mset s'))) /\
     set_nm (s_pset s') <= POP_SIZE K /\ Inv K kf N wf s' held /\ matching V K wf mt x true s s').
Proof. exact @C04_lemma. Qed.
Print Assumptions C04_covering.

(** Six rules of which none matches x2: without covering the match set is empty; with covering both
    actions appear, as rules 7 and 6, and room is made for them. *)
Example C04_example :
  cfg_ok (Kl 2 (of_Z 2)) 0 /\ vt_ok (dom := any_x) True (rect_tab (Kl 2 (of_Z 2))) (Kl 2 (of_Z 2)) (rect_wf (Kl 2 (of_Z 2))) (rect_mt (Kl 2 (of_Z 2))) /\
  exists s : st body, is_ready 2 (of_Z 2) (cost 2 (of_Z 2) six) s /\
    (run (clset_match (rect_tab (Kl 2 (of_Z 2))) (Kl 2 (of_Z 2)) x2 false) s (fun _ s' => counted (s_mset s') s'), run (clset_match (rect_tab (Kl 2 (of_Z 2))) (Kl 2 (of_Z 2)) x2 true) s (fun _ s' => (counted (s_mset s') s', set_nm (s_pset s'), set_list (s_kset s')))) =
      (Some ([], 0, 0), Some ([(7%nat, 1, 1); (6%nat, 1, 0)], 2, 2, 8, [5%nat; 0%nat])).
Proof.
  split; [apply Kl_ok|split; [apply Vl_ok|]].
  apply (look_stage 2 (of_Z 2) six (fun s => (run (clset_match (rect_tab (Kl 2 (of_Z 2))) (Kl 2 (of_Z 2)) x2 false) s (fun _ s' => counted (s_mset s') s'), run (clset_match (rect_tab (Kl 2 (of_Z 2))) (Kl 2 (of_Z 2)) x2 true) s (fun _ s' => (counted (s_mset s') s', set_nm (s_pset s'), set_list (s_kset s'))))) _);
    [apply six_fine|vm_compute; discriminate|vm_compute; reflexivity].
Qed.
