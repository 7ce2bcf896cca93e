(** * C05 The match set is exactly the matching rules. *)
From Coq Require Import ZArith Bool List.
From Verif Require Import Outcome F64 F64Facts F64Bounds Rng Pop PopSpec PopSel PopDel PopMset PopUpdate PopEA PopPA PopTrial PopFit PopRL PropTrial PropFrame PropSel PropRef Cond Pred Comp Demo DemoEx.
Import ListNotations.
Open Scope Z_scope.

(** Matching without covering: the match set lists exactly the members of the population whose
    conditions hold for the input ([mt] is what the condition means), in reverse order, with exact
    counters. Nothing but the matching flags, ages and statistics changes ([matched], PopMset;
    [match_stats]). *)
Theorem C05_match_set :
  forall (B : Type) (FO : Prop) (V : vtab B) (K : cfg) (kf : Z) (wf : B -> Prop)
    (mt : B -> list f64 -> Prop) (dom : list f64 -> Prop),
  cfg_ok K kf ->
  vt_ok (dom := dom) FO V K wf mt ->
  forall (N : Z) (x : list f64) (s : st B) (held : list loc),
  0 <= N ->
  xok K dom x ->
  Inv K kf N wf s held ->
  s_mset s = empty_set ->
  set_nm (s_pset s) <= POP_SIZE K ->
  hpost FO (clset_match V K x false s)
    (fun (_ : unit) (s' : st B) =>
     set_list (s_mset s') = rev (filter (flagged (s_heap s')) (set_list (s_pset s))) /\
     set_sz (s_mset s') = Z.of_nat (length (set_list (s_mset s'))) /\
     set_nm (s_mset s') = sum_nums (s_heap s') (set_list (s_mset s')) /\
     (forall l : loc,
      In l (set_list (s_mset s')) <->
      In l (set_list (s_pset s)) /\ (exists c : cl B, s_heap s' l = Some c /\ mt (c_body c) x)) /\
     (forall l : loc,
      In l (set_list (s_pset s)) ->
      exists c c' : cl B, s_heap s l = Some c /\ s_heap s' l = Some c' /\ matched V K wf mt x c c') /\
     (forall l : loc, ~ In l (set_list (s_pset s)) -> s_heap s' l = s_heap s l) /\
     (forall w : sel, w <> MSET -> get_set w s' = get_set w s) /\
     s_next s' = s_next s /\
     (exists cs : list (cl B),
        map (s_heap s') (set_list (s_pset s)) = map Some cs /\
        misc s' = misc (match_stats K (set_sz (s_mset s')) cs s))).
Proof. exact @C05_lemma. Qed.
Print Assumptions C05_match_set.

(** The population invariant holds afterwards. *)
Theorem C05_invariant :
  forall (B : Type) (FO : Prop) (V : vtab B) (K : cfg) (kf : Z) (wf : B -> Prop)
    (mt : B -> list f64 -> Prop) (dom : list f64 -> Prop),
  cfg_ok K kf ->
  vt_ok (dom := dom) FO V K wf mt ->
  forall (N : Z) (x : list f64) (s : st B) (held : list loc),
  0 <= N ->
  xok K dom x ->
  Inv K kf N wf s held ->
  s_mset s = empty_set ->
  set_nm (s_pset s) <= POP_SIZE K ->
  hpost FO (clset_match V K x false s) (fun (_ : unit) (s' : st B) => Inv K kf N wf s' held).
Proof. exact @C05_sets_lemma. Qed.
Print Assumptions C05_invariant.

(** Four of the six rules match x1. *)
Example C05_example :
  cfg_ok (Kl 2 (of_Z 2)) 0 /\ vt_ok (dom := any_x) True (rect_tab (Kl 2 (of_Z 2))) (Kl 2 (of_Z 2)) (rect_wf (Kl 2 (of_Z 2))) (rect_mt (Kl 2 (of_Z 2))) /\
  exists s : st body, is_ready 2 (of_Z 2) (cost 2 (of_Z 2) six) s /\
    (counted (s_pset s) s, run (clset_match (rect_tab (Kl 2 (of_Z 2))) (Kl 2 (of_Z 2)) x1 false) s (fun _ s' => counted (s_mset s') s')) =
      ([(5%nat, 1, 0); (4%nat, 1, 1); (3%nat, 1, 0); (2%nat, 2, 0); (1%nat, 2, 1); (0%nat, 1, 0)], 6, 8, Some
       ([(0%nat, 1, 0); (1%nat, 2, 1); (2%nat, 2, 0); (3%nat, 1, 0)], 4, 6)).
Proof.
  split; [apply Kl_ok|split; [apply Vl_ok|]].
  apply (look_stage 2 (of_Z 2) six (fun s => (counted (s_pset s) s, run (clset_match (rect_tab (Kl 2 (of_Z 2))) (Kl 2 (of_Z 2)) x1 false) s (fun _ s' => counted (s_mset s') s'))) _);
    [apply six_fine|vm_compute; discriminate|vm_compute; reflexivity].
Qed.
