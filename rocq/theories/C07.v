(** * C07 Deletion removes exactly one micro-rule. *)
From Coq Require Import ZArith Bool List.
From Verif Require Import Outcome F64 F64Facts F64Bounds Rng Pop PopSpec PopSel PopDel PopMset PopUpdate PopEA PopPA PopTrial PopFit PopRL PropTrial PropFrame PropSel PropRef Cond Pred Comp Demo DemoEx.
Import ListNotations.
Open Scope Z_scope.

(** One deletion. The rule [l] at position [i] is the first never-matching rule if there is one,
    else the winner of the wheel ([wheel_choice], PopSel). It loses one micro-rule, and leaves the
    population for the kill set iff that was its last; everything else is unchanged. *)
Theorem C07_deletion :
  forall (B : Type) (FO : Prop) (V : vtab B) (K : cfg) (kf : Z) (wf : B -> Prop),
  cfg_ok K kf ->
  forall (N : Z) (s : st B) (held : list loc),
  Inv K kf N wf s held ->
  set_list (s_pset s) <> [] ->
  hpost FO (clset_pset_del V K s)
    (fun (_ : unit) (s' : st B) =>
     exists (i : nat) (l : loc) (c : cl B) (cs : list (cl B)),
       let never := fun c0 : cl B => (c_mtotal c0 =? 0) && (M_PROBATION K <? c_age c0) in
       map (s_heap s) (set_list (s_pset s)) = map Some cs /\
       nth_error (set_list (s_pset s)) i = Some l /\
       s_heap s l = Some c /\
       (existsb never cs = true ->
        never c = true /\
        (forall (j : nat) (d : cl B), (j < i)%nat -> nth_error cs j = Some d -> never d = false)) /\
       (existsb never cs = false -> wheel_choice V K (s_error s) (set_nm (s_pset s)) cs i) /\
       s_heap s' l = Some (set_num (c_num c - 1) c) /\
       (forall l' : loc, l' <> l -> s_heap s' l' = s_heap s l') /\
       set_list (s_pset s') =
       (if c_num c =? 1
        then filter (fun l' : nat => negb (l' =? l)%nat) (set_list (s_pset s))
        else set_list (s_pset s)) /\
       set_sz (s_pset s') = (if c_num c =? 1 then set_sz (s_pset s) - 1 else set_sz (s_pset s)) /\
       set_nm (s_pset s') = set_nm (s_pset s) - 1 /\
       set_list (s_kset s') = (if c_num c =? 1 then l :: set_list (s_kset s) else set_list (s_kset s)) /\
       (forall w : sel, w <> PSET -> w <> KSET -> get_set w s' = get_set w s) /\
       s_next s' = s_next s /\ misc s' = misc s).
Proof. exact @C07_full_lemma. Qed.
Print Assumptions C07_deletion.

(** The same with the effect as a relation; used for sequences of deletions. *)
Theorem C07_deletion_relation :
  forall (B : Type) (FO : Prop) (V : vtab B) (K : cfg) (kf : Z) (wf : B -> Prop),
  cfg_ok K kf ->
  forall (N : Z) (s : st B) (held : list loc),
  Inv K kf N wf s held ->
  set_list (s_pset s) <> [] ->
  hpost FO (clset_pset_del V K s)
    (fun (_ : unit) (s' : st B) =>
     exists (i : nat) (l : loc) (c : cl B), del_choice V K s i /\ del_rel i l c s s').
Proof. exact @C07_lemma. Qed.
Print Assumptions C07_deletion_relation.

(** Of six rules (eight micro-rules) one micro-rule goes. *)
Example C07_example :
  cfg_ok (Kl 2 (of_Z 2)) 0 /\ vt_ok (dom := any_x) True (rect_tab (Kl 2 (of_Z 2))) (Kl 2 (of_Z 2)) (rect_wf (Kl 2 (of_Z 2))) (rect_mt (Kl 2 (of_Z 2))) /\
  exists s : st body, is_ready 2 (of_Z 2) (cost 2 (of_Z 2) six) s /\
    run (clset_pset_del (rect_tab (Kl 2 (of_Z 2))) (Kl 2 (of_Z 2))) s (fun _ s' => (counted (s_pset s) s, counted (s_pset s') s', set_list (s_kset s'))) =
      (Some ([(5%nat, 1, 0); (4%nat, 1, 1); (3%nat, 1, 0); (2%nat, 2, 0); (1%nat, 2, 1); (0%nat, 1, 0)], 6, 8,
       ([(5%nat, 1, 0); (4%nat, 1, 1); (2%nat, 2, 0); (1%nat, 2, 1); (0%nat, 1, 0)], 5, 7), [3%nat])).
Proof.
  split; [apply Kl_ok|split; [apply Vl_ok|]].
  apply (look_stage 2 (of_Z 2) six (fun s => run (clset_pset_del (rect_tab (Kl 2 (of_Z 2))) (Kl 2 (of_Z 2))) s (fun _ s' => (counted (s_pset s) s, counted (s_pset s') s', set_list (s_kset s')))) _);
    [apply six_fine|vm_compute; discriminate|vm_compute; reflexivity].
Qed.

(** Four deletions from three rules: the never-matching rule 1 goes first. *)
Example C07_example_gone :
  cfg_ok (Kl 2 (of_Z 2)) 0 /\ vt_ok (dom := any_x) True (rect_tab (Kl 2 (of_Z 2))) (Kl 2 (of_Z 2)) (rect_wf (Kl 2 (of_Z 2))) (rect_mt (Kl 2 (of_Z 2))) /\
  exists s : st body, is_ready 2 (of_Z 2) (cost 2 (of_Z 2) idle) s /\
    map (fun n => run (miter n (clset_pset_del (rect_tab (Kl 2 (of_Z 2))) (Kl 2 (of_Z 2)))) s (fun _ s' => (counted (s_pset s') s', set_list (s_kset s')))) [1; 2; 3; 4]%nat =
      [Some ([(2%nat, 2, 0); (0%nat, 1, 0)], 2, 3, [1%nat]); Some ([(2%nat, 1, 0); (0%nat, 1, 0)], 2, 2, [1%nat]);
       Some ([(0%nat, 1, 0)], 1, 1, [2%nat; 1%nat]); Some ([], 0, 0, [0%nat; 2%nat; 1%nat])].
Proof.
  split; [apply Kl_ok|split; [apply Vl_ok|]].
  apply (look_stage 2 (of_Z 2) idle (fun s => map (fun n => run (miter n (clset_pset_del (rect_tab (Kl 2 (of_Z 2))) (Kl 2 (of_Z 2)))) s (fun _ s' => (counted (s_pset s') s', set_list (s_kset s')))) [1; 2; 3; 4]%nat) _);
    [apply idle_fine|vm_compute; discriminate|vm_compute; reflexivity].
Qed.
