(** * C06 The action set is exactly the advocates of the chosen action. *)
From Coq Require Import ZArith Bool List.
From Verif Require Import Outcome F64 F64Facts F64Bounds Rng Pop PopSpec PopSel PopDel PopMset PopUpdate PopEA PopPA PopTrial PopFit PopRL PropTrial PropFrame PropSel PropRef Cond Pred Comp Demo DemoEx.
Import ListNotations.
Open Scope Z_scope.

(** The action set lists exactly the members of the match set that advocate the action, in reverse
    order, with exact counters; building it always succeeds and changes nothing else but the running
    mean of its size. *)
Theorem C06_action_set :
  forall (B : Type) (K : cfg) (a : Z) (s : st B),
  (forall l : loc, In l (set_list (s_mset s)) -> s_heap s l <> None) ->
  s_aset s = empty_set ->
  exists s' : st B,
    clset_action K a s = Ok (tt, s') /\
    set_list (s_aset s') = rev (filter (with_action (s_heap s) a) (set_list (s_mset s))) /\
    (forall l : loc,
     In l (set_list (s_aset s')) <->
     In l (set_list (s_mset s)) /\ (exists c : cl B, s_heap s l = Some c /\ c_action c = a)) /\
    set_sz (s_aset s') = Z.of_nat (length (set_list (s_aset s'))) /\
    set_nm (s_aset s') = sum_nums (s_heap s) (set_list (s_aset s')) /\
    s_heap s' = s_heap s /\
    s_next s' = s_next s /\
    s_rng s' = s_rng s /\
    (forall w : sel, w <> ASET -> get_set w s' = get_set w s) /\
    misc s' =
    misc
      (with_stats (s_error s) (s_mset_size s)
         (fadd (s_aset_size s)
            (fmul (fsub (of_Z (Z.of_nat (length (set_list (s_aset s'))))) (s_aset_size s)) (BETA K)))
         (s_mfrac s) s).
Proof. exact @C06_lemma. Qed.
Print Assumptions C06_action_set.

(** Three of the four matching rules advocate action 0; one (numerosity 2) action 1; none action 7.
    *)
Example C06_example :
  cfg_ok (Kl 2 (of_Z 2)) 0 /\ vt_ok (dom := any_x) True (rect_tab (Kl 2 (of_Z 2))) (Kl 2 (of_Z 2)) (rect_wf (Kl 2 (of_Z 2))) (rect_mt (Kl 2 (of_Z 2))) /\
  exists s : st body, Inv (Kl 2 (of_Z 2)) 0 (cost 2 (of_Z 2) six) (rect_wf (Kl 2 (of_Z 2))) s [] /\ PopSpec.act_ok s (s_mset s) /\ set_nm (s_pset s) <= POP_SIZE (Kl 2 (of_Z 2)) /\
    map (fun a => run (clset_action (Kl 2 (of_Z 2)) a) s (fun _ s' => counted (s_aset s') s')) [0; 1; 7] =
      [Some ([(3%nat, 1, 0); (2%nat, 2, 0); (0%nat, 1, 0)], 3, 4); Some ([(1%nat, 2, 1)], 1, 2); Some ([], 0, 0)].
Proof.
  split; [apply Kl_ok|split; [apply Vl_ok|]].
  apply (look_match 2 (of_Z 2) six x1 false (fun s => map (fun a => run (clset_action (Kl 2 (of_Z 2)) a) s (fun _ s' => counted (s_aset s') s')) [0; 1; 7]) _);
    [apply six_fine|vm_compute; discriminate|reflexivity|vm_compute; reflexivity].
Qed.
