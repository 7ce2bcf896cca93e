(** * C14 The EA fires only when due. *)
From Coq Require Import ZArith Bool List.
From Verif Require Import Outcome F64 F64Facts F64Bounds Rng Pop PopSpec PopSel PopDel PopMset PopUpdate PopEA PopPA PopTrial PopFit PopRL PropTrial PropFrame PropSel PropRef Cond Pred Comp Demo DemoEx.
Import ListNotations.
Open Scope Z_scope.

(** When it is not due nothing but the clock changes; when it is, every member of the set is stamped
    with the time (and otherwise changed at most in its numerosity). [due] (PropTrial) is the non-
    emptiness of the set and the weighted mean time reaching theta, in double precision. *)
Theorem C14_ea_due :
  forall (B : Type) (FO : Prop) (V : vtab B) (K : cfg) (kf : Z) (wf : B -> Prop)
    (mt : B -> list f64 -> Prop) (dom : list f64 -> Prop),
  cfg_ok K kf ->
  vt_ok (dom := dom) FO V K wf mt ->
  forall (N : Z) (w : sel) (s : st B) (held : list loc),
  0 <= N ->
  (ea_tournament K = true -> FO) ->
  Inv K kf N wf s held ->
  act_ok s (get_set w s) ->
  w <> PSET ->
  set_sz (get_set w s) <= int_max ->
  hpost FO (ea V K w s)
    (fun (_ : unit) (s' : st B) =>
     (~ due K w s -> s' = with_time (s_time s + 1) s) /\
     (due K w s ->
      s_time s' = s_time s + 1 /\
      (forall l : loc,
       In l (set_list (get_set w s)) ->
       exists c c' : cl B,
         s_heap s l = Some c /\
         s_heap s' l = Some c' /\ c' = set_num (c_num c') (set_time (s_time s + 1) c)))).
Proof. exact @C14_lemma. Qed.
Print Assumptions C14_ea_due.

(** Due: the four members get time 1. *)
Example C14_example :
  cfg_ok (Kl 2 f1) 0 /\ vt_ok (dom := any_x) True (rect_tab (Kl 2 f1)) (Kl 2 f1) (rect_wf (Kl 2 f1)) (rect_mt (Kl 2 f1)) /\
  exists s : st body, Inv (Kl 2 f1) 0 (cost 2 f1 six) (rect_wf (Kl 2 f1)) s [] /\ PopSpec.act_ok s (s_mset s) /\ set_nm (s_pset s) <= POP_SIZE (Kl 2 f1) /\
    run (ea (rect_tab (Kl 2 f1)) (Kl 2 f1) MSET) s (fun _ s' => map (fun l => option_map c_time (s_heap s' l)) (set_list (s_mset s'))) =
      (Some [Some 1; Some 1; Some 1; Some 1]).
Proof.
  split; [apply Kl_ok|split; [apply Vl_ok|]].
  apply (look_match 2 f1 six x1 false (fun s => run (ea (rect_tab (Kl 2 f1)) (Kl 2 f1) MSET) s (fun _ s' => map (fun l => option_map c_time (s_heap s' l)) (set_list (s_mset s')))) _);
    [apply six_fine|vm_compute; discriminate|reflexivity|vm_compute; reflexivity].
Qed.

(** With a threshold of 1000 nothing happens. *)
Example C14_example_not_due :
  cfg_ok (Kl 2 (of_Z 1000)) 0 /\ vt_ok (dom := any_x) True (rect_tab (Kl 2 (of_Z 1000))) (Kl 2 (of_Z 1000)) (rect_wf (Kl 2 (of_Z 1000))) (rect_mt (Kl 2 (of_Z 1000))) /\
  exists s : st body, Inv (Kl 2 (of_Z 1000)) 0 (cost 2 (of_Z 1000) six) (rect_wf (Kl 2 (of_Z 1000))) s [] /\ PopSpec.act_ok s (s_mset s) /\ set_nm (s_pset s) <= POP_SIZE (Kl 2 (of_Z 1000)) /\
    run (ea (rect_tab (Kl 2 (of_Z 1000))) (Kl 2 (of_Z 1000)) MSET) s (fun _ s' => (map (fun l => option_map c_time (s_heap s' l)) (set_list (s_mset s')), (s_next s, s_next s'), (s_time s, s_time s'))) =
      (Some ([Some 0; Some 0; Some 0; Some 0], (6%nat, 6%nat), (0, 1))).
Proof.
  split; [apply Kl_ok|split; [apply Vl_ok|]].
  apply (look_match 2 (of_Z 1000) six x1 false (fun s => run (ea (rect_tab (Kl 2 (of_Z 1000))) (Kl 2 (of_Z 1000)) MSET) s (fun _ s' => (map (fun l => option_map c_time (s_heap s' l)) (set_list (s_mset s')), (s_next s, s_next s'), (s_time s, s_time s')))) _);
    [apply six_fine|vm_compute; discriminate|reflexivity|vm_compute; reflexivity].
Qed.
