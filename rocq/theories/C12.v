(** * C12 The EA accounts for every offspring. *)
From Coq Require Import ZArith Bool List.
From Verif Require Import Outcome F64 F64Facts F64Bounds Rng Pop PopSpec PopSel PopDel PopMset PopUpdate PopEA PopPA PopTrial PopFit PopRL PropTrial PropFrame PropSel PropRef Cond Pred Comp Demo DemoEx.
Import ListNotations.
Open Scope Z_scope.

(** When the EA is due, the numerosity of the population grows by exactly one per offspring created,
    whether the offspring is added, absorbed by its parent or subsumed ([breeding], PopEA), and then
    exactly the excess over the size limit is deleted ([deletes], PopDel). *)
Theorem C12_ea_accounting :
  forall (B : Type) (FO : Prop) (V : vtab B) (K : cfg) (kf : Z) (wf : B -> Prop)
    (mt : B -> list f64 -> Prop) (dom : list f64 -> Prop),
  cfg_ok K kf ->
  vt_ok (dom := dom) FO V K wf mt ->
  forall (N : Z) (w : sel) (s : st B) (held : list loc),
  0 <= N ->
  (ea_tournament K = true -> FO) ->
  Inv K kf N wf s held ->
  act_ok s (get_set w s) ->
  w <> PSET ->
  set_sz (get_set w s) <= int_max ->
  hpost FO (ea V K w s)
    (fun (_ : unit) (s' : st B) =>
     due K w s ->
     exists (p q : loc) (s1 s2 : st B),
       breeding V K wf w p q (Z.to_nat ((ea_lambda K + 1) / 2)) s1 s2 /\
       In p (set_list (get_set w s)) /\
       In q (set_list (get_set w s)) /\
       s_next s1 = s_next s /\
       sum_nums (s_heap s2) (set_list (s_pset s2)) =
       sum_nums (s_heap s) (set_list (s_pset s)) + (Z.of_nat (s_next s2) - Z.of_nat (s_next s)) /\
       set_nm (s_pset s2) = sum_nums (s_heap s2) (set_list (s_pset s2)) /\
       deletes V K (Z.to_nat (set_nm (s_pset s2) - POP_SIZE K)) s2 s').
Proof. exact @C12_lemma. Qed.
Print Assumptions C12_ea_accounting.

(** Two offspring, and deletions to make room; the clock advances. *)
Example C12_example :
  cfg_ok (Kl 2 f1) 0 /\ vt_ok (dom := any_x) True (rect_tab (Kl 2 f1)) (Kl 2 f1) (rect_wf (Kl 2 f1)) (rect_mt (Kl 2 f1)) /\
  exists s : st body, Inv (Kl 2 f1) 0 (cost 2 f1 six) (rect_wf (Kl 2 f1)) s [] /\ PopSpec.act_ok s (s_mset s) /\ set_nm (s_pset s) <= POP_SIZE (Kl 2 f1) /\
    run (ea (rect_tab (Kl 2 f1)) (Kl 2 f1) MSET) s (fun _ s' => (counted (s_pset s) s, counted (s_pset s') s', (s_next s, s_next s'), (s_time s, s_time s'))) =
      (Some ([(5%nat, 1, 0); (4%nat, 1, 1); (3%nat, 1, 0); (2%nat, 2, 0); (1%nat, 2, 1); (0%nat, 1, 0)], 6, 8,
       ([(6%nat, 1, 0); (4%nat, 1, 1); (3%nat, 1, 0); (2%nat, 2, 0); (1%nat, 2, 1); (0%nat, 1, 0)], 6, 8),
       (6%nat, 8%nat), (0, 1))).
Proof.
  split; [apply Kl_ok|split; [apply Vl_ok|]].
  apply (look_match 2 f1 six x1 false (fun s => run (ea (rect_tab (Kl 2 f1)) (Kl 2 f1) MSET) s (fun _ s' => (counted (s_pset s) s, counted (s_pset s') s', (s_next s, s_next s'), (s_time s, s_time s')))) _);
    [apply six_fine|vm_compute; discriminate|reflexivity|vm_compute; reflexivity].
Qed.
