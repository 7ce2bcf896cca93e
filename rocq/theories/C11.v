(** * C11 Set subsumption conserves numerosity and direction. *)
From Coq Require Import ZArith Bool List.
From Verif Require Import Outcome F64 F64Facts F64Bounds Rng Pop PopSpec PopSel PopDel PopMset PopUpdate PopEA PopPA PopTrial PopFit PopRL PropTrial PropFrame PropSel PropRef Cond Pred Comp Demo DemoEx.
Import ListNotations.
Open Scope Z_scope.

(** Set subsumption removes a set D of rules from the set and from the population and adds their
    numerosity to the subsumer; total numerosity is conserved in both. The subsumer is experienced
    and accurate, and more general than every rule removed. [chosen] (PopUpdate) says which of the
    candidates it is. *)
Theorem C11_set_subsumption :
  forall (B : Type) (FO : Prop) (V : vtab B) (K : cfg) (kf : Z) (wf : B -> Prop) 
    (N : Z) (w : sel) (s : st B) (held : list loc),
  Inv K kf N wf s held ->
  act_ok s (get_set w s) ->
  w <> PSET ->
  w <> KSET ->
  w <> PREV_PSET ->
  hpost FO (clset_subsumption V K w s)
    (fun (_ : unit) (s' : st B) =>
     exists D : list loc,
       set_list (s_pset s') = outside D (set_list (s_pset s)) /\
       set_list (get_set w s') = outside D (set_list (get_set w s)) /\
       sum_nums (s_heap s') (set_list (s_pset s')) = sum_nums (s_heap s) (set_list (s_pset s)) /\
       sum_nums (s_heap s') (set_list (get_set w s')) = sum_nums (s_heap s) (set_list (get_set w s)) /\
       (D = [] -> s' = s) /\
       (D <> [] ->
        exists (sub : loc) (c0 : cl B),
          chosen V K (s_heap s) (set_list (get_set w s)) sub c0 /\
          In sub (set_list (get_set w s)) /\
          s_heap s sub = Some c0 /\
          THETA_SUB K < c_exp c0 /\
          flt (c_err c0) (E0 K) = true /\
          (forall l : loc,
           In l D <->
           In l (set_list (get_set w s)) /\
           l <> sub /\
           (exists c : cl B,
              s_heap s l = Some c /\
              v_cond_general V (c_body c0) (c_body c) = true /\
              v_act_general V (c_body c0) (c_body c) = true)) /\
          s_heap s' sub = Some (set_num (c_num c0 + sum_nums (s_heap s) D) c0) /\
          (forall l : loc, l <> sub -> ~ In l D -> s_heap s' l = s_heap s l) /\
          (forall v : sel, v <> PSET -> v <> KSET -> v <> w -> get_set v s' = get_set v s) /\
          s_next s' = s_next s /\ misc s' = misc s) /\ subsumption_rel V K w s s' /\ Inv K kf N wf s' held).
Proof. exact @C11_lemma. Qed.
Print Assumptions C11_set_subsumption.

(** Rule 2 absorbs rule 3. *)
Example C11_example :
  cfg_ok (Kl 2 (of_Z 2)) 0 /\ vt_ok (dom := any_x) True (rect_tab (Kl 2 (of_Z 2))) (Kl 2 (of_Z 2)) (rect_wf (Kl 2 (of_Z 2))) (rect_mt (Kl 2 (of_Z 2))) /\
  exists s : st body, Inv (Kl 2 (of_Z 2)) 0 (cost 2 (of_Z 2) six) (rect_wf (Kl 2 (of_Z 2))) s [] /\ PopSpec.act_ok s (s_mset s) /\ set_nm (s_pset s) <= POP_SIZE (Kl 2 (of_Z 2)) /\
    run (clset_subsumption (rect_tab (Kl 2 (of_Z 2))) (Kl 2 (of_Z 2)) MSET) s (fun _ s' => (counted (s_mset s) s, counted (s_mset s') s', counted (s_pset s') s', counted (s_kset s') s')) =
      (Some ([(0%nat, 1, 0); (1%nat, 2, 1); (2%nat, 2, 0); (3%nat, 1, 0)], 4, 6, ([(0%nat, 1, 0); (1%nat, 2, 1);
       (2%nat, 3, 0)], 3, 6), ([(5%nat, 1, 0); (4%nat, 1, 1); (2%nat, 3, 0); (1%nat, 2, 1); (0%nat, 1, 0)], 5,
       8), ([(3%nat, 0, 0)], 1, 0))).
Proof.
  split; [apply Kl_ok|split; [apply Vl_ok|]].
  apply (look_match 2 (of_Z 2) six x1 false (fun s => run (clset_subsumption (rect_tab (Kl 2 (of_Z 2))) (Kl 2 (of_Z 2)) MSET) s (fun _ s' => (counted (s_mset s) s, counted (s_mset s') s', counted (s_pset s') s', counted (s_kset s') s'))) _);
    [apply six_fine|vm_compute; discriminate|reflexivity|vm_compute; reflexivity].
Qed.
