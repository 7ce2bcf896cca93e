(** * C18 The prediction array is the fitness-weighted mean per action. *)
From Coq Require Import ZArith Bool List.
From Verif Require Import Outcome F64 F64Facts F64Bounds Rng Pop PopSpec PopSel PopDel PopMset PopUpdate PopEA PopPA PopTrial PopFit PopRL PropTrial PropFrame PropSel PropRef Cond Pred Comp Demo DemoEx.
Import ListNotations.
Open Scope Z_scope.

(** The prediction array: for each action the fitness-weighted mean of the predictions of the rules
    advocating it, in double precision and list order; 0 where the weights add up to 0. Nothing
    changes but the predictions of the matching rules ([predicted], PopUpdate). *)
Theorem C18_prediction_array :
  forall (B : Type) (FO : Prop) (V : vtab B) (K : cfg) (kf : Z) (wf : B -> Prop)
    (mt : B -> list f64 -> Prop) (dom : list f64 -> Prop),
  cfg_ok K kf ->
  vt_ok (dom := dom) FO V K wf mt ->
  forall (N : Z) (x : list f64) (s : st B) (held : list loc),
  xok K dom x ->
  Inv K kf N wf s held ->
  act_ok s (s_mset s) ->
  hpost FO (pa_build V K x s)
    (fun (_ : unit) (s' : st B) =>
     exists cs : list (cl B),
       map (s_heap s') (set_list (s_mset s)) = map Some cs /\
       Z.of_nat (length (s_pa s')) = n_actions K * y_dim K /\
       Z.of_nat (length (s_nr s')) = n_actions K * y_dim K /\
       (forall a j : Z,
        0 <= a < n_actions K ->
        0 <= j < y_dim K ->
        let adv := filter (fun c : cl B => c_action c =? a) cs in
        let num :=
          fold_left
            (fun (z : f64) (c : cl B) => fadd z (fmul (nth (Z.to_nat j) (c_prediction c) f0) (c_fit c)))
            adv f0 in
        let den := fold_left (fun (z : f64) (c : cl B) => fadd z (c_fit c)) adv f0 in
        nth (Z.to_nat (a * y_dim K + j)) (s_nr s') f0 = den /\
        nth (Z.to_nat (a * y_dim K + j)) (s_pa s') f0 = (if feq den f0 then f0 else fdiv num den)) /\
       (forall l : loc,
        In l (set_list (s_mset s)) ->
        exists c c' : cl B, s_heap s l = Some c /\ s_heap s' l = Some c' /\ predicted V K wf x c c') /\
       (forall l : loc, ~ In l (set_list (s_mset s)) -> s_heap s' l = s_heap s l) /\
       (forall w : sel, get_set w s' = get_set w s) /\
       s_next s' = s_next s /\ misc s' = misc (with_pa (s_pa s') (s_nr s') s)).
Proof. exact @C18_lemma. Qed.
Print Assumptions C18_prediction_array.

(** The prediction array for x1 and the sums of weights. *)
Example C18_example :
  cfg_ok (Kl 2 (of_Z 2)) 0 /\ vt_ok (dom := any_x) True (rect_tab (Kl 2 (of_Z 2))) (Kl 2 (of_Z 2)) (rect_wf (Kl 2 (of_Z 2))) (rect_mt (Kl 2 (of_Z 2))) /\
  exists s : st body, Inv (Kl 2 (of_Z 2)) 0 (cost 2 (of_Z 2) six) (rect_wf (Kl 2 (of_Z 2))) s [] /\ PopSpec.act_ok s (s_mset s) /\ set_nm (s_pset s) <= POP_SIZE (Kl 2 (of_Z 2)) /\
    run (pa_build (rect_tab (Kl 2 (of_Z 2))) (Kl 2 (of_Z 2)) x1) s (fun _ s' => (map parts (s_pa s'), map parts (s_nr s'))) =
      (Some ([Some (false, 5196800746485366%positive, -53); Some (false, 7430939385161318%positive, -53)], [Some
       (false, 4593671619917906%positive, -53); Some (false, 7205759403792794%positive, -54)])).
Proof.
  split; [apply Kl_ok|split; [apply Vl_ok|]].
  apply (look_match 2 (of_Z 2) six x1 false (fun s => run (pa_build (rect_tab (Kl 2 (of_Z 2))) (Kl 2 (of_Z 2)) x1) s (fun _ s' => (map parts (s_pa s'), map parts (s_nr s')))) _);
    [apply six_fine|vm_compute; discriminate|reflexivity|vm_compute; reflexivity].
Qed.
