(** * C13 The EA creates lambda offspring. *)
From Coq Require Import ZArith Bool List.
From Verif Require Import Outcome F64 F64Facts F64Bounds Rng Pop PopSpec PopSel PopDel PopMset PopUpdate PopEA PopPA PopTrial PopFit PopRL PropTrial PropFrame PropSel PropRef Cond Pred Comp Demo DemoEx.
Import ListNotations.
Open Scope Z_scope.

(** What holds: an EA invocation creates lambda offspring if lambda is even, lambda + 1 if it is
    odd. *)
Theorem C13_offspring :
  forall (B : Type) (FO : Prop) (V : vtab B) (K : cfg) (kf : Z) (wf : B -> Prop)
    (mt : B -> list f64 -> Prop) (dom : list f64 -> Prop),
  cfg_ok K kf ->
  vt_ok (dom := dom) FO V K wf mt ->
  forall (N : Z) (w : sel) (s : st B) (held : list loc),
  0 <= N ->
  (ea_tournament K = true -> FO) ->
  Inv K kf N wf s held ->
  act_ok s (get_set w s) ->
  w <> PSET ->
  set_sz (get_set w s) <= int_max ->
  0 <= ea_lambda K ->
  due K w s ->
  hpost FO (ea V K w s)
    (fun (_ : unit) (s' : st B) =>
     Z.of_nat (s_next s') - Z.of_nat (s_next s) =
     (if Z.even (ea_lambda K) then ea_lambda K else ea_lambda K + 1)).
Proof. exact @C13_lemma. Qed.
Print Assumptions C13_offspring.

(** REFUTED as stated: with lambda = 3 (which the setter accepts) four offspring are created. *)
Theorem C13_refuted :
  exists (B : Type) (V : vtab B) (K : cfg) (wf : B -> Prop) (mt : B -> list f64 -> Prop) (N : Z) (s s' : st B),
    cfg_ok K 0 /\ vt_ok (dom := any_x) True V K wf mt /\ Inv K 0 N wf s [] /\ PopSpec.act_ok s (s_mset s) /\
    ea_lambda K = 3 /\ ea V K MSET s = Ok (tt, s') /\ s_next s' = (s_next s + 4)%nat.
Proof. exact C13_refuted_lemma. Qed.
Print Assumptions C13_refuted.

(** Lambda 2: two offspring. *)
Example C13_example :
  cfg_ok (Kl 2 f1) 0 /\ vt_ok (dom := any_x) True (rect_tab (Kl 2 f1)) (Kl 2 f1) (rect_wf (Kl 2 f1)) (rect_mt (Kl 2 f1)) /\
  exists s : st body, Inv (Kl 2 f1) 0 (cost 2 f1 six) (rect_wf (Kl 2 f1)) s [] /\ PopSpec.act_ok s (s_mset s) /\ set_nm (s_pset s) <= POP_SIZE (Kl 2 f1) /\
    run (ea (rect_tab (Kl 2 f1)) (Kl 2 f1) MSET) s (fun _ s' => (s_next s, s_next s')) =
      (Some (6%nat, 8%nat)).
Proof.
  split; [apply Kl_ok|split; [apply Vl_ok|]].
  apply (look_match 2 f1 six x1 false (fun s => run (ea (rect_tab (Kl 2 f1)) (Kl 2 f1) MSET) s (fun _ s' => (s_next s, s_next s'))) _);
    [apply six_fine|vm_compute; discriminate|reflexivity|vm_compute; reflexivity].
Qed.
