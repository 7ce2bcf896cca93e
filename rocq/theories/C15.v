(** * C15 Absorbed offspring are genuinely identical. *)
From Coq Require Import ZArith Bool List.
From Verif Require Import Outcome F64 F64Bounds Rng Sam Cond Blas Pred SamFacts TernFacts RectFacts EllipFacts PredFacts Comp CompFacts Pop PopSpec PopFit PopEA PropFrame Demo DemoEx.
Import ListNotations.
Open Scope Z_scope.

(** One round of reproduction: the two offspring d1, d2 of c1, c2; [ch1], [ch2] is what is reported
    ([placed], PopEA: an offspring reported unchanged is absorbed by its parent). An offspring
    reported unchanged has the condition and action of its parent, up to [sc], [sa] below. *)
Theorem C15_unchanged_identical :
  forall (C A P : Type) (FO : Prop) (K : cfg) (kf N : Z) (dom : list f64 -> Prop) 
    (VC : condT C) (VA : actT A) (VP : predT P) (wc : C -> Prop) (mc : C -> list f64 -> Prop)
    (wa : A -> Prop) (wp : P -> Prop) (sc : C -> C -> Prop) (sa : A -> A -> Prop) 
    (w : sel) (p q : loc) (s : st (payload C A P)) (held : list loc),
  cfg_ok K kf ->
  vt_ok (dom := dom) FO (join VC VA VP) K (wf_pay wc wa wp) (mt_pay mc) ->
  0 <= N ->
  cond_honest VC wc sc ->
  act_honest VA wa sa ->
  Inv K kf N (wf_pay wc wa wp) s held ->
  act_ok s (get_set w s) ->
  w <> PSET ->
  In p (set_list (s_pset s)) ->
  In q (set_list (s_pset s)) ->
  set_sz (get_set w s) <= int_max ->
  hpost FO (ea_offspring (join VC VA VP) K w p q s)
    (fun (_ : unit) (s' : st (payload C A P)) =>
     exists (c1 c2 d1 d2 : cl (payload C A P)) (ch1 ch2 : bool) (g : rng) (s1 s2 : st (payload C A P)),
       s_heap s p = Some c1 /\
       s_heap s q = Some c2 /\
       s1 =
       with_rng g
         (with_heap (upd (upd (s_heap s) (s_next s) (Some d1)) (S (s_next s)) (Some d2))
            (S (S (s_next s))) s) /\
       placed (join VC VA VP) K w p q (s_next s) d1 ch1 s1 s2 /\
       placed (join VC VA VP) K w q p (S (s_next s)) d2 ch2 s2 s' /\
       (ch1 = false -> alike sc sa (c_body c1) (c_body d1)) /\
       (ch2 = false -> alike sc sa (c_body c2) (c_body d2))).
Proof. exact @C15_lemma. Qed.
Print Assumptions C15_unchanged_identical.

(** Ternary conditions: the same string. *)
Theorem C15_ternary :
  forall (K : cfg) (P : cpar),
  1 <= x_dim K ->
  1 <= cp_bits P <= 31 ->
  cond_honest (ternary_cond K P) (wf_tern K P) (fun c d : ternary => t_string d = t_string c).
Proof. exact @ternary_honest. Qed.
Print Assumptions C15_ternary.

(** Hyperrectangles: the same coordinates. *)
Theorem C15_rectangle :
  forall (K : cfg) (P : cpar),
  1 <= x_dim K ->
  cond_honest (rect_cond K P) (wf_rect K)
    (fun c d : rect => same_coords (r_b1 c) (r_b1 d) /\ same_coords (r_b2 c) (r_b2 d)).
Proof. exact @rect_honest. Qed.
Print Assumptions C15_rectangle.

(** Hyperellipsoids: the same coordinates. *)
Theorem C15_ellipsoid :
  forall (K : cfg) (P : cpar),
  1 <= x_dim K ->
  cond_honest (ellip_cond K P) (wf_ellip K)
    (fun c d : ellip => same_coords (e_center c) (e_center d) /\ same_coords (e_spread c) (e_spread d)).
Proof. exact @ellip_honest. Qed.
Print Assumptions C15_ellipsoid.

(** Dummy conditions have no content. *)
Theorem C15_dummy :
  forall wc : unit -> Prop, cond_honest dummy_cond wc (fun _ _ : unit => True).
Proof. exact @dummy_honest. Qed.
Print Assumptions C15_dummy.

(** Integer actions: the same action. *)
Theorem C15_integer :
  forall K : cfg,
  1 <= n_actions K <= int_max ->
  act_honest (integer_act K) (act_wf K) (fun a b : actint => a_action b = a_action a).
Proof. exact @integer_honest. Qed.
Print Assumptions C15_integer.

(** Mutating the ternary condition "01#0" (rate 1/4) with the random tape read from six positions. *)
Example C15_example :
  wf_tern K2 (mkCpar 0 f0 f0 f0 f0 f0 2 f0) (mkTernary [ch0; ch1; DONT_CARE; ch0] [lit 1 4]) /\
  map (fun k => match ternary_mutate K2 (mkTernary [ch0; ch1; DONT_CARE; ch0] [lit 1 4]) (mkRng (demo_tape 1) k false f0) with
                | Ok ((c, ch), _) => Some (t_string c, ch) | _ => None end) [0; 1; 2; 3; 4; 5]%nat =
  [Some ([48; 49; 35; 48], false); Some ([48; 49; 35; 35], true); Some ([48; 49; 49; 48], true);
   Some ([48; 35; 35; 48], true); Some ([35; 49; 35; 48], true); Some ([48; 49; 35; 48], false)].
Proof. split; [split; [reflexivity|split; [repeat (constructor; [vm_compute; auto|]); constructor|reflexivity]]|vm_compute; reflexivity]. Qed.
