(** * C60 Reported match fraction is a fraction. *)
From Coq Require Import ZArith Bool List Reals.
From Flocq Require Import Core BinarySingleNaN.
From Verif Require Import Outcome F64 F64Facts F64Bounds Rng RngFacts Pop PopSpec PopInv PopUpdate PopTrial PopFit PopOps PopSeq PopClock PropClock Arr Cond Blas Pred Comp CompFacts Demo DemoEx PropAvg.
Import ListNotations.
Open Scope Z_scope.

(** The fraction of a rule that has not matched more often than it was tested (counters are C ints,
    hence below 2^53): in [0,1], and the correctly rounded quotient. *)
Theorem C60_rule :
  forall (B : Type) (c : cl B),
  counts c ->
  fin_in 0 1 (cl_mfrac c) /\
  (0 < c_age c -> B2R (cl_mfrac c) = rnd (IZR (c_mtotal c) / IZR (c_age c))) /\
  (c_age c = 0 -> cl_mfrac c = f0).
Proof. exact @C60_rule_lemma. Qed.
Print Assumptions C60_rule.

(** The reported fraction: in [0,1] and the fraction of the rule described by [reported]. A rule is
    [seasoned] if its experience times BETA exceeds 1. *)
Theorem C60_population :
  forall (B : Type) (K : cfg) (cs : list (cl B)),
  Forall counts cs -> fin_in 0 1 (clset_mfrac K cs) /\ reported K cs (clset_mfrac K cs).
Proof. exact @C60_population_lemma. Qed.
Print Assumptions C60_population.

(** Building a match set preserves the order of the counters and keeps the average in [0,1]. *)
Theorem C60_match :
  forall (B : Type) (FO : Prop) (V : vtab B) (K : cfg) (kf : Z) (wf : B -> Prop)
    (mt : B -> list f64 -> Prop),
  cfg_ok K kf ->
  forall dom : list f64 -> Prop,
  vt_ok (dom := dom) FO V K wf mt ->
  forall (T N : Z) (x : list f64) (cv : bool) (s : st B),
  0 <= N ->
  xok K dom x ->
  Inv K kf N wf s [] ->
  s_mset s = empty_set ->
  set_nm (s_pset s) <= POP_SIZE K ->
  stamped T s ->
  fin_in 0 1 (s_mfrac s) ->
  hpost FO (clset_match V K x cv s)
    (fun (_ : unit) (s' : st B) =>
     stamped T s' /\
     ((forall (l : loc) (c : cl B), s_heap s' l = Some c -> c_age c <= 2 ^ 53) -> fin_in 0 1 (s_mfrac s'))).
Proof. exact @C60_match_lemma. Qed.
Print Assumptions C60_match.

(** After any operations the counters of all rules are in order ([stamped]). *)
Theorem C60_reachable :
  forall (B : Type) (FO : Prop) (V : vtab B) (K : cfg) (kf : Z) (wf : B -> Prop)
    (mt : B -> list f64 -> Prop),
  cfg_ok K kf ->
  forall dom : list f64 -> Prop,
  vt_ok (dom := dom) FO V K wf mt ->
  forall (E : Type) (VE : env E) (einv : E -> Prop),
  PopRL.env_ok (dom := dom) FO K VE einv ->
  (ea_tournament K = true -> FO) ->
  forall (T : Z) (os : list op) (s : st B),
  (forall l : loc, s_heap s l = None) ->
  Forall (op_ok (dom := dom) FO K kf wf einv) os ->
  Forall (op_stamped T) os ->
  costs K os <= 2 ^ 53 ->
  hpost FO ((xcsf_init V K;;; run_ops V K VE os) s)
    (fun (_ : unit) (s' : st B) =>
     Good K kf (costs K os) wf s' /\ stamped T s' /\ s_time s' <= all_ticks K os).
Proof. exact @C58_life_lemma. Qed.
Print Assumptions C60_reachable.

(** Six rules: the counters are in order; no rule is experienced and accurate, so the fraction of
    the experienced rule of lowest error is observed. *)
Example C60_example :
  cfg_ok (Kl 2 (of_Z 2)) 0 /\ vt_ok (dom := any_x) True (rect_tab (Kl 2 (of_Z 2))) (Kl 2 (of_Z 2)) (rect_wf (Kl 2 (of_Z 2))) (rect_mt (Kl 2 (of_Z 2))) /\
  exists s : st body, is_ready 2 (of_Z 2) (cost 2 (of_Z 2) six) s /\
    (map (fun o => match o with Some c => (c_mtotal c, c_age c, c_exp c, parts (c_err c), parts (cl_mfrac c)) | None => (0, 0, 0, parts f0, parts f0) end) (map (s_heap s) (set_list (s_pset s))), run (clset_match (rect_tab (Kl 2 (of_Z 2))) (Kl 2 (of_Z 2)) x1 true) s (fun _ s' => (parts (s_mfrac s), parts (s_mfrac s')))) =
      ([(3, 10, 3, Some (false, 7205759403792794%positive, -55), Some (false, 5404319552844595%positive, -54)); (2,
       10, 2, Some (false, 5404319552844595%positive, -54), Some (false, 7205759403792794%positive, -55));
       (25, 50, 25, Some (false, 8106479329266893%positive, -53), Some (false, 4503599627370496%positive,
       -53)); (10, 20, 10, Some (false, 7205759403792794%positive, -56), Some (false,
       4503599627370496%positive, -53)); (30, 60, 30, Some (false, 4953959590107546%positive, -53), Some
       (false, 4503599627370496%positive, -53)); (5, 10, 5, Some (false, 5404319552844595%positive, -53), Some
       (false, 4503599627370496%positive, -53))], Some (None, Some (false, 7548890803973404%positive, -56))).
Proof.
  split; [apply Kl_ok|split; [apply Vl_ok|]].
  apply (look_stage 2 (of_Z 2) six (fun s => (map (fun o => match o with Some c => (c_mtotal c, c_age c, c_exp c, parts (c_err c), parts (cl_mfrac c)) | None => (0, 0, 0, parts f0, parts f0) end) (map (s_heap s) (set_list (s_pset s))), run (clset_match (rect_tab (Kl 2 (of_Z 2))) (Kl 2 (of_Z 2)) x1 true) s (fun _ s' => (parts (s_mfrac s), parts (s_mfrac s'))))) _);
    [apply six_fine|vm_compute; discriminate|vm_compute; reflexivity].
Qed.
