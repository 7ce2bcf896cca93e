(** * C16 Predicting with user-supplied cover values leaves the rules alone. *)
From Coq Require Import ZArith Bool List.
From Verif Require Import Outcome F64 F64Bounds Rng Sam Cond Blas Pred SamFacts TernFacts RectFacts EllipFacts PredFacts Comp CompFacts Pop PopSpec PopFit PopEA PropFrame Demo DemoEx.
Import ListNotations.
Open Scope Z_scope.

(** [kept R]: the population list and its counters, the stored population, numerosities, fitness,
    error, experience, set size and time of every rule are unchanged; so is everything it carries,
    up to [R]. Rows no rule matches get exactly the given values. *)
Theorem C16_predict :
  forall (B : Type) (FO : Prop) (V : vtab B) (K : cfg) (kf : Z) (wf : B -> Prop)
    (mt : B -> list f64 -> Prop) (dom : list f64 -> Prop),
  cfg_ok K kf ->
  vt_ok (dom := dom) FO V K wf mt ->
  (ea_tournament K = true -> FO) ->
  forall R : B * list f64 -> B * list f64 -> Prop,
  keeps (dom := dom) V K wf mt R ->
  forall (N : Z) (xs : list (list f64)) (cv : list f64) (s : st B),
  0 <= N ->
  Good K kf N wf s ->
  Forall (xok K dom) xs ->
  n_actions K * y_dim K <= Z.of_nat (length cv) ->
  hpost FO (supervised_predict V K xs (Some cv) s)
    (fun (ps : list (list f64)) (s' : st B) =>
     kept R s s' /\
     Forall2 (fun x p : list f64 => no_match mt s x -> p = firstn (Z.to_nat (n_actions K * y_dim K)) cv)
       xs ps).
Proof. exact @C16_predict. Qed.
Print Assumptions C16_predict.

(** The same for scoring. *)
Theorem C16_score :
  forall (B : Type) (FO : Prop) (V : vtab B) (K : cfg) (kf : Z) (wf : B -> Prop)
    (mt : B -> list f64 -> Prop) (dom : list f64 -> Prop),
  cfg_ok K kf ->
  vt_ok (dom := dom) FO V K wf mt ->
  (ea_tournament K = true -> FO) ->
  forall R : B * list f64 -> B * list f64 -> Prop,
  keeps (dom := dom) V K wf mt R ->
  forall (N : Z) (d : input) (cv : list f64) (s : st B),
  0 <= N ->
  Good K kf N wf s ->
  data_ok (dom := dom) K d ->
  n_actions K * y_dim K <= Z.of_nat (length cv) ->
  hpost FO (supervised_score V K d (Some cv) s) (fun (_ : f64) (s' : st B) => kept R s s').
Proof. exact @C16_score. Qed.
Print Assumptions C16_score.

(** The same for scoring on a sample. *)
Theorem C16_score_n :
  forall (B : Type) (FO : Prop) (V : vtab B) (K : cfg) (kf : Z) (wf : B -> Prop)
    (mt : B -> list f64 -> Prop) (dom : list f64 -> Prop),
  cfg_ok K kf ->
  vt_ok (dom := dom) FO V K wf mt ->
  (ea_tournament K = true -> FO) ->
  forall R : B * list f64 -> B * list f64 -> Prop,
  keeps (dom := dom) V K wf mt R ->
  forall (N : Z) (d : input) (n : Z) (cv : list f64) (s : st B),
  0 <= N ->
  Good K kf N wf s ->
  data_ok (dom := dom) K d ->
  n_actions K * y_dim K <= Z.of_nat (length cv) ->
  hpost FO (supervised_score_n V K d n (Some cv) s) (fun (_ : f64) (s' : st B) => kept R s s').
Proof. exact @C16_score_n. Qed.
Print Assumptions C16_score_n.

(** For rules assembled from parts, [R] is: the same condition, the same action, and the same learnt
    data. *)
Theorem C16_parts :
  forall (C A P : Type) (K : cfg) (dom : list f64 -> Prop) (VC : condT C) (VA : actT A) 
    (VP : predT P) (wc : C -> Prop) (mc : C -> list f64 -> Prop) (wa : A -> Prop) 
    (wp : P -> Prop) (pk : P * list f64 -> P * list f64 -> Prop),
  cond_static (dom := dom) K VC wc ->
  act_static (dom := dom) K VA wa ->
  pred_static (dom := dom) K VP wp pk -> keeps (dom := dom) (join VC VA VP) K (wf_pay wc wa wp) (mt_pay mc) (carried pk).
Proof. exact @keeps_join. Qed.
Print Assumptions C16_parts.

(** Matching leaves ternary conditions alone, ... *)
Theorem C16_ternary :
  forall (K : cfg) (P : cpar) (dom : list f64 -> Prop) (wc : ternary -> Prop),
  cond_static (dom := dom) K (ternary_cond K P) wc.
Proof. exact @ternary_static. Qed.
Print Assumptions C16_ternary.

(** ... hyperrectangles, ... *)
Theorem C16_rectangle :
  forall (K : cfg) (P : cpar) (dom : list f64 -> Prop) (wc : rect -> Prop),
  cond_static (dom := dom) K (rect_cond K P) wc.
Proof. exact @rect_static. Qed.
Print Assumptions C16_rectangle.

(** ... hyperellipsoids, ... *)
Theorem C16_ellipsoid :
  forall (K : cfg) (P : cpar) (dom : list f64 -> Prop) (wc : ellip -> Prop),
  cond_static (dom := dom) K (ellip_cond K P) wc.
Proof. exact @ellip_static. Qed.
Print Assumptions C16_ellipsoid.

(** ... dummies; ... *)
Theorem C16_dummy :
  forall (K : cfg) (dom : list f64 -> Prop) (wc : unit -> Prop), cond_static (dom := dom) K dummy_cond wc.
Proof. exact @dummy_static. Qed.
Print Assumptions C16_dummy.

(** computing leaves integer actions alone; ... *)
Theorem C16_integer :
  forall (K : cfg) (dom : list f64 -> Prop) (wa : actint -> Prop), act_static (dom := dom) K (integer_act K) wa.
Proof. exact @integer_static. Qed.
Print Assumptions C16_integer.

(** computing keeps constant predictions, ... *)
Theorem C16_constant :
  forall (K : cfg) (dom : list f64 -> Prop) (wp : unit -> Prop),
  pred_static (dom := dom) K (constant_pred K) wp (fun p q : unit * list f64 => snd q = snd p).
Proof. exact @constant_static. Qed.
Print Assumptions C16_constant.

(** ... NLMS weights and rates, ... *)
Theorem C16_nlms :
  forall (K : cfg) (R : ppar),
  1 <= x_dim K ->
  1 <= y_dim K ->
  forall dom : list f64 -> Prop,
  pp_type R = PRED_TYPE_NLMS_LINEAR \/ pp_type R = PRED_TYPE_NLMS_QUADRATIC ->
  pred_static (dom := dom) K (nlms_pred K R) (wf_nlms K R) nlms_kept.
Proof. exact @nlms_static. Qed.
Print Assumptions C16_nlms.

(** ... RLS weights and matrices. *)
Theorem C16_rls :
  forall (K : cfg) (R : ppar),
  1 <= x_dim K ->
  1 <= y_dim K ->
  forall dom : list f64 -> Prop,
  pp_type R = PRED_TYPE_RLS_LINEAR \/ pp_type R = PRED_TYPE_RLS_QUADRATIC ->
  pred_static (dom := dom) K (rls_pred K R) (wf_rls K R) rls_kept.
Proof. exact @rls_static. Qed.
Print Assumptions C16_rls.

(** Six rules; x2 is matched by none and gets the given values 1 and 0; nothing changes. *)
Example C16_example :
  cfg_ok (Kl 2 (of_Z 2)) 0 /\ vt_ok (dom := any_x) True (rect_tab (Kl 2 (of_Z 2))) (Kl 2 (of_Z 2)) (rect_wf (Kl 2 (of_Z 2))) (rect_mt (Kl 2 (of_Z 2))) /\
  exists s : st body, is_ready 2 (of_Z 2) (cost 2 (of_Z 2) six) s /\
    run (supervised_predict (rect_tab (Kl 2 (of_Z 2))) (Kl 2 (of_Z 2)) [x1; x2] (Some [f1; f0])) s (fun ps s' => (map (map parts) ps, counted (s_pset s) s, counted (s_pset s') s')) =
      (Some ([[Some (false, 5196800746485366%positive, -53); Some (false, 7430939385161318%positive, -53)]; [Some
       (false, 4503599627370496%positive, -52); None]], ([(5%nat, 1, 0); (4%nat, 1, 1); (3%nat, 1, 0); (2%nat,
       2, 0); (1%nat, 2, 1); (0%nat, 1, 0)], 6, 8), ([(5%nat, 1, 0); (4%nat, 1, 1); (3%nat, 1, 0); (2%nat, 2,
       0); (1%nat, 2, 1); (0%nat, 1, 0)], 6, 8))).
Proof.
  split; [apply Kl_ok|split; [apply Vl_ok|]].
  apply (look_stage 2 (of_Z 2) six (fun s => run (supervised_predict (rect_tab (Kl 2 (of_Z 2))) (Kl 2 (of_Z 2)) [x1; x2] (Some [f1; f0])) s (fun ps s' => (map (map parts) ps, counted (s_pset s) s, counted (s_pset s') s'))) _);
    [apply six_fine|vm_compute; discriminate|vm_compute; reflexivity].
Qed.
