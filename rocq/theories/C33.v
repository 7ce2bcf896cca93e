(** * C33 Store followed by retrieve restores the population. *)
From Coq Require Import ZArith Bool List.
From Verif Require Import Outcome F64 F64Facts F64Bounds Rng RngFacts Pop PopSpec PopFit PopRL PopOps PopSeq PopKeep Arr Cond Blas Pred Comp CompFacts PropFrame Demo DemoEx PropStore.
Import ListNotations.
Open Scope Z_scope.

(** REFUTED: with constant predictions, storing and retrieving at once reverses the order of the
    rules and zeroes their predictions (pred_constant_copy copies nothing, cl_init_copy allocates a
    zeroed prediction). *)
Theorem C33_refuted :
  exists
    (B : Type) (V : vtab B) (K : cfg) (wf : B -> Prop) (mt : B -> list f64 -> Prop) 
  (N : Z) (s s' : st B),
    cfg_ok K 0 /\
    vt_ok (dom := any_x) False V K wf mt /\
    Good K 0 N wf s /\
    (store_pset V K;;; retrieve_pset)%m s = Ok (tt, s') /\
    map (option_map (fun c : cl B => (c_exp c, map to_int (c_prediction c)))) (rules_of (s_pset s) s) =
    [Some (2, [Some 20]); Some (1, [Some 10])] /\
    map (option_map (fun c : cl B => (c_exp c, map to_int (c_prediction c)))) (rules_of (s_pset s') s') =
    [Some (1, [Some 0]); Some (2, [Some 0])].
Proof. exact @C33_refuted_lemma. Qed.
Print Assumptions C33_refuted.

(** What holds, for any population that is not empty: after storing, any sequence of other
    operations, and retrieving, the population has the stored size and numerosity, and consists of
    the copies of the stored rules in reverse order. The invariant of the population holds. *)
Theorem C33_round_trip :
  forall (B : Type) (FO : Prop) (V : vtab B) (K : cfg) (kf : Z) (wf : B -> Prop)
    (mt : B -> list f64 -> Prop) (dom : list f64 -> Prop) (E : Type) (VE : env E) 
    (einv : E -> Prop),
  cfg_ok K kf ->
  vt_ok (dom := dom) FO V K wf mt ->
  (ea_tournament K = true -> FO) ->
  env_ok (dom := dom) FO K VE einv ->
  forall (os : list op) (N : Z) (s : st B),
  0 <= N ->
  Forall (op_ok (dom := dom) FO K kf wf einv) os ->
  Forall passive os ->
  N + costs K os <= 2 ^ 53 ->
  Good K kf N wf s ->
  set_list (s_pset s) <> [] ->
  hpost FO ((store_pset V K;;; run_ops V K VE os;;; retrieve_pset)%m s)
    (fun (_ : unit) (s' : st B) =>
     Good K kf (N + costs K os) wf s' /\
     set_sz (s_pset s') = set_sz (s_pset s) /\
     set_nm (s_pset s') = set_nm (s_pset s) /\
     s_prev_pset s' = empty_set /\
     (exists cs ds : list (cl B),
        rules_of (s_pset s) s = map Some cs /\
        rules_of (s_pset s') s' = map Some (rev ds) /\ Forall2 (stored V K) cs ds)).
Proof. exact @C33_lemma. Qed.
Print Assumptions C33_round_trip.

(** An empty population is not restored: retrieving changes nothing. *)
Theorem C33_empty :
  forall (B : Type) (FO : Prop) (V : vtab B) (K : cfg) (kf : Z) (wf : B -> Prop)
    (mt : B -> list f64 -> Prop) (dom : list f64 -> Prop) (E : Type) (VE : env E) 
    (einv : E -> Prop),
  cfg_ok K kf ->
  vt_ok (dom := dom) FO V K wf mt ->
  (ea_tournament K = true -> FO) ->
  env_ok (dom := dom) FO K VE einv ->
  forall (os : list op) (N : Z) (s : st B),
  0 <= N ->
  Forall (op_ok (dom := dom) FO K kf wf einv) os ->
  Forall passive os ->
  N + costs K os <= 2 ^ 53 ->
  Good K kf N wf s ->
  set_list (s_pset s) = [] ->
  hpost FO ((store_pset V K;;; run_ops V K VE os)%m s)
    (fun (_ : unit) (s' : st B) => retrieve_pset s' = Ok (tt, s')).
Proof. exact @C33_empty_lemma. Qed.
Print Assumptions C33_empty.

(** The copy of a rule: same statistics, same condition, same action; the prediction values are
    reset to zero; the predictor is what its copying function makes of it. (cond_honest and
    act_honest are proved of all modelled conditions and actions, see C15.) *)
Theorem C33_rule :
  forall (C A P : Type) (K : cfg) (VC : condT C) (VA : actT A) (VP : predT P) 
    (wc : C -> Prop) (wa : A -> Prop) (wp : P -> Prop) (sc : C -> C -> Prop) (sa : A -> A -> Prop)
    (c d : cl (payload C A P)),
  cond_honest VC wc sc ->
  act_honest VA wa sa ->
  wf_pay wc wa wp (c_body c) ->
  stored (join VC VA VP) K c d ->
  c_err d = c_err c /\
  c_fit d = c_fit c /\
  c_num d = c_num c /\
  c_exp d = c_exp c /\
  c_size d = c_size c /\
  c_time d = c_time c /\
  c_age d = c_age c /\
  c_mtotal d = c_mtotal c /\
  c_action d = c_action c /\
  y_cond (c_body d) = y_cond (c_body c) /\
  y_act (c_body d) = y_act (c_body c) /\
  c_prediction d = repeat f0 (Z.to_nat (y_dim K)) /\
  (exists p q : P,
     y_pred (c_body c) = Some p /\ y_pred (c_body d) = Some q /\ wp p /\ rout (q_copy VP p) q).
Proof. exact @C33_rule_lemma. Qed.
Print Assumptions C33_rule.

(** NLMS predictors keep weights and learning rate, so the rules predict the same as before. *)
Theorem C33_nlms :
  forall (K : cfg) (R : ppar) (p q : nlms),
  1 <= x_dim K ->
  1 <= y_dim K ->
  wf_nlms K R p ->
  rout (q_copy (nlms_pred K R) p) q ->
  nl_n q = nl_n p /\
  nl_weights q = nl_weights p /\ nl_mu q = nl_mu p /\ nl_eta q = nl_eta p /\ wf_nlms K R q.
Proof. exact @C33_nlms_lemma. Qed.
Print Assumptions C33_nlms.

(** RLS predictors keep their weights, so the rules predict the same; but the gain matrix is reset
    (pred_rls_copy does not copy it). *)
Theorem C33_rls :
  forall (K : cfg) (R : ppar) (p q : rls),
  1 <= x_dim K ->
  1 <= y_dim K ->
  wf_rls K R p ->
  rout (q_copy (rls_pred K R) p) q ->
  rl_n q = rl_n p /\
  rl_weights q = rl_weights p /\
  wf_rls K R q /\ (exists r : rls, rls_init K R = Ok r /\ rl_matrix q = rl_matrix r).
Proof. exact @C33_rls_lemma. Qed.
Print Assumptions C33_rls.

(** Six rules; storing, three trials of learning and retrieving: the hypotheses hold, the rules are
    the same in reverse order. *)
Definition show (s : st body) := map (option_map (fun c => (c_exp c, c_num c, c_action c))) (rules_of (s_pset s) s).
Example C33_example : exists s, is_ready 2 (of_Z 2) (cost 2 (of_Z 2) six) s /\
  (show s, run (store_pset (rect_tab (Kl 2 (of_Z 2))) (Kl 2 (of_Z 2)) ;;; run_ops (rect_tab (Kl 2 (of_Z 2))) (Kl 2 (of_Z 2)) corridor
     [OFit demo_data None true 0 3] ;;; retrieve_pset)%m s (fun _ s' => show s')) =
  ([Some (3, 1, 0); Some (2, 1, 1); Some (25, 1, 0); Some (10, 2, 0); Some (30, 2, 1); Some (5, 1, 0)],
   Some [Some (5, 1, 0); Some (30, 2, 1); Some (10, 2, 0); Some (25, 1, 0); Some (2, 1, 1); Some (3, 1, 0)]).
Proof.
  apply (look_stage 2 (of_Z 2) six (fun s => (show s, run (store_pset (rect_tab (Kl 2 (of_Z 2))) (Kl 2 (of_Z 2)) ;;; run_ops (rect_tab (Kl 2 (of_Z 2))) (Kl 2 (of_Z 2)) corridor
     [OFit demo_data None true 0 3] ;;; retrieve_pset)%m s (fun _ s' => show s'))) _);
  [apply six_fine|vm_compute; discriminate|vm_compute; reflexivity].
Qed.
