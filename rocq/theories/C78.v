(** * C78 A population written as JSON and inserted again is the same. *)
From Coq Require Import ZArith Bool List String Ascii Reals Lia.
From Flocq Require Import Core BinarySingleNaN.
From Verif Require Import Outcome F64 F64Facts F64Bounds Rng Arr ArrFacts Sam Cond TernFacts RectFacts EllipFacts Pred Pop PopSpec PopInv PopCover PopOps Clock Comp CompFacts Demo Names Json PropJson ParJson PropParJson RuleJson PropRuleJson PropTight.
Import ListNotations.
Open Scope Z_scope.

(** Rules with finite numbers ([whole]) in any set of a system with more than one action: writing
    them reads the system only, and inserting the document into any system that has room for them
    puts exactly these rules at the front of its population, in the same order. [renew r]:
    predictions are what [r] makes of them, see C78_parts. All else stays, and the kill set is
    empty. *)
Theorem C78_population :
  forall (C A P : Type) (VC : condT C) (VA : actT A) (VP : predT P) (K : cfg)
    (fc : C -> json -> outcome C) (fa : A -> json -> outcome A)
    (fp : P -> list f64 -> json -> outcome (P * list f64)) (ec : C -> outcome json)
    (ea : A -> outcome json) (ep : P -> list f64 -> outcome json) (okc : C -> Prop) 
    (oka : A -> Prop) (okp : P -> Prop) (r : P -> P) (set : cset) (cs : list (cl (payload C A P)))
    (s : st (payload C A P)),
  0 <= y_dim K ->
  1 < n_actions K ->
  POP_SIZE K <= int_max ->
  part_back (k_init VC) fc ec okc ->
  part_back (i_init VA) fa ea oka ->
  pred_back (y_dim K) (q_init VP) fp ep r okp ->
  map (s_heap s) (set_list set) = map Some cs ->
  cs <> [] ->
  Forall (fun c : cl (payload C A P) => 0 <= c_num c /\ whole K okc oka okp c) cs ->
  exists doc : json,
    clset_json_export (join_exports ec ea ep) K set true true true s = Ok (doc, s) /\
    (forall s0 : st (payload C A P),
     0 <= set_nm (s_pset s0) ->
     set_nm (s_pset s0) + total cs <= POP_SIZE K ->
     exists (new : list loc) (h : loc -> option (cl (payload C A P))) (g : rng),
       json_insert (join VC VA VP) (join_imports fc fa fp) K doc s0 =
       Ok
         (tt,
          with_set KSET empty_set
            (with_set PSET
               {|
                 set_list := new ++ set_list (s_pset s0);
                 set_sz := set_sz (s_pset s0) + Z.of_nat (Datatypes.length cs);
                 set_nm := set_nm (s_pset s0) + total cs
               |} (with_heap h (s_next s0 + Datatypes.length cs)%nat (with_rng g s0)))) /\
       map h new = map (fun c : cl (payload C A P) => Some (renew r c)) cs /\
       (forall l : loc, In l new <-> (s_next s0 <= l < s_next s0 + Datatypes.length cs)%nat) /\
       (forall l : loc, ~ In l new -> h l = s_heap s0 l)).
Proof. exact @system_back. Qed.
Print Assumptions C78_population.

(** The parts that come back: every condition and action as it was; the NLMS prediction but for a
    buffer that is overwritten before it is read, the RLS prediction with the gain matrix of a new
    rule ([rls_renew]). *)
Theorem C78_parts :
  forall (K : cfg) (P : cpar) (R : ppar),
  1 <= x_dim K ->
  1 <= y_dim K ->
  1 <= n_actions K <= int_max ->
  1 <= cp_bits P <= 31 ->
  part_back (k_init (rect_cond K P)) (rect_import K P) (rect_export K P) (ok_rect K) /\
  part_back (k_init (ellip_cond K P)) (ellip_import K) (ellip_export K) (ok_ellip K) /\
  part_back (k_init (ternary_cond K P)) tern_import tern_export (ok_tern K P) /\
  part_back (k_init dummy_cond) dummy_import dummy_export (fun _ : unit => True) /\
  part_back (i_init (integer_act K)) integer_import integer_export (ok_integer K) /\
  pred_back (y_dim K) (q_init (nlms_pred K R)) nlms_import (nlms_export R) nlms_renew (ok_nlms K R) /\
  pred_back (y_dim K) (q_init (rls_pred K R)) rls_import (rls_export R) (rls_renew K R) (ok_rls K R) /\
  pred_back (y_dim K) (q_init (constant_pred K)) (constant_import K) (constant_export K)
    (fun p : unit => p) (fun _ : unit => True).
Proof. exact @parts_lemma. Qed.
Print Assumptions C78_parts.

(** One rule with any numbers, parts given by what they write and what they read: a number that is
    not finite is replaced by that of a new rule or, in arrays, by zero ([kept]). The action is
    written only if there are several. *)
Theorem C78_rule :
  forall (C A P : Type) (V : vtab (payload C A P)) (K : cfg) (fc : C -> json -> outcome C)
    (fa : A -> json -> outcome A) (fp : P -> list f64 -> json -> outcome (P * list f64))
    (ec : C -> outcome json) (ea : A -> outcome json) (ep : P -> list f64 -> outcome json) 
    (num_ time : Z) (g : rng) (c0 : cl (payload C A P)) (g0 : rng) (c : cl (payload C A P)) 
    (cc : C) (ca : A) (cp : P) (c1 : C) (a1 : A) (p1 : P) (jc : json) (c2 : C) 
    (ja : json) (a2 : A) (jp : json) (p2 : P) (v2 : list f64),
  0 <= y_dim K ->
  plain_rule K c ->
  c_body c = {| y_cond := Some cc; y_act := Some ca; y_pred := Some cp |} ->
  cl_rand V (cl_init V K (of_Z num_) time) g = Ok (c0, g0) ->
  c_body c0 = {| y_cond := Some c1; y_act := Some a1; y_pred := Some p1 |} ->
  ec cc = Ok jc ->
  fc c1 jc = Ok c2 ->
  (if 1 <? n_actions K then ea ca = Ok ja /\ fa a1 ja = Ok a2 else a2 = a1) ->
  ep cp (c_prediction c) = Ok jp ->
  fp p1 (map (kept f0) (c_prediction c)) jp = Ok (p2, v2) ->
  exists j : json,
    cl_json_export (join_exports ec ea ep) K true true true c = Ok j /\
    cl_json_import V (join_imports fc fa fp) K num_ time j g =
    Ok
      ({|
         c_err := kept (INIT_ERROR K) (c_err c);
         c_fit := kept (INIT_FITNESS K) (c_fit c);
         c_num := c_num c;
         c_exp := c_exp c;
         c_size := kept (of_Z num_) (c_size c);
         c_time := c_time c;
         c_m := c_m c;
         c_prediction := v2;
         c_action := c_action c;
         c_age := c_age c;
         c_mtotal := c_mtotal c;
         c_body := {| y_cond := Some c2; y_act := Some a2; y_pred := Some p2 |}
       |}, g0).
Proof. exact @rule_back. Qed.
Print Assumptions C78_rule.

(** The same for the arrays of the parts. *)
Theorem C78_values :
  forall (K : cfg) (P : cpar) (R : ppar),
  (forall c c' : rect,
   wf_rect K c ->
   wf_rect K c' ->
   rates (r_mu c) ->
   exists j : json,
     rect_export K P c = Ok j /\
     rect_import K P c' j =
     Ok
       {|
         r_b1 := map (kept f0) (r_b1 c); r_b2 := map (kept f0) (r_b2 c); r_mu := map (kept f0) (r_mu c)
       |}) /\
  (forall c c' : ellip,
   wf_ellip K c ->
   wf_ellip K c' ->
   rates (e_mu c) ->
   exists j : json,
     ellip_export K c = Ok j /\
     ellip_import K c' j =
     Ok
       {|
         e_center := map (kept f0) (e_center c);
         e_spread := map (kept f0) (e_spread c);
         e_mu := map (kept f0) (e_mu c)
       |}) /\
  (forall (c c' : nlms) (v v' : list f64),
   wf_nlms K R c ->
   wf_nlms K R c' ->
   rates (nl_mu c) ->
   exists j : json,
     nlms_export R c v = Ok j /\
     nlms_import c' v' j =
     Ok
       ({|
          nl_n := nl_n c;
          nl_weights := map (kept f0) (nl_weights c);
          nl_mu := map (kept f0) (nl_mu c);
          nl_eta := kept (nl_eta c') (nl_eta c);
          nl_tmp := nl_tmp c'
        |}, v')) /\
  (forall (c c' : rls) (v v' : list f64),
   wf_rls K R c ->
   wf_rls K R c' ->
   exists j : json,
     rls_export R c v = Ok j /\
     rls_import c' v' j =
     Ok
       ({|
          rl_n := rl_n c;
          rl_weights := map (kept f0) (rl_weights c);
          rl_matrix := rl_matrix c';
          rl_tmp := rl_tmp c';
          rl_vec := rl_vec c';
          rl_mat1 := rl_mat1 c';
          rl_mat2 := rl_mat2 c'
        |}, v')).
Proof. exact @values_lemma. Qed.
Print Assumptions C78_values.

(** What is written for a rule, member by member: the accuracy is one up to the target error and a
    falling power of the error above it ([accuracy_of]), and a part is there if it is asked for
    ([part_of]). *)
Theorem C78_members :
  forall (B : Type) (E : exports B) (K : cfg) (cond act pred : bool) (c : cl B) (j : json),
  cl_json_export E K cond act pred c = Ok j ->
  exists (a : f64) (p : list f64) (jc ja jp : list (string * json)),
    accuracy_of K c a /\
    Datatypes.length p = Z.to_nat (y_dim K) /\
    p = firstn (Z.to_nat (y_dim K)) (c_prediction c) /\
    part_of cond "condition" (ex_cond E (c_body c)) jc /\
    part_of (act && (1 <? n_actions K)) "action" (ex_act E (c_body c)) ja /\
    part_of pred "prediction" (ex_pred E (c_body c) (c_prediction c)) jp /\
    j =
    JObj
      ([("error", num (c_err c)); ("fitness", num (c_fit c)); ("accuracy", num a);
        ("set_size", num (c_size c)); ("numerosity", num (of_Z (c_num c)));
        ("experience", num (of_Z (c_exp c))); ("time", num (of_Z (c_time c)));
        ("samples_seen", num (of_Z (c_age c))); ("samples_matched", num (of_Z (c_mtotal c)));
        ("current_match", JBool (c_m c)); ("current_action", num (of_Z (c_action c)));
        ("current_prediction", JArr (map num p))] ++ jc ++ ja ++ jp).
Proof. exact @export_members. Qed.
Print Assumptions C78_members.

(** REFUTED for RLS predictions: the gain matrix is not written. The rule read back learns
    differently from the same sample. *)
Theorem C78_refuted_rls :
  exists
    (K : cfg) (R : ppar) (p p1 : rls) (v : list f64) (j : json) (q : rls) (x y x' : list f64) 
  (a b : f64),
    ok_rls K R p /\
    rls_init K R = Ok p1 /\
    rls_export R p v = Ok j /\
    rls_import p1 v j = Ok (q, v) /\
    guess K R p v x y x' = Ok [a] /\ guess K R q v x y x' = Ok [b] /\ feq a b = false.
Proof. exact @rls_lemma. Qed.
Print Assumptions C78_refuted_rls.

(** REFUTED for weights that are not finite: an infinite weight is read as zero, without an error.
    *)
Theorem C78_refuted_infinite :
  exists (K : cfg) (R : ppar) (p p1 : nlms) (v : list f64) (j : json) (q : nlms),
    wf_nlms K R p /\
    wf_nlms K R p1 /\
    good_rates (nl_mu p) /\
    is_finite (nl_eta p) = true /\
    nl_weights p = [B754_infinity false; f1; f1] /\
    nlms_export R p v = Ok j /\ nlms_import p1 v j = Ok (q, v) /\ nl_weights q = [f0; f1; f1].
Proof. exact @infinite_weight. Qed.
Print Assumptions C78_refuted_infinite.

(** REFUTED for empty sets: the document written for them makes every system that reads it
    dereference NULL. *)
Theorem C78_refuted_empty :
  forall (B : Type) (V : vtab B) (I : imports B) (E : exports B) (K : cfg) (s : st B) 
    (set : cset) (c a p : bool),
  set_list set = [] ->
  exists doc : json,
    clset_json_export E K set c a p s = Ok (doc, s) /\
    (forall s0 : st B, json_insert V I K doc s0 = UB NullDeref).
Proof. exact @empty_lemma. Qed.
Print Assumptions C78_refuted_empty.

(** Two rules, of which one is general, that meet the hypotheses. *)
Definition C78_K : cfg := demo_cfg 2 1 10 false false false false.
Definition C78_P : cpar := demo_cpar COND_TYPE_HYPERRECTANGLE_CSR.
Definition C78_R : ppar := demo_ppar PRED_TYPE_NLMS_LINEAR.
Definition C78_one (n a : Z) : cl (payload rect actint nlms) :=
  mkCl fhalf f1 n 3 (of_Z 2) 7 true [f1] a 5 4
    (mkPay (Some (mkRect [f0; f1] [f1; fhalf] [fhalf])) (Some (mkAct a [fhalf])) (Some (mkNlms 3 [f1; f0; fhalf] [fhalf] fhalf (alloc_tmp 3)))).
Lemma C78_whole n a : 0 <= n <= int_max -> 0 <= a < 2 -> whole C78_K (ok_rect C78_K) (ok_integer C78_K) (ok_nlms C78_K C78_R) (C78_one n a).
Proof.
  intros Hn Ha. constructor.
  - constructor; unfold small, int_min, int_max in *; cbn; first [reflexivity|lia].
  - repeat (constructor; [vm_compute; reflexivity|]). constructor.
  - eexists. split; [reflexivity|]. split; [repeat split|]. split; [repeat (constructor; [vm_compute; reflexivity|]); constructor|].
    split; [repeat (constructor; [vm_compute; reflexivity|]); constructor|]. split; (constructor; [vm_compute; reflexivity|constructor]).
  - eexists. split; [reflexivity|]. split; [split; [exact Ha|reflexivity]|]. split; (constructor; [vm_compute; reflexivity|constructor]).
  - eexists. split; [reflexivity|]. split; [repeat split|]. split; [repeat (constructor; [vm_compute; reflexivity|]); constructor|].
    split; [repeat (constructor; [vm_compute; reflexivity|]); constructor|]. split; (constructor; [vm_compute; reflexivity|constructor]).
Qed.
Definition C78_set : cset := mkSet [1%nat; 0%nat] 2 5.
Definition C78_st : st (payload rect actint nlms) :=
  with_set PSET C78_set (with_heap (upd (upd (fun _ => None) 0%nat (Some (C78_one 2 0))) 1%nat (Some (C78_one 3 1))) 2%nat (blank_state 5)).
Example C78_example :
  map (s_heap C78_st) (set_list C78_set) = map Some [C78_one 3 1; C78_one 2 0] /\
  Forall (fun c => 0 <= c_num c /\ whole C78_K (ok_rect C78_K) (ok_integer C78_K) (ok_nlms C78_K C78_R) c) [C78_one 3 1; C78_one 2 0] /\
  match clset_json_export (join_exports (rect_export C78_K C78_P) integer_export (nlms_export C78_R)) C78_K C78_set true true true C78_st with
  | Ok (doc, _) => match json_insert (join (rect_cond C78_K C78_P) (integer_act C78_K) (nlms_pred C78_K C78_R))
      (join_imports (rect_import C78_K C78_P) integer_import nlms_import) C78_K doc (blank_state 9) with
    | Ok (_, s) => map (fun l => option_map (fun c => (c_num c, c_action c, c_m c, option_map a_action (y_act (c_body c)))) (s_heap s l)) (set_list (s_pset s))
    | _ => [] end
  | _ => [] end = [Some (3, 1, true, Some 1); Some (2, 0, true, Some 0)].
Proof.
  split; [reflexivity|]. split.
  - constructor; [split; [cbn; lia|apply C78_whole; unfold int_max; lia]|]. constructor; [split; [cbn; lia|apply C78_whole; unfold int_max; lia]|constructor].
  - vm_compute. reflexivity.
Qed.
Example C78_written :
  match cl_json_export (join_exports (rect_export C78_K C78_P) integer_export (nlms_export C78_R)) C78_K true false true (C78_one 2 1) with
  | Ok j => map fst (children j)
  | _ => [] end = map Some ["error"; "fitness"; "accuracy"; "set_size"; "numerosity"; "experience"; "time"; "samples_seen"; "samples_matched";
    "current_match"; "current_action"; "current_prediction"; "condition"; "prediction"]%string.
Proof. vm_compute. reflexivity. Qed.
(** What the RLS prediction loses. *)
Example C78_rls_example : match taught, rls_init KR RR with
  | Ok (p, v), Ok p1 => to_int (hd f0 (rl_matrix p)) <> to_int (hd f0 (rl_matrix p1)) | _, _ => False end.
Proof. vm_compute. discriminate. Qed.
