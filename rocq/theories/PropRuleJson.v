(** * Rules written as JSON and read again (C78). *)
From Coq Require Import ZArith Bool List String Ascii Reals Lia.
From Flocq Require Import Core BinarySingleNaN.
From Verif Require Import Outcome F64 F64Facts F64Bounds Rng Arr ArrFacts Sam Cond TernFacts RectFacts EllipFacts Pred Pop PopSpec PopInv PopCover PopOps Clock Comp CompFacts Names Json PropJson ParJson PropParJson RuleJson.
From Verif Require Import Demo.
From Verif Require Net.
Import ListNotations.
Open Scope string_scope.
Open Scope Z_scope.

(** What becomes of a number: [d] if it is not finite. *)
Definition kept (d v : f64) : f64 := if is_finite v then v else d.
Definition rates (l : list f64) : Prop := List.length l = 1%nat /\ Forall (fun v => share (kept f0 v) = true) l.

Lemma omap_ok {X Y} (f : X -> outcome Y) (h : X -> Y) l : (forall x, In x l -> f x = Ok (h x)) -> Net.omap f l = Ok (map h l).
Proof.
  induction l as [|x l IH]; intros H; [reflexivity|]. cbn [Net.omap map]. rewrite H by (left; reflexivity). cbn [obind].
  rewrite IH by (intros y Hy; apply H; right; exact Hy). reflexivity.
Qed.
Lemma doubles_ok l n : len l = n -> doubles l n = Ok (JArr (map num l)).
Proof.
  intros L. unfold doubles. rewrite (omap_ok _ (fun i => at_ f0 l (Z.of_nat i))).
  - cbn [obind]. do 2 f_equal. f_equal. rewrite <- L. unfold len. rewrite Nat2Z.id.
    apply (list_ext f0); [unfold len; rewrite map_length, seq_length; reflexivity|]. intros k Hk. unfold len in Hk. rewrite map_length, seq_length in Hk.
    unfold at_ at 1. rewrite (nth_indep _ f0 (at_ f0 l (Z.of_nat 0))) by (rewrite map_length, seq_length; lia).
    rewrite map_nth with (f := fun i => at_ f0 l (Z.of_nat i)). rewrite seq_nth by lia. f_equal. lia.
  - intros i Hi. apply in_seq in Hi. apply rd_ok. unfold len in *. lia.
Qed.
Lemma value_num v : valuedouble (num v) = kept f0 v.
Proof. unfold num, kept. destruct (is_finite v); reflexivity. Qed.
Lemma values_num l : map valuedouble (map num l) = map (kept f0) l.
Proof. rewrite map_map. apply map_ext. exact value_num. Qed.
Lemma back_doubles dst n l : len dst = n -> len l = n -> import_doubles dst n (Some (map num l)) = Ok (map (kept f0) l).
Proof.
  intros L1 L2. rewrite import_doubles_ok by exact L1. rewrite map_length. unfold len in L2. rewrite L2, Z.eqb_refl, values_num. reflexivity.
Qed.
Lemma back_mu mu j l : List.length mu = 1%nat -> rates l -> array j "mutation" = Some (map num l) -> import_mu mu 1 j = Ok (map (kept f0) l).
Proof.
  intros L1 (L2 & F) E. rewrite import_mu_ok by (unfold len; lia). rewrite E, map_length, L2. cbn [Z.of_nat Z.eqb Pos.of_succ_nat Pos.eqb andb].
  assert (G : forallb (fun e => share (valuedouble e)) (map num l) = true).
  { apply forallb_forall. intros e He. apply in_map_iff in He. destruct He as (v & <- & Hv). rewrite value_num. rewrite Forall_forall in F. apply F, Hv. }
  rewrite G, values_num. reflexivity.
Qed.
Lemma back_fin l : Forall (fun v => is_finite v = true) l -> map (kept f0) l = l.
Proof. induction 1 as [|v l H _ IH]; [reflexivity|]. cbn [map]. unfold kept at 1. rewrite H, IH. reflexivity. Qed.
Lemma number_num j name v : item j name = Some (num v) -> number j name = if is_finite v then Some (v, saturated v) else None.
Proof. intros E. unfold number. rewrite E. unfold num. destruct (is_finite v); reflexivity. Qed.
Lemma number_int j name z : item j name = Some (num (of_Z z)) -> int_min <= z <= int_max -> number j name = Some (of_Z z, z).
Proof. intros E H. unfold number. rewrite E, num_int by exact H. reflexivity. Qed.

Section Parts.
Context (K : cfg) (P : cpar) (R : ppar).
Lemma rect_back c c' : wf_rect K c -> wf_rect K c' -> rates (r_mu c) -> exists j, rect_export K P c = Ok j /\
  rect_import K P c' j = Ok (mkRect (map (kept f0) (r_b1 c)) (map (kept f0) (r_b2 c)) (map (kept f0) (r_mu c))).
Proof.
  intros (W1 & W2 & W3) (V1 & V2 & V3) M. unfold rect_export. rewrite !doubles_ok by (assumption || (unfold len; lia)). cbn [obind]. eexists. split; [reflexivity|].
  unfold rect_import. cbv zeta. destruct (cp_type P =? COND_TYPE_HYPERRECTANGLE_CSR).
  all: match goal with |- context [array ?j ?n] => change (array j n) with (Some (map num (r_b1 c))) end; rewrite back_doubles by assumption; cbn [obind];
    match goal with |- context [array ?j ?n] => change (array j n) with (Some (map num (r_b2 c))) end; rewrite back_doubles by assumption; cbn [obind];
    rewrite (back_mu _ _ (r_mu c)) by first [assumption|reflexivity]; reflexivity.
Qed.
Lemma ellip_back c c' : wf_ellip K c -> wf_ellip K c' -> rates (e_mu c) -> exists j, ellip_export K c = Ok j /\
  ellip_import K c' j = Ok (mkEllip (map (kept f0) (e_center c)) (map (kept f0) (e_spread c)) (map (kept f0) (e_mu c))).
Proof.
  intros (W1 & W2 & W3) (V1 & V2 & V3) M. unfold ellip_export. rewrite !doubles_ok by (assumption || (unfold len; lia)). cbn [obind]. eexists. split; [reflexivity|].
  unfold ellip_import.
  match goal with |- context [array ?j ?n] => change (array j n) with (Some (map num (e_center c))) end; rewrite back_doubles by assumption; cbn [obind];
    match goal with |- context [array ?j ?n] => change (array j n) with (Some (map num (e_spread c))) end; rewrite back_doubles by assumption; cbn [obind];
    rewrite (back_mu _ _ (e_mu c)) by first [assumption|reflexivity]; reflexivity.
Qed.
Lemma trit_char z : trit z -> code (ascii_of_nat (Z.to_nat z)) = z /\ ascii_of_nat (Z.to_nat z) <> nul /\ z <> 0.
Proof. intros [-> | [-> | ->]]; (split; [reflexivity|]; split; [discriminate|discriminate]). Qed.
Lemma tern_string l : Forall trit l -> exists s, cstring (map (fun z => ascii_of_nat (Z.to_nat z)) l ++ [nul]) = Ok s /\ map code (list_ascii_of_string s) = l.
Proof.
  induction 1 as [|z l T _ (s & E1 & E2)]; [exists ""; split; reflexivity|]. destruct (trit_char z T) as (T1 & T2 & _).
  exists (String (ascii_of_nat (Z.to_nat z)) s). cbn [map app cstring]. destruct (Ascii.eqb_spec (ascii_of_nat (Z.to_nat z)) nul) as [X|_]; [contradiction|].
  rewrite E1. cbn [obind list_ascii_of_string map]. rewrite T1, E2. split; reflexivity.
Qed.
Lemma tern_loop_eq l d : Forall (fun z => z <> 0) l -> List.length d = List.length l ->
  ofor (Z.of_nat (List.length d)) (fun i d => (bit <- rd (l ++ [0]) i ;; if bit =? 0 then Exit else wr d i bit)%out) d = Ok l.
Proof.
  intros F L. unfold ofor. rewrite Nat2Z.id.
  assert (G : forall m i e, Z.of_nat m + i = len l -> 0 <= i -> len e = len l -> (forall k, 0 <= k < i -> at_ 0 e k = at_ 0 l k) ->
    oloop m i (fun i d => (bit <- rd (l ++ [0]) i ;; if bit =? 0 then Exit else wr d i bit)%out) e = Ok l).
  { induction m as [|m IH]; intros i e Hm Hi Le Ha; cbn [oloop].
    - f_equal. apply (list_ext 0); [exact Le|]. intros k Hk. apply Ha. lia.
    - rewrite (rd_ok 0) by (unfold len in *; rewrite app_length; cbn [List.length]; lia). cbn [obind].
      assert (A : at_ 0 (l ++ [0]) i = at_ 0 l i) by (unfold at_; apply app_nth1; unfold len in *; lia). rewrite A.
      destruct (Z.eqb_spec (at_ 0 l i) 0) as [Z0|_].
      { exfalso. rewrite Forall_forall in F. apply (F (at_ 0 l i)); [|exact Z0]. unfold at_. apply nth_In. unfold len in *. lia. }
      destruct (wr_ok e i (at_ 0 l i)) as (e' & -> & W1 & W2 & W3 & _); [lia|]. cbn [obind]. apply IH; try lia.
      intros k Hk. destruct (Z.eq_dec k i) as [->|N]; [apply W2|]. rewrite W3 by lia. apply Ha. lia. }
  apply G; unfold len; lia.
Qed.
Lemma tern_back c c' : wf_tern K P c -> wf_tern K P c' -> rates (t_mu c) -> exists j, tern_export c = Ok j /\
  tern_import c' j = Ok (mkTernary (t_string c) (map (kept f0) (t_mu c))).
Proof.
  intros (W1 & W2 & W3) (V1 & V2 & V3) M. unfold tern_export. destruct (tern_string _ W2) as (s & E1 & E2). rewrite E1. cbn [obind].
  rewrite doubles_ok by (unfold len; lia). cbn [obind]. eexists. split; [reflexivity|].
  unfold tern_import. match goal with |- context [item ?j "string"] => change (item j "string") with (Some (JStr s)) end. cbv iota beta. rewrite E2, tern_loop_eq.
  - cbn [obind]. rewrite (back_mu _ _ (t_mu c)) by first [assumption|reflexivity]. reflexivity.
  - eapply Forall_impl; [|exact W2]. intros z T. apply (trit_char z T).
  - unfold len in *. lia.
Qed.
Lemma integer_back c c' : int_min <= a_action c <= int_max -> List.length (a_mu c') = 1%nat -> rates (a_mu c) -> exists j, integer_export c = Ok j /\
  integer_import c' j = Ok (mkAct (a_action c) (map (kept f0) (a_mu c))).
Proof.
  intros HA V M. unfold integer_export. rewrite doubles_ok by (destruct M; unfold len; lia). cbn [obind]. eexists. split; [reflexivity|].
  unfold integer_import. rewrite (number_int _ "action" (a_action c)) by first [reflexivity|exact HA]. cbv zeta iota beta.
  rewrite (back_mu _ _ (a_mu c)) by first [assumption|reflexivity]. reflexivity.
Qed.
Lemma nlms_back c c' v v' : wf_nlms K R c -> wf_nlms K R c' -> rates (nl_mu c) -> exists j, nlms_export R c v = Ok j /\
  nlms_import c' v' j = Ok (mkNlms (nl_n c) (map (kept f0) (nl_weights c)) (map (kept f0) (nl_mu c)) (kept (nl_eta c') (nl_eta c)) (nl_tmp c'), v').
Proof.
  intros (W1 & W2 & W3 & W4) (V1 & V2 & V3 & V4) M. unfold nlms_export. rewrite !doubles_ok by (unfold len; lia). cbn [obind]. eexists. split; [reflexivity|].
  unfold nlms_import. match goal with |- context [array ?j ?n] => change (array j n) with (Some (map num (nl_weights c))) end.
  rewrite back_doubles by (unfold len in *; congruence || (rewrite V2, V1, <- W1, <- W2; reflexivity)). cbn [obind].
  rewrite (number_num _ "eta" (nl_eta c)) by reflexivity. cbv zeta.
  rewrite (back_mu _ _ (nl_mu c)) by first [assumption|reflexivity]. cbn [obind]. unfold kept at 5. rewrite V1, <- W1. destruct (is_finite (nl_eta c)); reflexivity.
Qed.
Lemma rls_back c c' v v' : wf_rls K R c -> wf_rls K R c' -> exists j, rls_export R c v = Ok j /\
  rls_import c' v' j = Ok (mkRls (rl_n c) (map (kept f0) (rl_weights c)) (rl_matrix c') (rl_tmp c') (rl_vec c') (rl_mat1 c') (rl_mat2 c'), v').
Proof.
  intros (W1 & W2 & W) (V1 & V2 & V). unfold rls_export. rewrite !doubles_ok by (unfold len; lia). cbn [obind]. eexists. split; [reflexivity|].
  unfold rls_import. match goal with |- context [array ?j ?n] => change (array j n) with (Some (map num (rl_weights c))) end.
  rewrite back_doubles by (unfold len in *; congruence || (rewrite V2, V1, <- W1, <- W2; reflexivity)). cbn [obind]. rewrite V1, <- W1. reflexivity.
Qed.
Lemma constant_back v v' : len v = y_dim K -> len v' = y_dim K -> exists j, constant_export K tt v = Ok j /\
  constant_import K tt v' j = Ok (tt, map (kept f0) v).
Proof.
  intros L L'. unfold constant_export. rewrite doubles_ok by exact L. cbn [obind]. eexists. split; [reflexivity|].
  unfold constant_import. match goal with |- context [array ?j ?n] => change (array j n) with (Some (map num v)) end. rewrite back_doubles by assumption. reflexivity.
Qed.
End Parts.

(** ** A rule *)
Lemma cl_rand_rest {B} (V : vtab B) c g c0 g0 : cl_rand V c g = Ok (c0, g0) -> c0 = set_body (c_body c0) c.
Proof.
  unfold cl_rand, bind. destruct (v_cond_init V (c_body c) g) as [[b1 g1]| | |]; try discriminate.
  destruct (v_pred_init V b1 g1) as [[b2 g2]| | |]; try discriminate. destruct (v_act_init V b2 g2) as [[b3 g3]| | |]; try discriminate.
  intros H. injection H as <- _. reflexivity.
Qed.
Definition small (z : Z) : Prop := int_min <= z <= int_max.
(** The integers of a rule fit in an int; there is a prediction for every output. *)
Record plain_rule {B} (K : cfg) (c : cl B) : Prop := {
  pr_num : small (c_num c); pr_exp : small (c_exp c); pr_time : small (c_time c); pr_age : small (c_age c);
  pr_mtotal : small (c_mtotal c); pr_action : small (c_action c); pr_pred : len (c_prediction c) = y_dim K
}.
Section Rule.
Context {C A P : Type} (V : vtab (payload C A P)) (K : cfg).
Context (fc : C -> json -> outcome C) (fa : A -> json -> outcome A) (fp : P -> list f64 -> json -> outcome (P * list f64)).
Context (ec : C -> outcome json) (ea : A -> outcome json) (ep : P -> list f64 -> outcome json).
(** A rule [c] with the parts [cc], [ca], [cp] written, and read over a new rule with the parts [c1], [a1], [p1]. *)
Lemma rule_back num_ time g c0 g0 c cc ca cp c1 a1 p1 jc c2 ja a2 jp p2 v2 : 0 <= y_dim K -> plain_rule K c ->
  c_body c = mkPay (Some cc) (Some ca) (Some cp) ->
  cl_rand V (cl_init V K (of_Z num_) time) g = Ok (c0, g0) -> c_body c0 = mkPay (Some c1) (Some a1) (Some p1) ->
  ec cc = Ok jc -> fc c1 jc = Ok c2 ->
  (if 1 <? n_actions K then ea ca = Ok ja /\ fa a1 ja = Ok a2 else a2 = a1) ->
  ep cp (c_prediction c) = Ok jp -> fp p1 (map (kept f0) (c_prediction c)) jp = Ok (p2, v2) ->
  exists j, cl_json_export (join_exports ec ea ep) K true true true c = Ok j /\
    cl_json_import V (join_imports fc fa fp) K num_ time j g =
    Ok (mkCl (kept (INIT_ERROR K) (c_err c)) (kept (INIT_FITNESS K) (c_fit c)) (c_num c) (c_exp c) (kept (of_Z num_) (c_size c)) (c_time c)
          (c_m c) v2 (c_action c) (c_age c) (c_mtotal c) (mkPay (Some c2) (Some a2) (Some p2)), g0).
Proof.
  intros YD [S1 S2 S3 S4 S5 S6 LP] Bc ER B0 Ec Fc HA Ep Fp. unfold cl_json_export. rewrite doubles_ok by exact LP. cbn [obind].
  unfold join_exports. cbn [ex_cond ex_act ex_pred]. rewrite Bc. cbn [y_cond y_act y_pred deref obind]. unfold member_if. rewrite Ec. cbn [obind andb].
  assert (HA' : exists l, (if 1 <? n_actions K then (j <- ea ca ;; Ok [("action", j)])%out else Ok []) = Ok l /\
    (if 1 <? n_actions K then l = [("action", ja)] else l = [])).
  { destruct (1 <? n_actions K); [destruct HA as (Ea & _); rewrite Ea; eexists; split; reflexivity|eexists; split; reflexivity]. }
  destruct HA' as (la & Ela & Hla). rewrite Ela. cbn [obind]. rewrite Ep. cbn [obind]. eexists. split; [reflexivity|].
  set (j := JObj _). unfold cl_json_import, bind. rewrite ER. pose proof (cl_rand_rest _ _ _ _ _ ER) as R0. rewrite R0. rewrite B0. clear R0 ER.
  assert (J1 : forall n v, item j n = Some v -> item j n = Some v) by auto.
  assert (IC : import_current K (import_properties (set_body (mkPay (Some c1) (Some a1) (Some p1)) (cl_init V K (of_Z num_) time)) j) j =
    Ok (mkCl (kept (INIT_ERROR K) (c_err c)) (kept (INIT_FITNESS K) (c_fit c)) (c_num c) (c_exp c) (kept (of_Z num_) (c_size c)) (c_time c)
          (c_m c) (map (kept f0) (c_prediction c)) (c_action c) (c_age c) (c_mtotal c) (mkPay (Some c1) (Some a1) (Some p1)))).
  { unfold import_current, import_properties, dbl_item, int_item, set_body, cl_init.
    cbn [c_err c_fit c_num c_exp c_size c_time c_m c_prediction c_action c_age c_mtotal c_body].
    rewrite (number_num j "error" (c_err c)), (number_num j "fitness" (c_fit c)), (number_num j "set_size" (c_size c)) by reflexivity.
    rewrite (number_int j "numerosity" (c_num c)), (number_int j "experience" (c_exp c)), (number_int j "time" (c_time c)),
      (number_int j "samples_seen" (c_age c)), (number_int j "samples_matched" (c_mtotal c)), (number_int j "current_action" (c_action c)) by first [reflexivity|assumption].
    change (item j "current_match") with (Some (JBool (c_m c))). change (array j "current_prediction") with (Some (map num (c_prediction c))).
    rewrite back_doubles by first [assumption|apply zeros_len; exact YD]. cbn [obind option_map given fst snd]. unfold kept.
    destruct (is_finite (c_err c)), (is_finite (c_fit c)), (is_finite (c_size c)); reflexivity. }
  cbv zeta. rewrite IC. cbn [lift c_body c_prediction].
  assert (IA : (match item j "action" with Some a => im_act (join_imports fc fa fp) (mkPay (Some c1) (Some a1) (Some p1)) a
                | None => ret (mkPay (Some c1) (Some a1) (Some p1)) end) g0 = Ok (mkPay (Some c1) (Some a2) (Some p1), g0)).
  { destruct (1 <? n_actions K).
    - destruct HA as (_ & Fa). subst la. change (item j "action") with (Some ja). unfold join_imports, bind. cbn [im_act y_act need ret]. rewrite Fa. reflexivity.
    - subst la a2. change (item j "action") with (@None json). reflexivity. }
  rewrite IA.
  assert (I2 : item j "prediction" = Some jp) by (destruct (1 <? n_actions K); subst la; reflexivity).
  rewrite I2. unfold join_imports, bind. cbn [im_pred y_pred need ret]. rewrite Fp. cbn [lift ret fst snd set_pred y_cond y_act].
  assert (I3 : item j "condition" = Some jc) by reflexivity.
  rewrite I3. cbv beta iota delta [im_cond set_pred set_cond y_cond y_act y_pred need ret lift fst snd]. rewrite Fc. reflexivity.
Qed.
End Rule.

(** ** A population *)
Definition total {B} (cs : list (cl B)) : Z := fold_right Z.add 0 (map c_num cs).
Section Population.
Context {B : Type} (V : vtab B) (I : imports B) (E : exports B) (K : cfg).
(** Whatever the system holds, the document [j] is read as the rule [c]. *)
Definition read_as (j : json) (c : cl B) : Prop := forall num_ time g, exists g', cl_json_import V I K num_ time j g = Ok (c, g').
Lemma insert_one j c s : read_as j c -> 0 <= set_nm (s_pset s) -> 0 <= c_num c -> set_nm (s_pset s) + c_num c <= POP_SIZE K -> POP_SIZE K <= int_max ->
  exists g, json_insert_cl V I K j s = Ok (tt, with_set KSET empty_set (with_set PSET (mkSet (s_next s :: set_list (s_pset s)) (set_sz (s_pset s) + 1) (set_nm (s_pset s) + c_num c))
    (with_heap (upd (s_heap s) (s_next s) (Some c)) (S (s_next s)) (with_rng g s)))).
Proof.
  intros RD N0 NC NL PI. destruct (RD (set_nm (s_pset s)) (s_time s) (s_rng s)) as (g & EI). exists g.
  unfold json_insert_cl, mbind, mget, mrand. rewrite EI. unfold mlift, cint. 
  replace ((- 2 ^ 31 <=? set_nm (s_pset s) + c_num c) && (set_nm (s_pset s) + c_num c <? 2 ^ 31)) with true.
  2: { symmetry. unfold int_max in PI. apply andb_true_iff. split; [apply Z.leb_le|apply Z.ltb_lt]; lia. }
  unfold insert_cl, mbind, alloc, clset_add, mbind, get, mget, mmod, clset_init, mmod, clset_pset_enforce_limit, mbind, mget. 
  cbn [s_heap with_heap with_rng s_next s_pset with_set get_set set_list set_sz set_nm]. assert (HU : upd (s_heap s) (s_next s) (Some c) (s_next s) = Some c) by (unfold upd; rewrite Nat.eqb_refl; reflexivity). rewrite HU.
  cbn [s_heap with_heap with_rng s_next s_pset with_set get_set set_list set_sz set_nm].
  replace (Z.to_nat (set_nm (s_pset s) + c_num c - POP_SIZE K)) with 0%nat by lia. cbn [enforce_loop]. unfold mbind, mget. cbn [s_pset with_set set_nm].
  replace (POP_SIZE K <? set_nm (s_pset s) + c_num c) with false by (symmetry; apply Z.ltb_ge; lia). reflexivity.
Qed.
Lemma insert_rules js cs : Forall2 read_as js cs -> forall s, 0 <= set_nm (s_pset s) -> Forall (fun c => 0 <= c_num c) cs ->
  set_nm (s_pset s) + total cs <= POP_SIZE K -> POP_SIZE K <= int_max ->
  exists h g k, miter (json_insert_cl V I K) js s = Ok (tt, with_set KSET k (with_set PSET
      (mkSet (rev (seq (s_next s) (List.length cs)) ++ set_list (s_pset s)) (set_sz (s_pset s) + Z.of_nat (List.length cs)) (set_nm (s_pset s) + total cs))
      (with_heap h (s_next s + List.length cs)%nat (with_rng g s)))) /\
    map h (seq (s_next s) (List.length cs)) = map Some cs /\
    (forall l, ~ In l (seq (s_next s) (List.length cs)) -> h l = s_heap s l) /\ k = match js with [] => s_kset s | _ => empty_set end.
Proof.
  induction 1 as [|j c js cs RD F IH]; intros s N0 FN NL PI.
  - exists (s_heap s), (s_rng s), (s_kset s). split.
    + cbn [miter List.length seq rev app]. unfold mret, total. cbn [map fold_right]. rewrite !Z.add_0_r, Nat.add_0_r. destruct s as [? ? [? ? ?] ? ? ? ? ? ? ? ? ? ? ? ? ? ? ? ? ?]. reflexivity.
    + split; [reflexivity|]. split; [auto|reflexivity].
  - inversion FN as [|c' cs' NC FN']; subst c' cs'. unfold total in NL. cbn [map fold_right] in NL. fold (total cs) in NL.
    assert (TP : 0 <= total cs). { clear -FN'. induction FN' as [|c l H _ IH]; unfold total in *; cbn [map fold_right]; lia. }
    destruct (insert_one j c s RD N0 NC ltac:(lia) PI) as (g1 & E1). cbn [miter]. unfold mbind. rewrite E1. clear E1.
    set (s1 := with_set KSET _ _). destruct (IH s1) as (h & g & k & E2 & M & O & Kk).
    { cbn. lia. } { exact FN'. } { cbn. lia. } { exact PI. }
    rewrite E2. exists h, g, k. split.
    + f_equal. f_equal. subst s1. cbn [s_next s_pset with_set with_heap with_rng set_list set_sz set_nm List.length seq rev]. unfold total. cbn [map fold_right].
      rewrite <- app_assoc. cbn [app]. replace (s_next s + S (List.length cs))%nat with (S (s_next s) + List.length cs)%nat by lia.
      replace (set_sz (s_pset s) + 1 + Z.of_nat (List.length cs)) with (set_sz (s_pset s) + Z.of_nat (S (List.length cs))) by lia.
      replace (set_nm (s_pset s) + c_num c + fold_right Z.add 0 (map c_num cs)) with (set_nm (s_pset s) + (c_num c + fold_right Z.add 0 (map c_num cs))) by lia. reflexivity.
    + cbn [s_next with_set with_heap] in M, O. split; [|split].
      * cbn [List.length seq map]. f_equal; [|exact M]. rewrite O; [cbn; unfold upd; rewrite Nat.eqb_refl; reflexivity|]. intros X. apply in_seq in X. cbn in X. lia.
      * intros l Hl. cbn [List.length seq] in Hl. rewrite O by (intros X; apply Hl; right; exact X). cbn. unfold upd. destruct (Nat.eqb_spec l (s_next s)) as [->|N]; [|reflexivity]. exfalso. apply Hl. left. reflexivity.
      * rewrite Kk. destruct js; reflexivity.
Qed.
Lemma get_all_ok ls : forall cs (s : st B), map (s_heap s) ls = map Some cs -> get_all ls s = Ok (cs, s).
Proof.
  induction ls as [|l ls IH]; intros [|c cs] s H; try discriminate; [reflexivity|]. cbn [map] in H. injection H as H1 H2.
  cbn [get_all]. unfold mbind, get. rewrite H1, (IH _ _ H2). reflexivity.
Qed.
(** [f]: what becomes of a rule. *)
Lemma population_back (f : cl B -> cl B) set cs s : map (s_heap s) (set_list set) = map Some cs -> cs <> [] ->
  Forall (fun c => 0 <= c_num c /\ c_num (f c) = c_num c /\ exists j, cl_json_export E K true true true c = Ok j /\ read_as j (f c)) cs -> POP_SIZE K <= int_max ->
  exists doc, clset_json_export E K set true true true s = Ok (doc, s) /\
    forall s0, 0 <= set_nm (s_pset s0) -> set_nm (s_pset s0) + total cs <= POP_SIZE K ->
    exists new h g, json_insert V I K doc s0 = Ok (tt, with_set KSET empty_set (with_set PSET
        (mkSet (new ++ set_list (s_pset s0)) (set_sz (s_pset s0) + Z.of_nat (List.length cs)) (set_nm (s_pset s0) + total cs))
        (with_heap h (s_next s0 + List.length cs)%nat (with_rng g s0)))) /\
      map h new = map (fun c => Some (f c)) cs /\ (forall l, In l new <-> (s_next s0 <= l < s_next s0 + List.length cs)%nat) /\
      (forall l, ~ In l new -> h l = s_heap s0 l).
Proof.
  intros HM NE F PI. unfold clset_json_export, mbind. rewrite (get_all_ok _ _ _ HM).
  assert (X : exists js, Net.omap (cl_json_export E K true true true) cs = Ok js /\ Forall2 read_as js (map f cs)).
  { clear -F. induction F as [|c cs (N & FC & j & Ej & Rj) _ (js & E1 & E2)]; [exists []; split; [reflexivity|constructor]|].
    exists (j :: js). cbn [Net.omap map]. rewrite Ej. cbn [obind]. rewrite E1. cbn [obind]. split; [reflexivity|]. constructor; assumption. }
  destruct X as (js & EJ & RJ). rewrite EJ. cbn [mlift]. eexists. split; [reflexivity|]. intros s0 N0 NL.
  assert (TT : forall l : list (cl B), total (rev l) = total l).
  { intros l. unfold total. induction l as [|c l IH]; [reflexivity|]. cbn [rev]. rewrite map_app, fold_right_app. cbn [map fold_right]. rewrite <- IH, Z.add_0_r.
    generalize (c_num c). generalize (map c_num (rev l)). intros q. induction q as [|x q IHq]; intros y; cbn [fold_right]; [lia|]. rewrite IHq. lia. }
  assert (TF : total (map f cs) = total cs).
  { clear -F. unfold total. induction F as [|c cs (N & FC & _) _ IH]; [reflexivity|]. cbn [map fold_right]. rewrite IH, FC. reflexivity. }
  assert (R' : Forall2 read_as (rev js) (rev (map f cs))).
  { clear -RJ. revert RJ. generalize (map f cs) as q. intros q RJ. induction RJ as [|j c js q H _ IH]; [constructor|]. cbn [rev]. apply Forall2_app; [exact IH|]. constructor; [exact H|constructor]. }
  destruct (insert_rules _ _ R' s0 N0) as (h & g & k & E2 & M & O & Kk).
  { apply Forall_rev. apply Forall_map. eapply Forall_impl; [|exact F]. intros c (N & FC & _). cbv beta. rewrite FC. exact N. }
  { rewrite TT, TF. exact NL. } { exact PI. }
  rewrite TT, TF, rev_length, map_length in E2. rewrite rev_length, map_length in M, O.
  exists (rev (seq (s_next s0) (List.length cs))), h, g.
  assert (NJ : js <> []) by (intros ->; inversion RJ as [Z|]; destruct cs; [apply NE; reflexivity|discriminate]).
  split; [|split; [|split]].
  - unfold json_insert. cbn [first_child]. destruct js as [|j js]; [contradiction|]. rewrite E2. rewrite Kk. destruct (rev (j :: js)) as [|y ys] eqn:ER; [|reflexivity].
    apply (f_equal (@List.length json)) in ER. rewrite rev_length in ER. discriminate.
  - refine (eq_trans (map_rev h _) _). refine (eq_trans (f_equal (@rev _) M) _). rewrite map_rev, rev_involutive, map_map. reflexivity.
  - intros l. rewrite <- in_rev, in_seq. lia.
  - intros l Hl. apply O. intros X. apply Hl. rewrite <- in_rev. exact X.
Qed.
End Population.

(** ** Systems *)
Definition finite (l : list f64) : Prop := Forall (fun v => is_finite v = true) l.
(** A part that is written, and read over any new part, is the same again ([r]: but for). *)
Definition part_back {T} (init : RM T) (f : T -> json -> outcome T) (e : T -> outcome json) (ok : T -> Prop) : Prop :=
  forall t, ok t -> exists j, e t = Ok j /\ forall g, exists t1 g', init g = Ok (t1, g') /\ f t1 j = Ok t.
Definition pred_back {T} (n : Z) (init : RM T) (f : T -> list f64 -> json -> outcome (T * list f64)) (e : T -> list f64 -> outcome json)
  (r : T -> T) (ok : T -> Prop) : Prop :=
  forall t v, ok t -> len v = n -> finite v -> exists j, e t v = Ok j /\ forall g, exists t1 g', init g = Ok (t1, g') /\ f t1 v j = Ok (r t, v).
Record whole {C A P} (K : cfg) (okc : C -> Prop) (oka : A -> Prop) (okp : P -> Prop) (c : cl (payload C A P)) : Prop := {
  wh_plain : plain_rule K c;
  wh_finite : finite (c_err c :: c_fit c :: c_size c :: c_prediction c);
  wh_cond : exists x, y_cond (c_body c) = Some x /\ okc x;
  wh_act : exists x, y_act (c_body c) = Some x /\ oka x;
  wh_pred : exists x, y_pred (c_body c) = Some x /\ okp x
}.
Definition renew {C A P} (r : P -> P) (c : cl (payload C A P)) : cl (payload C A P) :=
  set_body (mkPay (y_cond (c_body c)) (y_act (c_body c)) (option_map r (y_pred (c_body c)))) c.
Section System.
Context {C A P : Type} (VC : condT C) (VA : actT A) (VP : predT P) (K : cfg).
Context (fc : C -> json -> outcome C) (fa : A -> json -> outcome A) (fp : P -> list f64 -> json -> outcome (P * list f64)).
Context (ec : C -> outcome json) (ea : A -> outcome json) (ep : P -> list f64 -> outcome json).
Context (okc : C -> Prop) (oka : A -> Prop) (okp : P -> Prop) (r : P -> P).
Lemma kept_fin d v : is_finite v = true -> kept d v = v.
Proof. intros H. unfold kept. rewrite H. reflexivity. Qed.
Lemma system_reads c : 0 <= y_dim K -> 1 < n_actions K -> part_back (k_init VC) fc ec okc -> part_back (i_init VA) fa ea oka -> pred_back (y_dim K) (q_init VP) fp ep r okp ->
  whole K okc oka okp c -> exists j, cl_json_export (join_exports ec ea ep) K true true true c = Ok j /\
    read_as (join VC VA VP) (join_imports fc fa fp) K j (renew r c).
Proof.
  intros YD NA HC HA HP [PR FI (cc & Bc & Oc) (ca & Ba & Oa) (cp & Bp & Op)]. destruct (c_body c) as [bc ba bp] eqn:BE. cbn [y_cond y_act y_pred] in Bc, Ba, Bp. subst bc ba bp.
  inversion FI as [|x1 l1 F1 FI1]; subst x1 l1. inversion FI1 as [|x1 l1 F2 FI2]; subst x1 l1. inversion FI2 as [|x1 l1 F3 FI3]; subst x1 l1. clear FI FI1 FI2.
  destruct (HC cc Oc) as (jc & Ec & Ic). destruct (HA ca Oa) as (ja & Ea & Ia). destruct (HP cp (c_prediction c) Op (pr_pred _ _ PR) FI3) as (jp & Ep & Ip).
  apply Z.ltb_lt in NA.
  assert (X : forall num_ time g, exists j g', cl_json_export (join_exports ec ea ep) K true true true c = Ok j /\
    cl_json_import (join VC VA VP) (join_imports fc fa fp) K num_ time j g = Ok (renew r c, g')).
  { intros num_ time g. destruct (Ic g) as (c1 & g1 & K1 & R1). destruct (Ip g1) as (p1 & g2 & K2 & R2). destruct (Ia g2) as (a1 & g3 & K3 & R3).
    destruct (rule_back (join VC VA VP) K fc fa fp ec ea ep num_ time g (set_body (mkPay (Some c1) (Some a1) (Some p1)) (cl_init (join VC VA VP) K (of_Z num_) time)) g3
      c cc ca cp c1 a1 p1 jc cc ja ca jp (r cp) (c_prediction c)) as (j & E1 & E2); try assumption; try reflexivity.
    - unfold cl_rand, bind. cbn [join v_cond_init v_pred_init v_act_init c_body cl_init v_blank]. unfold bind. rewrite K1. cbn [ret]. rewrite K2. cbn [ret]. rewrite K3. reflexivity.
    - rewrite NA. split; assumption.
    - rewrite back_fin by exact FI3. exact R2.
    - exists j, g3. split; [exact E1|]. rewrite E2. rewrite !kept_fin by assumption. unfold renew, set_body. rewrite BE. reflexivity. }
  destruct (X 0 0 (mkRng (fun _ => 0) 0 false f0)) as (j & g' & E1 & _). exists j. split; [exact E1|].
  intros num_ time g. destruct (X num_ time g) as (j2 & g2 & E2 & E3). rewrite E1 in E2. injection E2 as <-. exists g2. exact E3.
Qed.
Lemma system_back set cs s : 0 <= y_dim K -> 1 < n_actions K -> POP_SIZE K <= int_max ->
  part_back (k_init VC) fc ec okc -> part_back (i_init VA) fa ea oka -> pred_back (y_dim K) (q_init VP) fp ep r okp ->
  map (s_heap s) (set_list set) = map Some cs -> cs <> [] -> Forall (fun c => 0 <= c_num c /\ whole K okc oka okp c) cs ->
  exists doc, clset_json_export (join_exports ec ea ep) K set true true true s = Ok (doc, s) /\
    forall s0, 0 <= set_nm (s_pset s0) -> set_nm (s_pset s0) + total cs <= POP_SIZE K ->
    exists new h g, json_insert (join VC VA VP) (join_imports fc fa fp) K doc s0 = Ok (tt, with_set KSET empty_set (with_set PSET
        (mkSet (new ++ set_list (s_pset s0)) (set_sz (s_pset s0) + Z.of_nat (List.length cs)) (set_nm (s_pset s0) + total cs))
        (with_heap h (s_next s0 + List.length cs)%nat (with_rng g s0)))) /\
      map h new = map (fun c => Some (renew r c)) cs /\ (forall l, In l new <-> (s_next s0 <= l < s_next s0 + List.length cs)%nat) /\
      (forall l, ~ In l new -> h l = s_heap s0 l).
Proof.
  intros YD NA PI HC HA HP HM NE F. apply population_back; try assumption. eapply Forall_impl; [|exact F]. intros c (N & W). split; [exact N|]. split; [reflexivity|].
  apply system_reads; assumption.
Qed.
End System.

(** ** The parts *)
Definition good_rates (l : list f64) : Prop := finite l /\ Forall (fun v => share v = true) l.
Lemma good_rates_ok l : good_rates l -> List.length l = 1%nat -> rates l.
Proof.
  intros (F & S) L. split; [exact L|]. apply Forall_forall. intros v Hv. unfold finite in F. rewrite Forall_forall in F, S. rewrite kept_fin by (apply F, Hv). apply S, Hv.
Qed.
Section Instances.
Context (K : cfg) (P : cpar) (R : ppar).
Definition J0 : rng -> Prop := fun _ => True.
Definition ok_rect (c : rect) : Prop := wf_rect K c /\ finite (r_b1 c) /\ finite (r_b2 c) /\ good_rates (r_mu c).
Definition ok_ellip (c : ellip) : Prop := wf_ellip K c /\ finite (e_center c) /\ finite (e_spread c) /\ good_rates (e_mu c).
Definition ok_tern (c : ternary) : Prop := wf_tern K P c /\ good_rates (t_mu c).
Definition ok_integer (a : actint) : Prop := act_wf K a /\ good_rates (a_mu a).
Definition ok_nlms (p : nlms) : Prop := wf_nlms K R p /\ finite (nl_weights p) /\ finite [nl_eta p] /\ good_rates (nl_mu p).
Definition ok_rls (p : rls) : Prop := wf_rls K R p /\ finite (rl_weights p).
(** What an RLS prediction becomes: the weights with the matrix of a new one. *)
Definition rls_renew (p : rls) : rls := match rls_init K R with
  | Ok q => mkRls (rl_n p) (rl_weights p) (rl_matrix q) (rl_tmp q) (rl_vec q) (rl_mat1 q) (rl_mat2 q) | _ => p end.
(** The buffer for the features, overwritten before it is read. *)
Definition nlms_renew (p : nlms) : nlms := mkNlms (nl_n p) (nl_weights p) (nl_mu p) (nl_eta p) (alloc_tmp (nl_n p)).
Context (XD : 1 <= x_dim K) (YD : 1 <= y_dim K).
Lemma rt_all {T} (m : RM T) Q : rt (fun _ => True) m Q -> forall g, exists a g', m g = Ok (a, g') /\ Q a.
Proof. intros H g. destruct (H g Logic.I) as (a & g' & E & _ & X). exists a, g'. split; assumption. Qed.
Lemma mu_one_fin l : good_rates l -> map (kept f0) l = l.
Proof. intros (F & _). apply back_fin, F. Qed.
Lemma rect_part_back : part_back (k_init (rect_cond K P)) (rect_import K P) (rect_export K P) ok_rect.
Proof.
  intros c (W & F1 & F2 & G). assert (M : rates (r_mu c)) by (apply good_rates_ok; [exact G|apply W]).
  destruct (rect_back K P c c W W M) as (j & E & _). exists j. split; [exact E|]. intros g.
  destruct (rt_all _ _ (rect_init_ok (fun _ => True) K P (fun _ => True) (src_any (lm K)) XD) g) as (c1 & g' & I1 & W1 & _).
  exists c1, g'. split; [exact I1|]. destruct (rect_back K P c c1 W W1 M) as (j2 & E2 & Q). rewrite E in E2. injection E2 as <-. rewrite Q, !back_fin by (assumption || apply G). destruct c; reflexivity.
Qed.
Lemma ellip_part_back : part_back (k_init (ellip_cond K P)) (ellip_import K) (ellip_export K) ok_ellip.
Proof.
  intros c (W & F1 & F2 & G). assert (M : rates (e_mu c)) by (apply good_rates_ok; [exact G|apply W]).
  destruct (ellip_back K c c W W M) as (j & E & _). exists j. split; [exact E|]. intros g.
  destruct (rt_all _ _ (ellip_init_ok (fun _ => True) K P (fun _ => True) (src_any (lm K)) XD) g) as (c1 & g' & I1 & W1 & _).
  exists c1, g'. split; [exact I1|]. destruct (ellip_back K c c1 W W1 M) as (j2 & E2 & Q). rewrite E in E2. injection E2 as <-. rewrite Q, !back_fin by (assumption || apply G). destruct c; reflexivity.
Qed.
Lemma tern_part_back : 1 <= cp_bits P <= 31 -> part_back (k_init (ternary_cond K P)) tern_import tern_export ok_tern.
Proof.
  intros HB c (W & G). assert (M : rates (t_mu c)) by (apply good_rates_ok; [exact G|apply W]).
  destruct (tern_back K P c c W W M) as (j & E & _). exists j. split; [exact E|]. intros g.
  destruct (rt_all _ _ (ternary_init_ok (fun _ => True) K P (fun _ => True) (src_any (lm K)) XD HB) g) as (c1 & g' & I1 & W1 & _).
  exists c1, g'. split; [exact I1|]. destruct (tern_back K P c c1 W W1 M) as (j2 & E2 & Q). rewrite E in E2. injection E2 as <-. rewrite Q, !back_fin by (assumption || apply G). destruct c; reflexivity.
Qed.
Lemma dummy_part_back : part_back (k_init dummy_cond) dummy_import dummy_export (fun _ => True).
Proof. intros [] _. eexists. split; [reflexivity|]. intros g. exists tt, g. split; reflexivity. Qed.
Lemma integer_part_back : 1 <= n_actions K <= int_max -> part_back (i_init (integer_act K)) integer_import integer_export ok_integer.
Proof.
  intros HN c (W & G). assert (M : rates (a_mu c)) by (apply good_rates_ok; [exact G|apply W]).
  assert (HA : int_min <= a_action c <= int_max) by (destruct W; unfold int_min; lia).
  destruct (integer_back c c HA (proj2 W) M) as (j & E & _). exists j. split; [exact E|]. intros g.
  destruct (rt_all _ _ (actint_init_ok (fun _ => True) K (fun _ => True) (src_any (lm K)) HN) g) as (c1 & g' & I1 & W1 & _).
  exists c1, g'. split; [exact I1|]. destruct (integer_back c c1 HA (proj2 W1) M) as (j2 & E2 & Q). rewrite E in E2. injection E2 as <-. rewrite Q, !back_fin by (assumption || apply G). destruct c; reflexivity.
Qed.
Lemma nlms_tmp g p g' : nlms_init K R g = Ok (p, g') -> nl_tmp p = alloc_tmp (nl_n p).
Proof.
  unfold nlms_init, bind, lift. destruct (init_weights _ _ _ _) as [w| | |]; try discriminate. destruct (pp_evolve_eta R).
  - destruct (sam_init _ g) as [[mu g1]| | |]; try discriminate. destruct (rand_uniform _ _ g1) as [[e g2]| | |]; try discriminate. intros H. injection H as <- _. reflexivity.
  - intros H. injection H as <- _. reflexivity.
Qed.
Lemma nlms_pred_back : pred_back (y_dim K) (q_init (nlms_pred K R)) nlms_import (nlms_export R) nlms_renew ok_nlms.
Proof.
  intros c v (W & F1 & F2 & G) _ _. assert (M : rates (nl_mu c)) by (apply good_rates_ok; [exact G|apply W]).
  destruct (nlms_back K R c c v v W W M) as (j & E & _). exists j. split; [exact E|]. intros g.
  destruct (rt_all _ _ (nlms_init_ok (fun _ => True) K R (fun _ => True) (src_any (lm K)) XD YD) g) as (c1 & g' & I1 & W1 & _).
  exists c1, g'. split; [exact I1|]. destruct (nlms_back K R c c1 v v W W1 M) as (j2 & E2 & Q). rewrite E in E2. injection E2 as <-.
  rewrite Q, !back_fin by (assumption || apply G). inversion F2 as [|x l Fx _]; subst x l. rewrite kept_fin by exact Fx. unfold nlms_renew. rewrite (nlms_tmp _ _ _ I1). destruct W as (W & _), W1 as (W1 & _). rewrite W1, W. reflexivity.
Qed.
Lemma rls_pred_back : pred_back (y_dim K) (q_init (rls_pred K R)) rls_import (rls_export R) rls_renew ok_rls.
Proof.
  intros c v (W & F1) _ _. destruct (rls_init_ok K R XD YD) as (c1 & I1 & W1 & _).
  destruct (rls_back K R c c1 v v W W1) as (j & E & Q). exists j. split; [exact E|]. intros g.
  exists c1, g. split; [cbn [rls_pred q_init]; unfold lift; rewrite I1; reflexivity|]. rewrite Q, back_fin by exact F1. unfold rls_renew. rewrite I1. reflexivity.
Qed.
Lemma constant_pred_back : pred_back (y_dim K) (q_init (constant_pred K)) (constant_import K) (constant_export K) (fun p => p) (fun _ => True).
Proof.
  intros [] v _ L F. destruct (constant_back K v v L L) as (j & E & Q). exists j. split; [exact E|]. intros g. exists tt, g. split; [reflexivity|]. rewrite Q, back_fin by exact F. reflexivity.
Qed.
End Instances.

(** ** Counterexamples *)
Lemma parts_lemma (K : cfg) (P : cpar) (R : ppar) : 1 <= x_dim K -> 1 <= y_dim K -> 1 <= n_actions K <= int_max -> 1 <= cp_bits P <= 31 ->
  part_back (k_init (rect_cond K P)) (rect_import K P) (rect_export K P) (ok_rect K) /\
  part_back (k_init (ellip_cond K P)) (ellip_import K) (ellip_export K) (ok_ellip K) /\
  part_back (k_init (ternary_cond K P)) tern_import tern_export (ok_tern K P) /\
  part_back (k_init dummy_cond) dummy_import dummy_export (fun _ => True) /\
  part_back (i_init (integer_act K)) integer_import integer_export (ok_integer K) /\
  pred_back (y_dim K) (q_init (nlms_pred K R)) nlms_import (nlms_export R) nlms_renew (ok_nlms K R) /\
  pred_back (y_dim K) (q_init (rls_pred K R)) rls_import (rls_export R) (rls_renew K R) (ok_rls K R) /\
  pred_back (y_dim K) (q_init (constant_pred K)) (constant_import K) (constant_export K) (fun p => p) (fun _ => True).
Proof.
  intros X Y N Bt. split; [apply rect_part_back; exact X|]. split; [apply ellip_part_back; exact X|]. split; [apply tern_part_back; assumption|].
  split; [apply dummy_part_back|]. split; [apply integer_part_back; exact N|]. split; [apply nlms_pred_back; assumption|]. split; [apply rls_pred_back; assumption|apply constant_pred_back].
Qed.
Lemma values_lemma (K : cfg) (P : cpar) (R : ppar) :
  (forall c c', wf_rect K c -> wf_rect K c' -> rates (r_mu c) -> exists j, rect_export K P c = Ok j /\
    rect_import K P c' j = Ok (mkRect (map (kept f0) (r_b1 c)) (map (kept f0) (r_b2 c)) (map (kept f0) (r_mu c)))) /\
  (forall c c', wf_ellip K c -> wf_ellip K c' -> rates (e_mu c) -> exists j, ellip_export K c = Ok j /\
    ellip_import K c' j = Ok (mkEllip (map (kept f0) (e_center c)) (map (kept f0) (e_spread c)) (map (kept f0) (e_mu c)))) /\
  (forall c c' v v', wf_nlms K R c -> wf_nlms K R c' -> rates (nl_mu c) -> exists j, nlms_export R c v = Ok j /\
    nlms_import c' v' j = Ok (mkNlms (nl_n c) (map (kept f0) (nl_weights c)) (map (kept f0) (nl_mu c)) (kept (nl_eta c') (nl_eta c)) (nl_tmp c'), v')) /\
  (forall c c' v v', wf_rls K R c -> wf_rls K R c' -> exists j, rls_export R c v = Ok j /\
    rls_import c' v' j = Ok (mkRls (rl_n c) (map (kept f0) (rl_weights c)) (rl_matrix c') (rl_tmp c') (rl_vec c') (rl_mat1 c') (rl_mat2 c'), v')).
Proof.
  split; [intros; apply rect_back; assumption|]. split; [intros; apply ellip_back; assumption|]. split; [intros; eapply nlms_back; eassumption|intros; eapply rls_back; eassumption].
Qed.
Lemma empty_lemma {B} (V : vtab B) (I : imports B) (E : exports B) (K : cfg) (s : st B) set c a p : set_list set = [] ->
  exists doc, clset_json_export E K set c a p s = Ok (doc, s) /\ forall s0, json_insert V I K doc s0 = UB NullDeref.
Proof. intros H. unfold clset_json_export. rewrite H. eexists. split; [reflexivity|]. intros s0. reflexivity. Qed.
(** Learn from one sample, then predict. *)
Definition learn (K : cfg) (R : ppar) (p : rls) (v x y : list f64) : outcome (rls * list f64) :=
  (r <- rls_compute K R p v x ;; q <- rls_upd K R (fst r) (snd r) y ;; Ok (q, snd r))%out.
Definition guess (K : cfg) (R : ppar) (p : rls) (v x y x' : list f64) : outcome (list f64) :=
  (q <- learn K R p v x y ;; r <- rls_compute K R (fst q) (snd q) x' ;; Ok (snd r))%out.
Definition KR : cfg := demo_cfg 2 1 10 false false false false.
Definition RR : ppar := demo_ppar PRED_TYPE_RLS_LINEAR.
Definition taught : outcome (rls * list f64) := (p <- rls_init KR RR ;; learn KR RR p [f0] [f1; f0] [f1])%out.
Definition sizes (p : rls) : list Z := [rl_n p; len (rl_weights p); len (rl_matrix p); len (rl_tmp p); len (rl_vec p); len (rl_mat1 p); len (rl_mat2 p)].
Definition forgot (p : rls) (v : list f64) (p1 q : rls) : bool :=
  match guess KR RR p v [f0; f1] [of_Z 3] [f1; f1], guess KR RR q v [f0; f1] [of_Z 3] [f1; f1] with
  | Ok [a], Ok [b] => negb (feq a b) && forallb is_finite (rl_weights p) && forallb (fun x => fst x =? snd x) (combine (sizes p) [3; 3; 9; 3; 3; 9; 9])
  | _, _ => false end.
Lemma rls_lemma : exists K R p p1 v j q x y x' a b, ok_rls K R p /\ rls_init K R = Ok p1 /\ rls_export R p v = Ok j /\ rls_import p1 v j = Ok (q, v) /\
  guess K R p v x y x' = Ok [a] /\ guess K R q v x y x' = Ok [b] /\ feq a b = false.
Proof.
  assert (X : match taught, rls_init KR RR with
    | Ok (p, v), Ok p1 => match rls_export RR p v with
      | Ok j => match rls_import p1 v j with Ok (q, _) => forgot p v p1 q | _ => false end | _ => false end | _, _ => false end = true) by (vm_compute; reflexivity).
  revert X. generalize taught. intros t X. exists KR, RR. destruct t as [[p v]| | |]; try discriminate X. destruct (rls_init KR RR) as [p1| | |]; try discriminate X.
  destruct (rls_export RR p v) as [j| | |] eqn:Ej; try discriminate X. destruct (rls_import p1 v j) as [[q v2]| | |] eqn:Eq; try discriminate X.
  assert (V2 : v2 = v). { unfold rls_import in Eq. destruct (import_doubles _ _ _) as [w| | |]; try discriminate Eq. cbn [obind] in Eq. injection Eq as _ <-. reflexivity. }
  subst v2. unfold forgot in X. destruct (guess KR RR p v [f0; f1] [of_Z 3] [f1; f1]) as [[|a [|? ?]]| | |] eqn:Ga; try discriminate X.
  destruct (guess KR RR q v [f0; f1] [of_Z 3] [f1; f1]) as [[|b [|? ?]]| | |] eqn:Gb; try discriminate X.
  apply andb_true_iff in X. destruct X as (X & X3). apply andb_true_iff in X. destruct X as (X1 & X2). apply negb_true_iff in X1.
  exists p, p1, v, j, q, [f0; f1], [of_Z 3], [f1; f1], a, b. split; [|repeat split; assumption].
  unfold sizes in X3. cbn [combine forallb fst snd] in X3. repeat (apply andb_true_iff in X3; destruct X3 as (?H & X3)).
  repeat match goal with H : (_ =? _) = true |- _ => apply Z.eqb_eq in H end. split.
  - unfold wf_rls. cbv zeta. rewrite H. repeat split; try assumption.
  - apply Forall_forall. intros w Hw. rewrite forallb_forall in X2. apply X2, Hw.
Qed.
(** A weight that is infinite. *)
Lemma infinite_weight : exists K R p p1 v j q, wf_nlms K R p /\ wf_nlms K R p1 /\ good_rates (nl_mu p) /\ is_finite (nl_eta p) = true /\
  nl_weights p = [B754_infinity false; f1; f1] /\ nlms_export R p v = Ok j /\ nlms_import p1 v j = Ok (q, v) /\ nl_weights q = [f0; f1; f1].
Proof.
  set (p := mkNlms 3 [B754_infinity false; f1; f1] [fhalf] fhalf (alloc_tmp 3)). set (R := demo_ppar PRED_TYPE_NLMS_LINEAR).
  assert (W : wf_nlms KR R p) by (repeat split; reflexivity).
  assert (G : good_rates (nl_mu p)) by (split; (constructor; [vm_compute; reflexivity|constructor])).
  destruct (nlms_back KR R p p [] [] W W (good_rates_ok _ G eq_refl)) as (j & E & Q).
  exists KR, R, p, p, [], j. eexists. split; [exact W|]. split; [exact W|]. split; [exact G|]. split; [vm_compute; reflexivity|]. split; [reflexivity|].
  split; [exact E|]. split; [exact Q|]. reflexivity.
Qed.
