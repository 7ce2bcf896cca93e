(** * Documents that break the invariant, and one that does not (C28). *)
From Coq Require Import ZArith Bool List String Ascii Reals Lia Lra.
From Flocq Require Import Core BinarySingleNaN.
From Verif Require Import Outcome F64 F64Facts F64Bounds Rng RngFacts Arr ArrFacts Sam SamFacts Cond TernFacts RectFacts EllipFacts Pred
  Pop PopSpec PopInv PopFit PopRL PopCover PopOps Clock Comp CompFacts Demo Json PropJson.
Import ListNotations.
Open Scope Z_scope.

Definition KJ := demo_cfg 2 1 10 false false false false.
Definition VJ := rect_tab KJ.
Definition IJ := join_imports (rect_import KJ (demo_cpar COND_TYPE_HYPERRECTANGLE_CSR)) integer_import nlms_import.
Definition SJ : st (payload rect actint nlms) := blank_state 5.
Definition num_item (v : Z) : json := JNum (of_Z v) v.
(** The whole input space, with some action. *)
Definition wide_open : json := JObj [("type"%string, JStr "hyperrectangle_csr"); ("center"%string, JArr [num_item 0; num_item 0]);
  ("spread"%string, JArr [num_item 9; num_item 9]); ("mutation"%string, JArr [JNum fhalf 0])].
Definition a_rule (num act : Z) : json := JObj [
  ("error"%string, JNum (lit 1 10) 0); ("fitness"%string, JNum fhalf 0); ("set_size"%string, num_item 2); ("Numerosity"%string, num_item num);
  ("experience"%string, num_item 3); ("current_match"%string, JBool true); ("current_action"%string, num_item 1);
  ("current_prediction"%string, JArr [JStr "not a number"]);
  ("condition"%string, wide_open); ("action"%string, JObj [("type"%string, JStr "integer"); ("action"%string, num_item act)]);
  ("prediction"%string, JObj [("weights"%string, JArr [num_item 1; num_item 2; num_item 3])])].
Definition doc (l : list json) : json := JObj [("classifiers"%string, JArr l)].
Definition after (d : json) (s : st (payload rect actint nlms)) : st (payload rect actint nlms) :=
  match json_insert VJ IJ KJ d s with Ok (_, s') => s' | _ => s end.
Definition view (s : st (payload rect actint nlms)) := (set_list (s_pset s), set_sz (s_pset s), set_nm (s_pset s),
  map (fun l => option_map (fun c => (c_num c, c_exp c, c_action c, c_m c, option_map a_action (y_act (c_body c)), map to_int (c_prediction c))) (s_heap s l)) (set_list (s_pset s))).
Definition kind {A} (o : outcome A) : Z := match o with Ok _ => 0 | Exit => 1 | UB OutOfBounds => 2 | UB NullDeref => 3 | UB IntOverflow => 4 | UB _ => 5 | OutOfFuel => 6 end.
Lemma KJ_ok : cfg_ok KJ 0.
Proof. apply demo_cfg_ok; unfold int_max; lia. Qed.
Lemma VJ_ok : vt_ok (dom := any_x) False VJ KJ (rect_wf KJ) (rect_mt KJ).
Proof. apply rect_tab_ok; cbn; unfold int_max; lia. Qed.
Lemma IJ_ok FO : imports_ok FO IJ KJ (rect_wf KJ) (legal_action KJ) any_item any_item.
Proof. apply C28_parts_lemma; [apply rect_part|apply integer_part|apply nlms_part]. Qed.
Lemma empty_good {B} K kf N wf seed : 1 <= POP_SIZE K -> Good (B := B) K kf N wf (blank_state seed).
Proof.
  intros H. constructor; cbn; try lia.
  assert (E : set_ok (B := B) (fun _ => None) empty_set) by (constructor; [reflexivity|reflexivity|intros l []]).
  constructor; cbn; try assumption.
  - constructor.
  - intros l. split; [intros X; contradiction|intros []].
  - intros l X. contradiction.
  - intros l c X. discriminate.
  - split; [reflexivity|]. split; [reflexivity|intros l []].
  - intros l [].
Qed.
(** Starting from an empty population, without undefined behaviour or an error: a rule of
    numerosity zero; a population of numerosity -4; a rule with action 7 of 2, after which a trial
    writes out of bounds.  An empty array, and a numerosity that overflows, are undefined
    behaviour. *)
Lemma C28_refuted_lemma : exists (B : Type) (V : vtab B) (I : imports B) (K : cfg) (wf : B -> Prop) (mt : B -> list f64 -> Prop) (da : json -> Prop)
  (s : st B) (d_zero d_neg d_action d_empty d_big : json) (s1 s2 s3 : st B) (x y : list f64),
  cfg_ok K 0 /\ vt_ok (dom := any_x) False V K wf mt /\ imports_ok False I K wf da any_item any_item /\ Good K 0 3 wf s /\ len x = x_dim K /\
  (json_insert V I K d_zero s = Ok (tt, s1) /\ exists l c, In l (set_list (s_pset s1)) /\ s_heap s1 l = Some c /\ c_num c = 0) /\
  (json_insert V I K d_neg s = Ok (tt, s2) /\ set_nm (s_pset s2) = -4) /\
  (json_insert V I K d_action s = Ok (tt, s3) /\ set_nm (s_pset s3) = 1 /\ supervised_trial V K x y None s3 = UB OutOfBounds) /\
  json_insert V I K d_empty s = UB NullDeref /\
  json_insert V I K d_big s = UB IntOverflow.
Proof.
  exists (payload rect actint nlms), VJ, IJ, KJ, (rect_wf KJ), (rect_mt KJ), (legal_action KJ), SJ,
    (doc [a_rule 0 0]), (doc [a_rule (-4) 0]), (doc [a_rule 1 7]), (doc []), (doc [a_rule 2147483647 0; a_rule 1 0]),
    (after (doc [a_rule 0 0]) SJ), (after (doc [a_rule (-4) 0]) SJ), (after (doc [a_rule 1 7]) SJ), [fhalf; f1], [f1].
  assert (OK : forall d, kind (json_insert VJ IJ KJ d SJ) = 0 -> json_insert VJ IJ KJ d SJ = Ok (tt, after d SJ)).
  { intros d. unfold after. destruct (json_insert VJ IJ KJ d SJ) as [[[] s']| |[]|]; try discriminate. reflexivity. }
  split; [exact KJ_ok|]. split; [exact VJ_ok|]. split; [apply IJ_ok|]. split; [apply empty_good; cbn; lia|]. split; [reflexivity|].
  split.
  { split; [apply OK; vm_compute; reflexivity|].
    assert (X : match s_heap (after (doc [a_rule 0 0]) SJ) 0%nat with Some c => c_num c = 0 | None => False end) by (vm_compute; reflexivity).
    assert (Y : set_list (s_pset (after (doc [a_rule 0 0]) SJ)) = [0%nat]) by (vm_compute; reflexivity).
    destruct (s_heap (after (doc [a_rule 0 0]) SJ) 0%nat) as [c|] eqn:E; [|contradiction]. exists 0%nat, c. rewrite Y. split; [left; reflexivity|]. split; [exact E|exact X]. }
  split; [split; [apply OK|]; vm_compute; reflexivity|].
  split; [split; [apply OK; vm_compute; reflexivity|split; vm_compute; reflexivity]|].
  split; vm_compute; reflexivity.
Qed.
Definition doc_ok : json := doc [a_rule 3 0; a_rule 2 1].
Lemma doc_fine : rules_of doc_ok = Some [a_rule 3 0; a_rule 2 1] /\ Forall (fine_rule KJ 0 3 (legal_action KJ) any_item any_item 0) [a_rule 3 0; a_rule 2 1].
Proof.
  split; [reflexivity|].
  assert (F : forall n a, 1 <= n <= 100 -> 0 <= a < 2 -> fine_rule KJ 0 3 (legal_action KJ) any_item any_item 0 (a_rule n a)).
  { intros n a Hn Ha. constructor.
    - change (int_item (a_rule n a) "numerosity" 1) with n. cbn. unfold int_max. lia.
    - intros v i E. injection E as <- <-. assert (fin_in 0 1 fhalf) as (F & H) by (apply fle_01_in; reflexivity). split; [exact F|]. split; [reflexivity|]. cbn [bpow]. apply H.
    - change (fin_in 1 (bpow radix2 33) (of_Z 2)). apply of_Z_size. lia.
    - change (int_item (a_rule n a) "current_action" 0) with 1. cbn. lia.
    - change (int_item (a_rule n a) "experience" 0) with 3. lia.
    - intros j E. injection E as <-. intros v i X. injection X as <- <-. exact Ha.
    - intros j E. exact I.
    - intros j E. exact I. }
  apply Forall_cons; [apply F; lia|]. apply Forall_cons; [apply F; lia|apply Forall_nil].
Qed.
