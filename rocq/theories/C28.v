(** * C28 Imported JSON rules cannot corrupt the system. *)
From Coq Require Import ZArith Bool List String Ascii Reals Lia Lra.
From Flocq Require Import Core BinarySingleNaN.
From Verif Require Import Outcome F64 F64Facts F64Bounds Rng Arr ArrFacts Sam Cond TernFacts RectFacts EllipFacts Pred Pop PopSpec PopInv PopFit PopRL PopCover PopOps Clock Comp CompFacts Demo Json PropJson PropJsonEx.
Import ListNotations.
Open Scope Z_scope.

(** Any document whose rules have a numerosity of at least one (not overflowing), actions in range,
    and the finite non-negative fitness, set size and experience the invariant asks for: inserting
    fails with an error message or keeps the invariant of the population, and exactly the rules of
    the document are inserted, in the order that keeps the first at the front. *)
Theorem C28_insert :
  forall (B : Type) (FO : Prop) (V : vtab B) (I : imports B) (K : cfg) (kf : Z) 
    (wf : B -> Prop) (mt : B -> list f64 -> Prop) (dom : list f64 -> Prop),
  cfg_ok K kf ->
  vt_ok (dom := dom) FO V K wf mt ->
  forall (N : Z) (da dp dc : json -> Prop),
  imports_ok FO I K wf da dp dc ->
  forall (doc : json) (s : st B),
  Good K kf N wf s ->
  rules_of doc <> Some [] ->
  (forall l : list json, rules_of doc = Some l -> Forall (fine_rule K kf N da dp dc (set_nm (s_pset s))) l) ->
  hpost FO (json_insert V I K doc s)
    (fun (_ : unit) (s' : st B) =>
     Good K kf N wf s' /\
     match rules_of doc with
     | Some l => inserted V K (rev l) s s'
     | None => s' = s
     end).
Proof. exact @C28_insert_lemma. Qed.
Print Assumptions C28_insert.

(** Decoding one rule, any document: an error, or a rule with the attributes of the document; no
    undefined behaviour.  [w]: what the imports of the parts preserve. *)
Theorem C28_decode :
  forall (B : Type) (FO : Prop) (V : vtab B) (I : imports B) (K : cfg) (kf : Z) 
    (wf : B -> Prop) (mt : B -> list f64 -> Prop) (dom : list f64 -> Prop),
  cfg_ok K kf ->
  vt_ok (dom := dom) FO V K wf mt ->
  forall (w : B -> Prop) (da dp dc : json -> Prop) (num time : Z) (j : json),
  (forall b : B, wf b -> w b) ->
  imports_ok FO I K w da dp dc ->
  when da (item j "action") ->
  when dp (item j "prediction") ->
  when dc (item j "condition") ->
  rpost FO (cl_json_import V I K num time j) (fun c : cl B => decoded K num time j c /\ w (c_body c)).
Proof. exact @import_spec. Qed.
Print Assumptions C28_decode.

(** Imports of three parts put together. *)
Theorem C28_parts :
  forall (C A P : Type) (FO : Prop) (K : cfg) (fc : C -> json -> outcome C) (fa : A -> json -> outcome A)
    (fp : P -> list f64 -> json -> outcome (P * list f64)) (wc : C -> Prop) (wa : A -> Prop)
    (wp : P -> Prop) (da dp dc : json -> Prop),
  part_ok fc wc dc ->
  part_ok fa wa da ->
  pred_part_ok (y_dim K) fp wp dp -> imports_ok FO (join_imports fc fa fp) K (wf_pay wc wa wp) da dp dc.
Proof. exact @C28_parts_lemma. Qed.
Print Assumptions C28_parts.

(** The modelled types of conditions, actions and predictions; DGP graphs, see C40 (GP trees and
    networks cannot be imported: always an error). *)
Theorem C28_types :
  forall (K : cfg) (P : cpar) (R : ppar),
  part_ok (rect_import K P) (wf_rect K) any_item /\
  part_ok (ellip_import K) (wf_ellip K) any_item /\
  part_ok tern_import (wf_tern K P) (trits (x_dim K * cp_bits P)) /\
  part_ok tern_import (tern_shape K P) any_item /\
  part_ok integer_import (act_wf K) (legal_action K) /\
  part_ok integer_import act_shape any_item /\
  pred_part_ok (y_dim K) nlms_import (wf_nlms K R) any_item /\
  pred_part_ok (y_dim K) rls_import (wf_rls K R) any_item /\
  pred_part_ok (y_dim K) (constant_import K) (fun _ : unit => True) any_item.
Proof. exact @C28_types_lemma. Qed.
Print Assumptions C28_types.

(** Arrays of numbers are those of the document, or an error. *)
Theorem C28_numbers :
  forall (dst : list f64) (n : Z) (src : option (list json)),
  len dst = n ->
  import_doubles dst n src =
  match src with
  | Some l => if Z.of_nat (Datatypes.length l) =? n then Ok (map valuedouble l) else Exit
  | None => Ok dst
  end.
Proof. exact @C28_numbers_lemma. Qed.
Print Assumptions C28_numbers.

(** Mutation rates are those of the document and not below zero or above one, or an error. *)
Theorem C28_rates :
  forall (mu : list f64) (n : Z) (j : json),
  len mu = n ->
  import_mu mu n j =
  match array j "mutation" with
  | Some l =>
      if (Z.of_nat (Datatypes.length l) =? n) && forallb (fun e : json => share (valuedouble e)) l
      then Ok (map valuedouble l)
      else Exit
  | None => Ok mu
  end.
Proof. exact @C28_rates_lemma. Qed.
Print Assumptions C28_rates.

(** REFUTED as stated: an empty array is always a null pointer dereference. *)
Theorem C28_empty :
  forall (B : Type) (V : vtab B) (I : imports B) (K : cfg) (doc : json) (s : st B),
  rules_of doc = Some [] -> json_insert V I K doc s = UB NullDeref.
Proof. exact @C28_empty_lemma. Qed.
Print Assumptions C28_empty.

(** REFUTED as stated: documents with numerosity zero, a negative numerosity and an action out of
    range are accepted; an empty array and a large numerosity are undefined behaviour. *)
Theorem C28_refuted :
  exists
    (B : Type) (V : vtab B) (I : imports B) (K : cfg) (wf : B -> Prop) (mt : B -> list f64 -> Prop) 
  (da : json -> Prop) (s : st B) (d_zero d_neg d_action d_empty d_big : json) 
  (s1 s2 s3 : st B) (x y : list f64),
    cfg_ok K 0 /\
    vt_ok (dom := any_x) False V K wf mt /\
    imports_ok False I K wf da any_item any_item /\
    Good K 0 3 wf s /\
    len x = x_dim K /\
    (json_insert V I K d_zero s = Ok (tt, s1) /\
     (exists (l : loc) (c : cl B), In l (set_list (s_pset s1)) /\ s_heap s1 l = Some c /\ c_num c = 0)) /\
    (json_insert V I K d_neg s = Ok (tt, s2) /\ set_nm (s_pset s2) = -4) /\
    (json_insert V I K d_action s = Ok (tt, s3) /\
     set_nm (s_pset s3) = 1 /\ supervised_trial V K x y None s3 = UB OutOfBounds) /\
    json_insert V I K d_empty s = UB NullDeref /\ json_insert V I K d_big s = UB IntOverflow.
Proof. exact @C28_refuted_lemma. Qed.
Print Assumptions C28_refuted.

(** The hypotheses are met: two rules inserted into an empty population. *)
Example C28_example : cfg_ok KJ 0 /\ vt_ok (dom := any_x) False VJ KJ (rect_wf KJ) (rect_mt KJ) /\
  imports_ok False IJ KJ (rect_wf KJ) (legal_action KJ) any_item any_item /\ Good KJ 0 3 (rect_wf KJ) SJ /\
  (forall l, rules_of doc_ok = Some l -> Forall (fine_rule KJ 0 3 (legal_action KJ) any_item any_item (set_nm (s_pset SJ))) l) /\
  view (after doc_ok SJ) = ([1%nat; 0%nat], 2, 5, [Some (3, 3, 1, true, Some 0, [Some 0]); Some (2, 3, 1, true, Some 1, [Some 0])]).
Proof.
  split; [exact KJ_ok|]. split; [exact VJ_ok|]. split; [apply IJ_ok|]. split; [apply empty_good; cbn; lia|]. split.
  - intros l E. destruct doc_fine as (E' & F). rewrite E' in E. injection E as <-. exact F.
  - vm_compute. reflexivity.
Qed.
