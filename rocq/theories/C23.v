(** * C23 Hyperrectangle generality is inclusion. *)
From Coq Require Import ZArith Bool List Reals.
From Flocq Require Import Core BinarySingleNaN.
From Verif Require Import Outcome F64 F64Facts F64Bounds Rng RngFacts Pop Arr ArrFacts Sam SamFacts Cond TernFacts RectFacts EllipFacts RandInt PropTern PropBox PropGrow PropRefCond Demo.
Import ListNotations.
Open Scope Z_scope.

(** If one box is reported more general than another it matches all the other matches. Conversely,
    if it does, it is reported so, provided the other one's intervals are not empty ([ordered],
    PropBox; always the case unless a spread is negative). *)
Theorem C23_general :
  forall (K : cfg) (P : cpar),
  1 <= x_dim K ->
  forall c1 c2 : rect,
  wf_rect K c1 ->
  wf_rect K c2 ->
  nn_bounds K P c1 ->
  nn_bounds K P c2 ->
  exists b : bool,
    rect_general K P c1 c2 = Ok b /\
    (b = true ->
     forall x : list f64,
     len x = x_dim K -> rect_match K P c2 x = Ok true -> rect_match K P c1 x = Ok true) /\
    (ordered K P c2 ->
     (forall x : list f64,
      len x = x_dim K -> rect_match K P c2 x = Ok true -> rect_match K P c1 x = Ok true) -> 
     b = true).
Proof. exact @C23_lemma. Qed.
Print Assumptions C23_general.

(** The relation is reflexive and transitive. *)
Theorem C23_order :
  forall (K : cfg) (P : cpar),
  1 <= x_dim K ->
  forall c1 c2 c3 : rect,
  wf_rect K c1 ->
  wf_rect K c2 ->
  wf_rect K c3 ->
  nn_bounds K P c1 ->
  nn_bounds K P c2 ->
  nn_bounds K P c3 ->
  rect_general K P c1 c1 = Ok true /\
  (rect_general K P c1 c2 = Ok true ->
   rect_general K P c2 c3 = Ok true -> rect_general K P c1 c3 = Ok true).
Proof. exact @C23_order_lemma. Qed.
Print Assumptions C23_order.

(** Finite parameters give bounds that are numbers, which is what the above need. *)
Theorem C23_finite :
  forall (K : cfg) (P : cpar) (c : rect), wf_rect K c -> fin_rect c -> nn_bounds K P c.
Proof. exact @C23_finite_lemma. Qed.
Print Assumptions C23_finite.

(** [0,1]^2 contains [1/4,3/4]x[1/2,1] and not the converse. *)
Example C23_example :
  let P := demo_cpar COND_TYPE_HYPERRECTANGLE_UBR in
  let c1 := mkRect [f0; f1] [f1; f0] [fhalf] in let c2 := mkRect [lit 1 4; fhalf] [lit 3 4; f1] [fhalf] in
  wf_rect K2 c1 /\ wf_rect K2 c2 /\ fin_rect c1 /\ fin_rect c2 /\
  rect_general K2 P c1 c2 = Ok true /\ rect_general K2 P c2 c1 = Ok false /\
  rect_match K2 P c2 [fhalf; lit 3 4] = Ok true /\ rect_match K2 P c2 [fhalf; lit 1 4] = Ok false.
Proof. cbv zeta. do 2 (split; [repeat split|]). do 2 (split; [split; repeat constructor|]). repeat split; vm_compute; reflexivity. Qed.
