(** * C22 Hyperrectangle covering matches. *)
From Coq Require Import ZArith Bool List Reals.
From Flocq Require Import Core BinarySingleNaN.
From Verif Require Import Outcome F64 F64Facts F64Bounds Rng RngFacts Pop Arr ArrFacts Sam SamFacts Cond TernFacts RectFacts EllipFacts RandInt PropTern PropBox PropGrow PropRefCond Demo.
Import ListNotations.
Open Scope Z_scope.

(** Covering always succeeds, for every input (even infinite or NaN) and every minimum spread that
    is not negative; the result matches the input in double precision. [covered] (RectFacts) gives
    the bounds. *)
Theorem C22_cover :
  forall (K : cfg) (P : cpar),
  1 <= x_dim K ->
  forall (c : rect) (x : list f64),
  flt (cp_spread_min P) f0 = false ->
  wf_rect K c ->
  len x = x_dim K ->
  rt (fun _ : rng => True) (rect_cover K P c x)
    (fun c' : rect =>
     wf_rect K c' /\ r_mu c' = r_mu c /\ rect_match K P c' x = Ok true /\ covered K P c' x).
Proof. exact @C22_lemma. Qed.
Print Assumptions C22_cover.

(** Matching never fails and means that no coordinate is outside its interval ([box], RectFacts). *)
Theorem C22_match :
  forall (K : cfg) (P : cpar),
  1 <= x_dim K ->
  forall (c : rect) (x : list f64),
  wf_rect K c ->
  len x = x_dim K -> exists b : bool, rect_match K P c x = Ok b /\ (b = true <-> box K P c x).
Proof. exact @C22_match_lemma. Qed.
Print Assumptions C22_match.

(** The condition overwritten by covering. *)
Definition boxc : rect := mkRect [f0; f0] [f1; f1] [fhalf].

(** Covering (1/4, 3/4): it matches, (1, 0) does not. *)
Example C22_example_csr :
  flt (cp_spread_min (demo_cpar COND_TYPE_HYPERRECTANGLE_CSR)) f0 = false /\ wf_rect K2 boxc /\
  match rect_cover K2 (demo_cpar COND_TYPE_HYPERRECTANGLE_CSR) boxc [lit 1 4; lit 3 4] (demo_rng 3) with Ok (c, _) => Some (map parts (r_b1 c), map parts (r_b2 c), rect_match K2 (demo_cpar COND_TYPE_HYPERRECTANGLE_CSR) c [lit 1 4; lit 3 4], rect_match K2 (demo_cpar COND_TYPE_HYPERRECTANGLE_CSR) c [f1; f0]) | _ => None end =
    Some ([Some (false, 4503599627370496%positive, -54); Some (false, 6755399441055744%positive, -53)], [Some (false, 8867750801275438%positive, -53); Some (false, 6780988285708278%positive, -53)], Ok true, Ok true).
Proof. split; [reflexivity|split; [repeat split|vm_compute; reflexivity]]. Qed.

(** Covering (1/4, 3/4): it matches, (1, 0) does not. *)
Example C22_example_ubr :
  flt (cp_spread_min (demo_cpar COND_TYPE_HYPERRECTANGLE_UBR)) f0 = false /\ wf_rect K2 boxc /\
  match rect_cover K2 (demo_cpar COND_TYPE_HYPERRECTANGLE_UBR) boxc [lit 1 4; lit 3 4] (demo_rng 3) with Ok (c, _) => Some (map parts (r_b1 c), map parts (r_b2 c), rect_match K2 (demo_cpar COND_TYPE_HYPERRECTANGLE_UBR) c [lit 1 4; lit 3 4], rect_match K2 (demo_cpar COND_TYPE_HYPERRECTANGLE_UBR) c [f1; f0]) | _ => None end =
    Some ([Some (true, 8728302347809884%positive, -55); Some (false, 4816876833295920%positive, -53)], [Some (false, 5642293956539387%positive, -53); Some (false, 4885571207778958%positive, -52)], Ok true, Ok false).
Proof. split; [reflexivity|split; [repeat split|vm_compute; reflexivity]]. Qed.
