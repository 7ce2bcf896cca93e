(** * C24 Hyperellipsoid covering matches and generality is inclusion. *)
From Coq Require Import ZArith Bool List Reals.
From Flocq Require Import Core BinarySingleNaN.
From Verif Require Import Outcome F64 F64Facts F64Bounds Rng RngFacts Pop Arr ArrFacts Sam SamFacts Cond TernFacts RectFacts EllipFacts RandInt PropTern PropBox PropGrow PropRefCond Demo.
Import ListNotations.
Open Scope Z_scope.

(** REFUTED: the generality test compares the tips of the axes only; here a point matched by the
    second is not matched by the first, although the first is reported more general. *)
Theorem C24_refuted :
  exists (K : cfg) (c1 c2 : ellip) (x : list f64),
    x_dim K = 2 /\
    wf_ellip K c1 /\
    wf_ellip K c2 /\
    len x = 2 /\
    Forall (fin_in 0 1) (e_center c1 ++ e_spread c1 ++ e_center c2 ++ e_spread c2 ++ x) /\
    ellip_general K c1 c2 = Ok true /\ ellip_match K c2 x = Ok true /\ ellip_match K c1 x = Ok false.
Proof. exact @C24_refuted_lemma. Qed.
Print Assumptions C24_refuted.

(** REFUTED for extents of zero (min = max and minimum spread 0): a covered ellipsoid does not
    match. *)
Theorem C24_refuted_cover :
  exists (K : cfg) (P : cpar) (c : ellip) (x : list f64) (g : rng) (c' : ellip) 
  (g' : rng),
    x_dim K = 2 /\
    fpos (cp_spread_min P) /\
    is_finite (cp_spread_min P) = true /\
    is_finite (spread_max P) = true /\
    wf_ellip K c /\
    len x = 2 /\
    Forall (fin_in 0 1) x /\ ellip_cover K P c x g = Ok (c', g') /\ ellip_match K c' x = Ok false.
Proof. exact @C24_flat_lemma. Qed.
Print Assumptions C24_refuted_cover.

(** Otherwise covering gives a condition that matches: finite input, minimum spread non-negative and
    finite, and it or the maximum spread at least the smallest normal number. *)
Theorem C24_cover :
  forall (K : cfg) (P : cpar),
  1 <= x_dim K ->
  forall (c : ellip) (x : list (f64)),
  wf_ellip K c ->
  len x = x_dim K ->
  Forall (fun v : f64 => is_finite v = true) x ->
  fpos (cp_spread_min P) ->
  is_finite (cp_spread_min P) = true ->
  nn (spread_max P) ->
  (dbl_min <= B2R (cp_spread_min P))%R \/ (dbl_min <= X (spread_max P))%R ->
  rt (fun _ : rng => True) (ellip_cover K P c x)
    (fun c' : ellip =>
     wf_ellip K c' /\ e_mu c' = e_mu c /\ ellip_match K c' x = Ok true /\ ellip_covered K P c' x).
Proof. exact @C24_cover_lemma. Qed.
Print Assumptions C24_cover.

(** Matching never fails and means the sum of squares, in double precision, is below 1 ([ball],
    EllipFacts). *)
Theorem C24_match :
  forall K : cfg,
  1 <= x_dim K ->
  forall (c : ellip) (x : list f64),
  wf_ellip K c ->
  len x = x_dim K -> exists b : bool, ellip_match K c x = Ok b /\ (b = true <-> ball K c x).
Proof. exact @C24_match_lemma. Qed.
Print Assumptions C24_match.

(** What the generality test decides. *)
Theorem C24_test :
  forall K : cfg,
  1 <= x_dim K ->
  forall c1 c2 : ellip,
  wf_ellip K c1 ->
  wf_ellip K c2 -> exists b : bool, ellip_general K c1 c2 = Ok b /\ (b = true <-> tips_near K c1 c2 0).
Proof. exact @C24_test_lemma. Qed.
Print Assumptions C24_test.

(** Inclusion does hold, in double precision, for equal centres and wider spreads. *)
Theorem C24_wider :
  forall K : cfg,
  1 <= x_dim K ->
  forall (c1 c2 : ellip) (x : list (f64)),
  wf_ellip K c1 ->
  wf_ellip K c2 ->
  len x = x_dim K ->
  Forall (fun v : f64 => is_finite v = true) x ->
  Forall (fun v : f64 => is_finite v = true) (e_center c2) ->
  wider K c1 c2 -> ellip_match K c2 x = Ok true -> ellip_match K c1 x = Ok true.
Proof. exact @C24_wider_lemma. Qed.
Print Assumptions C24_wider.

(** A circle of radius 1/2 matches a point at distance 1/4, is inside the unit circle and is reported so. *)
Example C24_example :
  wf_ellip K2 (circle f1) /\ wf_ellip K2 (circle fhalf) /\ wider K2 (circle f1) (circle fhalf) /\
  ellip_general K2 (circle f1) (circle fhalf) = Ok true /\ ellip_general K2 (circle fhalf) (circle f1) = Ok false /\
  ellip_match K2 (circle fhalf) [lit 1 4; fhalf] = Ok true /\ ellip_match K2 (circle fhalf) [f0; f0] = Ok false.
Proof. do 2 (split; [repeat split|]). split; [exact circles|]. repeat split; vm_compute; reflexivity. Qed.
