(** * C25 Mutation and crossover keep conditions well formed. *)
From Coq Require Import ZArith Bool List Reals.
From Flocq Require Import Core BinarySingleNaN.
From Verif Require Import Outcome F64 F64Facts F64Bounds Rng RngFacts Pop Arr ArrFacts Sam SamFacts Cond TernFacts RectFacts EllipFacts RandInt PropTern PropBox PropGrow PropRefCond Demo.
Import ListNotations.
Open Scope Z_scope.

(** A ternary condition obtained by any sequence of initialisation, copying, covering, crossover and
    mutation ([grown_tern], PropGrow), with any random draws: length, characters, mutation rate; and
    the next operation always succeeds. *)
Theorem C25_ternary :
  forall (K : cfg) (P : cpar),
  1 <= x_dim K ->
  libm_ok (lm K) ->
  1 <= cp_bits P <= 31 ->
  m_pow (lm K) f2 (of_Z (cp_bits P)) = of_Z (2 ^ cp_bits P) ->
  forall c : ternary,
  grown_tern K P c ->
  len (t_string c) = x_dim K * cp_bits P /\
  Forall trit (t_string c) /\
  length (t_mu c) = 1%nat /\
  Forall rate_ok (t_mu c) /\
  (forall x : list f64,
   len x = x_dim K -> Forall nn x -> rt gen_ok (ternary_cover K P c x) (grown_tern K P)) /\
  (forall c2 : ternary,
   grown_tern K P c2 ->
   rt gen_ok (ternary_crossover P c c2)
     (fun r : ternary * ternary * bool => grown_tern K P (fst (fst r)) /\ grown_tern K P (snd (fst r)))) /\
  rt gen_ok (ternary_mutate K c) (fun r : ternary * bool => grown_tern K P (fst r)).
Proof. exact @C25_ternary_lemma. Qed.
Print Assumptions C25_ternary.

(** A hyperrectangle so obtained ([grown_rect]): lengths; in centre-spread form centres finite and
    within the configured range and spreads not negative, in unordered-bound form no NaN; and the
    next operation always succeeds. Directly after mutation the bounds are within the range and the
    spreads positive ([clamped]). *)
Theorem C25_rectangle :
  forall (K : cfg) (P : cpar),
  1 <= x_dim K ->
  libm_ok (lm K) ->
  is_finite (cp_min P) = true ->
  is_finite (cp_max P) = true ->
  (B2R (cp_min P) <= B2R (cp_max P))%R ->
  is_finite (fsub (cp_max P) (cp_min P)) = true ->
  fpos (cp_spread_min P) ->
  is_finite (cp_spread_min P) = true ->
  forall c : rect,
  grown_rect K P c ->
  len (r_b1 c) = x_dim K /\
  len (r_b2 c) = x_dim K /\
  length (r_mu c) = 1%nat /\
  Forall rate_ok (r_mu c) /\
  ranges K P (r_b1 c) (r_b2 c) /\
  (forall x : list f64, x_in K P x -> rt gen_ok (rect_cover K P c x) (grown_rect K P)) /\
  (forall c2 : rect,
   grown_rect K P c2 ->
   rt gen_ok (rect_crossover K P c c2)
     (fun r : rect * rect * bool => grown_rect K P (fst (fst r)) /\ grown_rect K P (snd (fst r)))) /\
  rt gen_ok (rect_mutate K P c) (fun r : rect * bool => grown_rect K P (fst r) /\ clamped K P (fst r)).
Proof. exact @C25_rectangle_lemma. Qed.
Print Assumptions C25_rectangle.

(** The same for hyperellipsoids. *)
Theorem C25_ellipsoid :
  forall (K : cfg) (P : cpar),
  1 <= x_dim K ->
  libm_ok (lm K) ->
  is_finite (cp_min P) = true ->
  is_finite (cp_max P) = true ->
  (B2R (cp_min P) <= B2R (cp_max P))%R ->
  is_finite (fsub (cp_max P) (cp_min P)) = true ->
  fpos (cp_spread_min P) ->
  is_finite (cp_spread_min P) = true ->
  forall c : ellip,
  grown_ellip K P c ->
  len (e_center c) = x_dim K /\
  len (e_spread c) = x_dim K /\
  length (e_mu c) = 1%nat /\
  Forall rate_ok (e_mu c) /\
  e_ranges K P (e_center c) (e_spread c) /\
  (forall x : list f64, x_in K P x -> rt gen_ok (ellip_cover K P c x) (grown_ellip K P)) /\
  (forall c2 : ellip,
   grown_ellip K P c2 ->
   rt gen_ok (ellip_crossover K P c c2)
     (fun r : ellip * ellip * bool => grown_ellip K P (fst (fst r)) /\ grown_ellip K P (snd (fst r)))) /\
  rt gen_ok (ellip_mutate K P c)
    (fun r : ellip * bool => grown_ellip K P (fst r) /\ e_clamped K P (fst r)).
Proof. exact @C25_ellipsoid_lemma. Qed.
Print Assumptions C25_ellipsoid.

(** Mathematical functions meeting the contract, a suitable range, and a random rectangle mutated. *)
Example C25_example :
  libm_ok (lm K2) /\ flt (cp_min (demo_cpar COND_TYPE_HYPERRECTANGLE_CSR)) (cp_max (demo_cpar COND_TYPE_HYPERRECTANGLE_CSR)) = true /\
  match (c <- rect_init K2 (demo_cpar COND_TYPE_HYPERRECTANGLE_CSR) ;; rect_mutate K2 (demo_cpar COND_TYPE_HYPERRECTANGLE_CSR) c)%rng (demo_rng 1) with Ok ((d, ch), _) => Some (map parts (r_b1 d), map parts (r_b2 d), ch) | _ => None end =
    Some ([Some (false, 8489927165207000%positive, -54); Some (false, 4503599627370496%positive, -52)], [Some (false, 5455658277650026%positive, -53); Some (false, 7610099011134721%positive, -53)], true).
Proof. split; [exact demo_libm_ok|split; [reflexivity|vm_compute; reflexivity]]. Qed.
