(** * C67 Crossover recombines and mutation perturbs by the rate. *)
From Coq Require Import ZArith Bool List Reals Lia Lra.
From Flocq Require Import Core BinarySingleNaN.
From Verif Require Import Outcome F64 F64Facts F64Bounds Rng RngFacts Pop PopSpec Arr ArrFacts Sam SamFacts Cond TernFacts RectFacts EllipFacts Pred PredFacts CompFacts PropGrow PropCross PropDraws Demo PropRefCond.
Import ListNotations.
Open Scope Z_scope.

(** Ternary strings: crossover keeps or exchanges each character; a mutation keeps a character,
    generalises a fixed one or specialises a wildcard; the returned flags say whether the strings
    changed. *)
Theorem C67_ternary :
  forall (K : cfg) (P : cpar),
  1 <= x_dim K ->
  libm_ok (lm K) ->
  1 <= cp_bits P <= 31 ->
  forall c1 c2 : ternary,
  len (t_string c1) = x_dim K * cp_bits P ->
  len (t_string c2) = x_dim K * cp_bits P ->
  Forall trit (t_string c1) ->
  Forall trit (t_string c2) ->
  length (t_mu c1) = 1%nat ->
  length (t_mu c2) = 1%nat ->
  Forall rate_ok (t_mu c1) ->
  rt gen_ok (ternary_crossover P c1 c2)
    (fun '(d1, d2, ch) =>
     exchanged 0 (x_dim K * cp_bits P) (t_string c1) (t_string c2) (t_string d1) (t_string d2) /\
     len (t_string d1) = x_dim K * cp_bits P /\
     len (t_string d2) = x_dim K * cp_bits P /\
     t_mu d1 = t_mu c1 /\
     t_mu d2 = t_mu c2 /\
     (ch = false -> d1 = c1 /\ d2 = c2) /\
     (ch = true ->
      flt f0 (ea_p_crossover P) = true /\
      (exists i : Z,
         0 <= i < x_dim K * cp_bits P /\
         at_ 0 (t_string d1) i = at_ 0 (t_string c2) i /\ at_ 0 (t_string d2) i = at_ 0 (t_string c1) i))) /\
  rt gen_ok (ternary_mutate K c1)
    (fun '(d, ch) =>
     len (t_string d) = x_dim K * cp_bits P /\
     (forall i : Z,
      0 <= i < x_dim K * cp_bits P -> mutated_trit (at_ 0 (t_string c1) i) (at_ 0 (t_string d) i)) /\
     (ch = true <-> t_string d <> t_string c1)).
Proof. exact @C67_ternary_lemma. Qed.
Print Assumptions C67_ternary.

(** Hyperrectangles: crossover keeps or exchanges each bound; mutation adds to each bound a normal
    variate times the adapted rate and corrects the range. *)
Theorem C67_rectangle :
  forall (K : cfg) (P : cpar),
  1 <= x_dim K ->
  libm_ok (lm K) ->
  forall c1 c2 : rect,
  len (r_b1 c1) = x_dim K ->
  len (r_b2 c1) = x_dim K ->
  length (r_mu c1) = 1%nat ->
  len (r_b1 c2) = x_dim K ->
  len (r_b2 c2) = x_dim K ->
  length (r_mu c2) = 1%nat ->
  Forall rate_ok (r_mu c1) ->
  rt gen_ok (rect_crossover K P c1 c2)
    (fun '(d1, d2, ch) =>
     exchanged f0 (x_dim K) (r_b1 c1) (r_b1 c2) (r_b1 d1) (r_b1 d2) /\
     exchanged f0 (x_dim K) (r_b2 c1) (r_b2 c2) (r_b2 d1) (r_b2 d2) /\
     len (r_b1 d1) = x_dim K /\
     len (r_b2 d1) = x_dim K /\
     len (r_b1 d2) = x_dim K /\
     len (r_b2 d2) = x_dim K /\
     r_mu d1 = r_mu c1 /\
     r_mu d2 = r_mu c2 /\
     (ch = false -> d1 = c1 /\ d2 = c2) /\
     (ch = true ->
      flt f0 (ea_p_crossover P) = true /\
      (exists i : Z,
         0 <= i < x_dim K /\
         (at_ f0 (r_b1 d1) i = at_ f0 (r_b1 c2) i /\ at_ f0 (r_b1 d2) i = at_ f0 (r_b1 c1) i \/
          at_ f0 (r_b2 d1) i = at_ f0 (r_b2 c2) i /\ at_ f0 (r_b2 d2) i = at_ f0 (r_b2 c1) i)))) /\
  rt gen_ok (rect_mutate K P c1)
    (fun '(d, ch) =>
     Forall rate_ok (r_mu d) /\
     len (r_b1 d) = x_dim K /\
     len (r_b2 d) = x_dim K /\
     (forall i : Z,
      0 <= i < x_dim K ->
      stepped (fun v : f64 => clamp v (cp_min P) (cp_max P)) (at_ f0 (r_mu d) 0) 
        (at_ f0 (r_b1 c1) i) (at_ f0 (r_b1 d) i) /\
      stepped
        (fun v : f64 =>
         if cp_type P =? COND_TYPE_HYPERRECTANGLE_CSR
         then fmax dbl_epsilon v
         else clamp v (cp_min P) (cp_max P)) (at_ f0 (r_mu d) 0) (at_ f0 (r_b2 c1) i) 
        (at_ f0 (r_b2 d) i)) /\
     (ch = true <->
      (exists i : Z,
         0 <= i < x_dim K /\
         (feq (at_ f0 (r_b1 c1) i) (at_ f0 (r_b1 d) i) = false \/
          feq (at_ f0 (r_b2 c1) i) (at_ f0 (r_b2 d) i) = false)))).
Proof. exact @C67_rectangle_lemma. Qed.
Print Assumptions C67_rectangle.

(** Hyperellipsoids. *)
Theorem C67_ellipsoid :
  forall (K : cfg) (P : cpar),
  1 <= x_dim K ->
  libm_ok (lm K) ->
  forall c1 c2 : ellip,
  len (e_center c1) = x_dim K ->
  len (e_spread c1) = x_dim K ->
  length (e_mu c1) = 1%nat ->
  len (e_center c2) = x_dim K ->
  len (e_spread c2) = x_dim K ->
  length (e_mu c2) = 1%nat ->
  Forall rate_ok (e_mu c1) ->
  rt gen_ok (ellip_crossover K P c1 c2)
    (fun '(d1, d2, ch) =>
     exchanged f0 (x_dim K) (e_center c1) (e_center c2) (e_center d1) (e_center d2) /\
     exchanged f0 (x_dim K) (e_spread c1) (e_spread c2) (e_spread d1) (e_spread d2) /\
     len (e_center d1) = x_dim K /\
     len (e_spread d1) = x_dim K /\
     len (e_center d2) = x_dim K /\
     len (e_spread d2) = x_dim K /\
     e_mu d1 = e_mu c1 /\
     e_mu d2 = e_mu c2 /\
     (ch = false -> d1 = c1 /\ d2 = c2) /\
     (ch = true ->
      flt f0 (ea_p_crossover P) = true /\
      (exists i : Z,
         0 <= i < x_dim K /\
         (at_ f0 (e_center d1) i = at_ f0 (e_center c2) i /\
          at_ f0 (e_center d2) i = at_ f0 (e_center c1) i \/
          at_ f0 (e_spread d1) i = at_ f0 (e_spread c2) i /\
          at_ f0 (e_spread d2) i = at_ f0 (e_spread c1) i)))) /\
  rt gen_ok (ellip_mutate K P c1)
    (fun '(d, ch) =>
     Forall rate_ok (e_mu d) /\
     len (e_center d) = x_dim K /\
     len (e_spread d) = x_dim K /\
     (forall i : Z,
      0 <= i < x_dim K ->
      stepped (fun v : f64 => clamp v (cp_min P) (cp_max P)) (at_ f0 (e_mu d) 0) 
        (at_ f0 (e_center c1) i) (at_ f0 (e_center d) i) /\
      stepped (fun v : f64 => fmax dbl_epsilon v) (at_ f0 (e_mu d) 0) (at_ f0 (e_spread c1) i)
        (at_ f0 (e_spread d) i)) /\
     (ch = true <->
      (exists i : Z,
         0 <= i < x_dim K /\
         (feq (at_ f0 (e_center c1) i) (at_ f0 (e_center d) i) = false \/
          feq (at_ f0 (e_spread c1) i) (at_ f0 (e_spread d) i) = false)))).
Proof. exact @C67_ellipsoid_lemma. Qed.
Print Assumptions C67_ellipsoid.

(** Updating a condition moves the centres towards the input by the learning rate and changes
    nothing else. *)
Theorem C67_centres :
  forall (K : cfg) (P : cpar),
  1 <= x_dim K ->
  (forall (c : rect) (x : list f64),
   len (r_b1 c) = x_dim K ->
   len (r_b2 c) = x_dim K ->
   length (r_mu c) = 1%nat ->
   len x = x_dim K ->
   exists c' : rect,
     rect_update K P c x = Ok c' /\
     len (r_b1 c') = x_dim K /\
     r_b2 c' = r_b2 c /\
     r_mu c' = r_mu c /\
     (forall i : Z,
      0 <= i < x_dim K ->
      at_ f0 (r_b1 c') i =
      (if (cp_type P =? COND_TYPE_HYPERRECTANGLE_CSR) && flt f0 (cp_eta P)
       then fadd (at_ f0 (r_b1 c) i) (fmul (cp_eta P) (fsub (at_ f0 x i) (at_ f0 (r_b1 c) i)))
       else at_ f0 (r_b1 c) i))) /\
  (forall (c : ellip) (x : list f64),
   len (e_center c) = x_dim K ->
   len (e_spread c) = x_dim K ->
   length (e_mu c) = 1%nat ->
   len x = x_dim K ->
   exists c' : ellip,
     ellip_update K P c x = Ok c' /\
     len (e_center c') = x_dim K /\
     e_spread c' = e_spread c /\
     e_mu c' = e_mu c /\
     (forall i : Z,
      0 <= i < x_dim K ->
      at_ f0 (e_center c') i =
      (if flt f0 (cp_eta P)
       then fadd (at_ f0 (e_center c) i) (fmul (cp_eta P) (fsub (at_ f0 x i) (at_ f0 (e_center c) i)))
       else at_ f0 (e_center c) i))).
Proof. exact @C67_centres_lemma. Qed.
Print Assumptions C67_centres.

(** Integer actions stay legal; the flag says whether the action changed. *)
Theorem C67_action :
  forall K : cfg,
  libm_ok (lm K) ->
  forall c : actint,
  1 <= n_actions K <= int_max ->
  0 <= a_action c < n_actions K ->
  length (a_mu c) = 1%nat ->
  Forall rate_ok (a_mu c) ->
  rt gen_ok (actint_mutate K c)
    (fun '(d, ch) =>
     0 <= a_action d < n_actions K /\ Forall rate_ok (a_mu d) /\ (ch = true <-> a_action d <> a_action c)).
Proof. exact @C67_action_lemma. Qed.
Print Assumptions C67_action.

(** Learning rates of linear predictions: a normal step, within the range; the weights are kept. *)
Theorem C67_eta :
  forall K : cfg,
  libm_ok (lm K) ->
  forall (R : ppar) (c : nlms),
  1 <= y_dim K ->
  wf_nlms K R c ->
  Forall rate_ok (nl_mu c) ->
  rt gen_ok (nlms_mutate K R c)
    (fun '(d, ch) =>
     nl_weights d = nl_weights c /\
     (ch = true <-> pp_evolve_eta R = true /\ feq (nl_eta c) (nl_eta d) = false) /\
     (if pp_evolve_eta R
      then
       Forall rate_ok (nl_mu d) /\
       stepped (fun v : f64 => clamp v (pp_eta_min R) (pp_eta R)) (at_ f0 (nl_mu d) 0) 
         (nl_eta c) (nl_eta d)
      else d = c)).
Proof. exact @C67_eta_lemma. Qed.
Print Assumptions C67_eta.

(** Self-adaptation of mutation rates, rate by rate. *)
Theorem C67_rates :
  forall K : cfg,
  libm_ok (lm K) ->
  forall (types : list Z) (mu : list f64),
  Forall scheme_ok types ->
  length mu = length types ->
  rt gen_ok (sam_adapt (lm K) types mu)
    (fun mu' : list f64 =>
     Forall2 (fun (t : Z) (p : f64 * f64) => adapted (lm K) t (fst p) (snd p)) types (combine mu mu') /\
     length mu' = length types).
Proof. exact @C67_rates_lemma. Qed.
Print Assumptions C67_rates.

(** Being drawn below one half: the low 52 bits of the word of the generator are in the lower half
    of their 2^52 values. *)
Theorem C67_half :
  forall m : Z, flt (u01 m) fhalf = low m.
Proof. exact @half_of_words. Qed.
Print Assumptions C67_half.

(** Which draw decides what. The first draw decides whether there is a crossover, the draw of its
    own of each character whether it is exchanged; nothing else is drawn. *)
Theorem C67_draws_ternary :
  forall (P : cpar) (c1 c2 : ternary) (g : rng),
  let n := len (t_string c1) in
  let u := fun k : Z => low (word g (1 + k)) in
  len (t_string c2) = n ->
  if flt (u01 (word g 0)) (ea_p_crossover P)
  then
   exists s1 s2 : list Z,
     ternary_crossover P c1 c2 g =
     Ok
       ({| t_string := s1; t_mu := t_mu c1 |}, {| t_string := s2; t_mu := t_mu c2 |}, 
        somewhere u n, skip (1 + n) g) /\ swapped 0 n u (t_string c1) (t_string c2) s1 s2
  else ternary_crossover P c1 c2 g = Ok (c1, c2, false, skip 1 g).
Proof. exact @ternary_draws. Qed.
Print Assumptions C67_draws_ternary.

(** Hyperrectangles: two draws for each dimension, the first for the first array (centre or lower
    bound), the second for the second. *)
Theorem C67_draws_rectangle :
  forall (K : cfg) (P : cpar) (c1 c2 : rect) (g : rng),
  let n := x_dim K in
  let u := fun k : Z => low (word g (1 + 2 * k)) in
  let v := fun k : Z => low (word g (2 + 2 * k)) in
  0 <= n ->
  len (r_b1 c1) = n ->
  len (r_b2 c1) = n ->
  len (r_b1 c2) = n ->
  len (r_b2 c2) = n ->
  if flt (u01 (word g 0)) (ea_p_crossover P)
  then
   exists d1 d2 : rect,
     rect_crossover K P c1 c2 g = Ok (d1, d2, somewhere (fun k : Z => u k || v k) n, skip (1 + 2 * n) g) /\
     swapped f0 n u (r_b1 c1) (r_b1 c2) (r_b1 d1) (r_b1 d2) /\
     swapped f0 n v (r_b2 c1) (r_b2 c2) (r_b2 d1) (r_b2 d2) /\ r_mu d1 = r_mu c1 /\ r_mu d2 = r_mu c2
  else rect_crossover K P c1 c2 g = Ok (c1, c2, false, skip 1 g).
Proof. exact @rect_draws. Qed.
Print Assumptions C67_draws_rectangle.

(** Hyperellipsoids likewise. *)
Theorem C67_draws_ellipsoid :
  forall (K : cfg) (P : cpar) (c1 c2 : ellip) (g : rng),
  let n := x_dim K in
  let u := fun k : Z => low (word g (1 + 2 * k)) in
  let v := fun k : Z => low (word g (2 + 2 * k)) in
  0 <= n ->
  len (e_center c1) = n ->
  len (e_spread c1) = n ->
  len (e_center c2) = n ->
  len (e_spread c2) = n ->
  if flt (u01 (word g 0)) (ea_p_crossover P)
  then
   exists d1 d2 : ellip,
     ellip_crossover K P c1 c2 g = Ok (d1, d2, somewhere (fun k : Z => u k || v k) n, skip (1 + 2 * n) g) /\
     swapped f0 n u (e_center c1) (e_center c2) (e_center d1) (e_center d2) /\
     swapped f0 n v (e_spread c1) (e_spread c2) (e_spread d1) (e_spread d2) /\
     e_mu d1 = e_mu c1 /\ e_mu d2 = e_mu c2
  else ellip_crossover K P c1 c2 g = Ok (c1, c2, false, skip 1 g).
Proof. exact @ellip_draws. Qed.
Print Assumptions C67_draws_ellipsoid.

(** Two strings recombined, one mutated. *)
Definition tern0 := mkTernary [48; 48; 48; 48] [fhalf].
Definition tern1 := mkTernary [49; 49; 35; 35] [fhalf].
Example C67_example_ternary : libm_ok (lm K2) /\ 1 <= cp_bits (demo_cpar 7) <= 31 /\
  len (t_string tern0) = x_dim K2 * cp_bits (demo_cpar 7) /\ Forall trit (t_string tern0) /\ Forall rate_ok (t_mu tern0) /\
  (match ternary_crossover (demo_cpar 7) tern0 tern1 (demo_rng 1) with Ok (d1, d2, ch, _) => Some (t_string d1, t_string d2, ch) | _ => None end = Some ([49; 48; 48; 35], [48; 49; 35; 48], true)) /\
  (match ternary_mutate K2 tern1 (demo_rng 5) with Ok (d, ch, _) => Some (t_string d, ch) | _ => None end = Some ([35; 49; 48; 35], true)).
Proof.
  split; [exact demo_libm_ok|]. split; [cbn; lia|]. split; [reflexivity|]. split; [repeat (apply Forall_cons; [unfold trit; auto|]); apply Forall_nil|].
  split; [apply Forall_cons; [unfold rate_ok; vm_compute; auto|apply Forall_nil]|]. split; vm_compute; reflexivity.
Qed.
(** Two hyperrectangles. *)
Definition rect0 := mkRect [lit 1 4; lit 1 4] [lit 1 8; lit 1 8] [fhalf].
Definition rect1 := mkRect [lit 3 4; lit 3 4] [lit 5 8; lit 5 8] [fhalf].
Example C67_example_rectangle :
  match rect_crossover K2 (demo_cpar 1) rect0 rect1 (demo_rng 1) with
  | Ok (d1, d2, ch, _) => Some (map (fun v => to_int (fmul (of_Z 8) v)) (r_b1 d1 ++ r_b2 d1 ++ r_b1 d2 ++ r_b2 d2), ch)
  | _ => None end = Some ([Some 6; Some 2; Some 1; Some 5; Some 2; Some 6; Some 5; Some 1], true).
Proof. vm_compute. reflexivity. Qed.
(** The draws behind the two examples: a crossover, and the positions with a draw below one half. *)
Example C67_example_draws :
  flt (u01 (word (demo_rng 1) 0)) (ea_p_crossover (demo_cpar 7)) = true /\
  map (fun k => low (word (demo_rng 1) (1 + k))) [0; 1; 2; 3] = [true; false; false; true] /\
  len (t_string tern0) = 4 /\ len (t_string tern1) = 4 /\
  somewhere (fun k => low (word (demo_rng 1) (1 + k))) 4 = true /\
  low 0 = true /\ low (2 ^ 51 - 1) = true /\ low (2 ^ 51) = false /\ low (2 ^ 52 - 1) = false.
Proof. repeat split; vm_compute; reflexivity. Qed.
