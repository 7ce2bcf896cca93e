(** * C21 Ternary conditions: covering matches, generality is inclusion. *)
From Coq Require Import ZArith Bool List Reals.
From Flocq Require Import Core BinarySingleNaN.
From Verif Require Import Outcome F64 F64Facts F64Bounds Rng RngFacts Pop Arr ArrFacts Sam SamFacts Cond TernFacts RectFacts EllipFacts RandInt PropTern PropBox PropGrow PropRefCond Demo.
Import ListNotations.
Open Scope Z_scope.

(** Covering always succeeds and gives a well-formed condition that matches the input; each
    character is the digit of the input or don't-care ([cover_char], TernFacts). Inputs may be
    infinite but not NaN; up to 31 bits. *)
Theorem C21_cover :
  forall (K : cfg) (P : cpar),
  1 <= x_dim K ->
  1 <= cp_bits P <= 31 ->
  m_pow (lm K) f2 (of_Z (cp_bits P)) = of_Z (2 ^ cp_bits P) ->
  forall (c : ternary) (x : list f64),
  wf_tern K P c ->
  len x = x_dim K ->
  Forall nn x ->
  rt (fun _ : rng => True) (ternary_cover K P c x)
    (fun c' : ternary =>
     wf_tern K P c' /\
     t_mu c' = t_mu c /\
     ternary_match K P c' x = Ok true /\
     (forall i j : Z,
      0 <= i < x_dim K ->
      0 <= j < cp_bits P -> cover_char P x i j (at_ 0 (t_string c') (i * cp_bits P + j)))).
Proof. exact @C21_cover_lemma. Qed.
Print Assumptions C21_cover.

(** Matching never fails and means that every fixed character agrees with the digit of the input
    ([accepts], TernFacts, is stated with the real value of the input). *)
Theorem C21_match :
  forall (K : cfg) (P : cpar),
  1 <= x_dim K ->
  1 <= cp_bits P <= 31 ->
  m_pow (lm K) f2 (of_Z (cp_bits P)) = of_Z (2 ^ cp_bits P) ->
  forall (c : ternary) (x : list f64),
  wf_tern K P c ->
  len x = x_dim K ->
  Forall nn x ->
  exists b : bool,
    ternary_match K P c x = Ok b /\ (b = true <-> accepts (x_dim K) (cp_bits P) (t_string c) x).
Proof. exact @C21_match_lemma. Qed.
Print Assumptions C21_match.

(** The generality test is exactly strict inclusion of the sets of matched inputs. *)
Theorem C21_general :
  forall (K : cfg) (P : cpar),
  1 <= x_dim K ->
  1 <= cp_bits P <= 31 ->
  m_pow (lm K) f2 (of_Z (cp_bits P)) = of_Z (2 ^ cp_bits P) ->
  forall c1 c2 : ternary,
  wf_tern K P c1 ->
  wf_tern K P c2 ->
  exists b : bool,
    ternary_general c1 c2 = Ok b /\
    (b = true <->
     (forall x : list (f64),
      len x = x_dim K ->
      Forall (fun v : f64 => is_finite v = true) x ->
      ternary_match K P c2 x = Ok true -> ternary_match K P c1 x = Ok true) /\
     (exists x : list (f64),
        len x = x_dim K /\
        Forall (fun v : f64 => is_finite v = true) x /\
        ternary_match K P c1 x = Ok true /\ ternary_match K P c2 x = Ok false)).
Proof. exact @C21_general_lemma. Qed.
Print Assumptions C21_general.

(** It is asymmetric, transitive, and only relates different strings. *)
Theorem C21_order :
  forall (K : cfg) (P : cpar),
  1 <= cp_bits P <= 31 ->
  forall c1 c2 c3 : ternary,
  wf_tern K P c1 ->
  wf_tern K P c2 ->
  wf_tern K P c3 ->
  (ternary_general c1 c2 = Ok true -> ternary_general c2 c1 = Ok false /\ t_string c1 <> t_string c2) /\
  (ternary_general c1 c2 = Ok true -> ternary_general c2 c3 = Ok true -> ternary_general c1 c3 = Ok true).
Proof. exact @C21_order_lemma. Qed.
Print Assumptions C21_order.

(** REFUTED for all bit widths: with 32 bits (which the setter accepts) matching an input in (0,1)
    converts an out-of-range double to int. *)
Theorem C21_refuted :
  exists (K : cfg) (P : cpar) (c : ternary) (x : list f64),
    x_dim K = 2 /\
    cp_bits P = 32 /\
    m_pow (lm K) f2 (of_Z 32) = of_Z (2 ^ 32) /\
    wf_tern K P c /\ len x = 2 /\ Forall (fin_in 0 1) x /\ ternary_match K P c x = UB BadCast.
Proof. exact @C21_wide_lemma. Qed.
Print Assumptions C21_refuted.

(** The same with a NaN input at any width. *)
Theorem C21_refuted_nan :
  exists (K : cfg) (P : cpar) (c : ternary) (x : list f64),
    x_dim K = 2 /\
    1 <= cp_bits P <= 31 /\
    m_pow (lm K) f2 (of_Z (cp_bits P)) = of_Z (2 ^ cp_bits P) /\
    wf_tern K P c /\ len x = 2 /\ ternary_match K P c x = UB BadCast.
Proof. exact @C21_nan_lemma. Qed.
Print Assumptions C21_refuted_nan.

(** 1#01 is more general than 1101 and not the converse; the former matches (3/4, 1/4) and (1/2, 1/4) but not (0, 1/4). *)
Example C21_example :
  let c1 := mkTernary [ch1; DONT_CARE; ch0; ch1] [fhalf] in let c2 := mkTernary [ch1; ch1; ch0; ch1] [fhalf] in
  wf_tern K2 (wide 2) c1 /\ wf_tern K2 (wide 2) c2 /\
  ternary_general c1 c2 = Ok true /\ ternary_general c2 c1 = Ok false /\
  map (ternary_match K2 (wide 2) c1) [[lit 3 4; lit 1 4]; [lit 1 2; lit 1 4]; [f0; lit 1 4]] = [Ok true; Ok true; Ok false] /\
  map (ternary_match K2 (wide 2) c2) [[lit 3 4; lit 1 4]; [lit 1 2; lit 1 4]] = [Ok true; Ok false].
Proof.
  cbv zeta. split; [|split; [|repeat split; vm_compute; reflexivity]];
    (split; [reflexivity|split; [repeat (apply Forall_cons; [unfold trit; auto|]); apply Forall_nil|reflexivity]]).
Qed.
(** Covering (3/4, 1/4) gives characters out of 11 01 and #. *)
Example C21_example_cover :
  m_pow (lm K2) f2 (of_Z 2) = of_Z (2 ^ 2) /\
  match ternary_cover K2 (wide 2) (blank_tern 2) [lit 3 4; lit 1 4] (demo_rng 3) with Ok (c, _) => Some (t_string c) | _ => None end =
    Some [49; 49; 35; 49].
Proof. split; [apply pow_wide|]; vm_compute; reflexivity. Qed.
