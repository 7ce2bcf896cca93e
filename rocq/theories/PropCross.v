(** * Recombination and mutation of conditions, actions, learning rates and mutation rates (C67). *)
From Coq Require Import ZArith Bool List Lia Reals Lra.
From Flocq Require Import Core BinarySingleNaN.
From Verif Require Import Outcome F64 F64Facts F64Bounds Rng RngFacts Pop PopSpec Arr ArrFacts Sam SamFacts Cond TernFacts RectFacts EllipFacts Pred PredFacts CompFacts PropGrow.
Import ListNotations.
Open Scope Z_scope.

(** [a] with a normally distributed step of deviation [m], corrected by [fx]. *)
Definition stepped (fx : f64 -> f64) (m a v : f64) : Prop := nudged normal_ok fx m a v.
(** A mutated ternary character: kept, specialised or generalised; never flipped. *)
Definition mutated_trit (a c : Z) : Prop :=
  c = a \/ (a <> DONT_CARE /\ c = DONT_CARE) \/ (a = DONT_CARE /\ (c = ch0 \/ c = ch1)).
(** One self-adapted rate. *)
Definition adapted (lm : libm) (type : Z) (m m' : f64) : Prop :=
  (type = SAM_LOG_NORMAL /\ exists z, normal_ok z /\ m' = clamp (fmul m (m_exp lm (fadd (fmul z f1) f0))) mu_epsilon f1) \/
  (type = SAM_RATE_SELECT /\ (m' = m \/ In m' mrates)) \/
  (type = SAM_UNIFORM /\ (m' = m \/ exists u, m' = fadd mu_epsilon (fmul (draw_value u) (fsub f1 mu_epsilon)))).

Section Cross.
Context (K : cfg) (P : cpar) (HX : 1 <= x_dim K) (LO : libm_ok (lm K)).
Notation xd := (x_dim K).
Notation SR := (src_normal_ok (lm K) LO).
Notation rtg := (rt gen_ok).

Lemma pick_rate_in : rtg pick_rate (fun m => In m mrates).
Proof.
  unfold pick_rate. eapply rt_bind; [apply (rt_uniform_int gen_ok (lm K) normal_ok SR 10); unfold int_max; lia|]. intros i Hi. cbv beta in Hi. assert (L : len mrates = 10) by reflexivity.
  eapply rt_lift; [apply (rd_ok f0); lia|]. unfold at_. apply nth_In. unfold len in L. lia.
Qed.
Lemma adapt1_spec t m : scheme_ok t -> rtg (sam_adapt1 (lm K) t m) (adapted (lm K) t m).
Proof.
  intros [-> |[-> | ->]]; unfold sam_adapt1; cbn [Z.eqb orb SAM_LOG_NORMAL SAM_RATE_SELECT SAM_UNIFORM].
  - eapply rt_bind; [apply (rt_normal gen_ok (lm K) normal_ok SR)|]. intros r (z & Zk & ->). apply rt_ret. left. eauto.
  - eapply rt_bind; [apply (rt_uniform gen_ok (lm K) normal_ok SR)|]. intros u _. destruct (flt u (lit 1 10)).
    + eapply rt_mono; [apply pick_rate_in|]. intros m' H. right. left. auto.
    + apply rt_ret. right. left. auto.
  - eapply rt_bind; [apply (rt_uniform gen_ok (lm K) normal_ok SR)|]. intros u _. destruct (flt u (lit 1 10)).
    + eapply rt_mono; [apply (rt_uniform gen_ok (lm K) normal_ok SR)|]. intros m' H. right. right. auto.
    + apply rt_ret. right. right. auto.
Qed.
Lemma C67_rates_lemma types : forall mu, Forall scheme_ok types -> length mu = length types ->
  rtg (sam_adapt (lm K) types mu) (fun mu' => Forall2 (fun t p => adapted (lm K) t (fst p) (snd p)) types (combine mu mu') /\ length mu' = length types).
Proof.
  induction types as [|t ts IH]; intros mu F L; destruct mu as [|m ms]; try discriminate.
  - apply rt_ret. split; [constructor|reflexivity].
  - cbn [sam_adapt]. inversion F as [|? ? S1 S2]; subst. eapply rt_bind; [apply adapt1_spec; exact S1|]. intros m' A.
    eapply rt_bind; [apply IH; [exact S2|cbn in L; lia]|]. intros ms' (B & L'). apply rt_ret. split; [|cbn; lia].
    cbn [combine]. constructor; [exact A|exact B].
Qed.

Lemma some_chance u p : u01 u -> flt u p = true -> flt f0 p = true.
Proof.
  intros (F & B) L. eapply fle_flt_trans; [|exact L]. unfold fle.
  rewrite Bleb_correct by (exact f0_fin || exact F). rewrite f0_R. apply Rle_bool_true. lra.
Qed.
(** Ternary strings. *)
Section T.
Context (HB : 1 <= cp_bits P <= 31).
Lemma C67_ternary_lemma c1 c2 :
  len (t_string c1) = xd * cp_bits P -> len (t_string c2) = xd * cp_bits P ->
  Forall trit (t_string c1) -> Forall trit (t_string c2) -> length (t_mu c1) = 1%nat -> length (t_mu c2) = 1%nat ->
  Forall rate_ok (t_mu c1) ->
  rtg (ternary_crossover P c1 c2) (fun r => let '(d1, d2, ch) := r in
    exchanged 0 (xd * cp_bits P) (t_string c1) (t_string c2) (t_string d1) (t_string d2) /\
    len (t_string d1) = xd * cp_bits P /\ len (t_string d2) = xd * cp_bits P /\
    t_mu d1 = t_mu c1 /\ t_mu d2 = t_mu c2 /\ (ch = false -> d1 = c1 /\ d2 = c2) /\
    (ch = true -> flt f0 (ea_p_crossover P) = true /\ exists i, 0 <= i < xd * cp_bits P /\
       at_ 0 (t_string d1) i = at_ 0 (t_string c2) i /\ at_ 0 (t_string d2) i = at_ 0 (t_string c1) i)) /\
  rtg (ternary_mutate K c1) (fun r => let '(d, ch) := r in
    len (t_string d) = xd * cp_bits P /\
    (forall i, 0 <= i < xd * cp_bits P -> mutated_trit (at_ 0 (t_string c1) i) (at_ 0 (t_string d) i)) /\
    (ch = true <-> t_string d <> t_string c1)).
Proof.
  intros L1 L2 F1 F2 M1 M2 R1. split.
  - eapply rt_mono; [exact (ternary_crossover_ok gen_ok K P normal_ok SR HX HB c1 c2 (conj L1 (conj F1 M1)) (conj L2 (conj F2 M2)))|].
    intros [[d1 d2] ch] ((D1 & _) & (D2 & _) & E1 & E2 & X & U & T). repeat (split; [assumption|]). intros Hc. destruct (T Hc) as ((u & Hu & Hp) & Y). split; [exact (some_chance u _ Hu Hp)|exact Y].
  - eapply rt_mono; [exact (ternary_mutate_gen gen_ok K P normal_ok SR HX HB (Forall rate_ok) c1 (conj L1 (conj F1 M1)) (adapt1 K LO _ M1 R1))|].
    intros [d ch] ((D1 & _) & _ & X & U). split; [exact D1|]. split; [|exact U]. intros i Hi. unfold mutated_trit.
    destruct (X i Hi) as [(-> & _)|(_ & A & B)]; [auto|].
    destruct (Z.eq_dec (at_ 0 (t_string c1) i) DONT_CARE) as [E|N]; [|auto].
    right. right. split; [exact E|]. destruct (B E) as [(-> & _)|(-> & _)]; auto.
Qed.
End T.

(** Hyperrectangles and hyperellipsoids. *)
Lemma C67_rectangle_lemma c1 c2 :
  len (r_b1 c1) = xd -> len (r_b2 c1) = xd -> length (r_mu c1) = 1%nat ->
  len (r_b1 c2) = xd -> len (r_b2 c2) = xd -> length (r_mu c2) = 1%nat -> Forall rate_ok (r_mu c1) ->
  rtg (rect_crossover K P c1 c2) (fun r => let '(d1, d2, ch) := r in
    exchanged f0 xd (r_b1 c1) (r_b1 c2) (r_b1 d1) (r_b1 d2) /\ exchanged f0 xd (r_b2 c1) (r_b2 c2) (r_b2 d1) (r_b2 d2) /\
    len (r_b1 d1) = xd /\ len (r_b2 d1) = xd /\ len (r_b1 d2) = xd /\ len (r_b2 d2) = xd /\
    r_mu d1 = r_mu c1 /\ r_mu d2 = r_mu c2 /\ (ch = false -> d1 = c1 /\ d2 = c2) /\
    (ch = true -> flt f0 (ea_p_crossover P) = true /\ exists i, 0 <= i < xd /\
       ((at_ f0 (r_b1 d1) i = at_ f0 (r_b1 c2) i /\ at_ f0 (r_b1 d2) i = at_ f0 (r_b1 c1) i) \/
        (at_ f0 (r_b2 d1) i = at_ f0 (r_b2 c2) i /\ at_ f0 (r_b2 d2) i = at_ f0 (r_b2 c1) i)))) /\
  rtg (rect_mutate K P c1) (fun r => let '(d, ch) := r in
    Forall rate_ok (r_mu d) /\ len (r_b1 d) = xd /\ len (r_b2 d) = xd /\
    (forall i, 0 <= i < xd ->
      stepped (fun v => clamp v (cp_min P) (cp_max P)) (at_ f0 (r_mu d) 0) (at_ f0 (r_b1 c1) i) (at_ f0 (r_b1 d) i) /\
      stepped (fun v => if cp_type P =? COND_TYPE_HYPERRECTANGLE_CSR then fmax dbl_epsilon v else clamp v (cp_min P) (cp_max P))
        (at_ f0 (r_mu d) 0) (at_ f0 (r_b2 c1) i) (at_ f0 (r_b2 d) i)) /\
    (ch = true <-> exists i, 0 <= i < xd /\
       (feq (at_ f0 (r_b1 c1) i) (at_ f0 (r_b1 d) i) = false \/ feq (at_ f0 (r_b2 c1) i) (at_ f0 (r_b2 d) i) = false))).
Proof.
  intros L1 L2 M1 L3 L4 M2 R1. split.
  - eapply rt_mono; [exact (rect_crossover_ok gen_ok K P normal_ok SR HX c1 c2 (conj L1 (conj L2 M1)) (conj L3 (conj L4 M2)))|].
    intros [[d1 d2] ch] ((D1 & D2 & _) & (D3 & D4 & _) & E1 & E2 & X1 & X2 & U & T). repeat (split; [assumption|]). intros Hc. destruct (T Hc) as ((u & Hu & Hp) & Y). split; [exact (some_chance u _ Hu Hp)|exact Y].
  - eapply rt_mono; [exact (rect_mutate_gen gen_ok K P normal_ok SR HX (Forall rate_ok) c1 (conj L1 (conj L2 M1)) (adapt1 K LO _ M1 R1))|].
    intros [d ch] ((D1 & D2 & _) & Q & X & U). split; [exact Q|]. split; [exact D1|]. split; [exact D2|]. split; [exact X|exact U].
Qed.
Lemma C67_ellipsoid_lemma c1 c2 :
  len (e_center c1) = xd -> len (e_spread c1) = xd -> length (e_mu c1) = 1%nat ->
  len (e_center c2) = xd -> len (e_spread c2) = xd -> length (e_mu c2) = 1%nat -> Forall rate_ok (e_mu c1) ->
  rtg (ellip_crossover K P c1 c2) (fun r => let '(d1, d2, ch) := r in
    exchanged f0 xd (e_center c1) (e_center c2) (e_center d1) (e_center d2) /\
    exchanged f0 xd (e_spread c1) (e_spread c2) (e_spread d1) (e_spread d2) /\
    len (e_center d1) = xd /\ len (e_spread d1) = xd /\ len (e_center d2) = xd /\ len (e_spread d2) = xd /\
    e_mu d1 = e_mu c1 /\ e_mu d2 = e_mu c2 /\ (ch = false -> d1 = c1 /\ d2 = c2) /\
    (ch = true -> flt f0 (ea_p_crossover P) = true /\ exists i, 0 <= i < xd /\
       ((at_ f0 (e_center d1) i = at_ f0 (e_center c2) i /\ at_ f0 (e_center d2) i = at_ f0 (e_center c1) i) \/
        (at_ f0 (e_spread d1) i = at_ f0 (e_spread c2) i /\ at_ f0 (e_spread d2) i = at_ f0 (e_spread c1) i)))) /\
  rtg (ellip_mutate K P c1) (fun r => let '(d, ch) := r in
    Forall rate_ok (e_mu d) /\ len (e_center d) = xd /\ len (e_spread d) = xd /\
    (forall i, 0 <= i < xd ->
      stepped (fun v => clamp v (cp_min P) (cp_max P)) (at_ f0 (e_mu d) 0) (at_ f0 (e_center c1) i) (at_ f0 (e_center d) i) /\
      stepped (fun v => fmax dbl_epsilon v) (at_ f0 (e_mu d) 0) (at_ f0 (e_spread c1) i) (at_ f0 (e_spread d) i)) /\
    (ch = true <-> exists i, 0 <= i < xd /\
       (feq (at_ f0 (e_center c1) i) (at_ f0 (e_center d) i) = false \/ feq (at_ f0 (e_spread c1) i) (at_ f0 (e_spread d) i) = false))).
Proof.
  intros L1 L2 M1 L3 L4 M2 R1. split.
  - eapply rt_mono; [exact (ellip_crossover_ok gen_ok K P normal_ok SR HX c1 c2 (conj L1 (conj L2 M1)) (conj L3 (conj L4 M2)))|].
    intros [[d1 d2] ch] ((D1 & D2 & _) & (D3 & D4 & _) & E1 & E2 & X1 & X2 & U & T). repeat (split; [assumption|]). intros Hc. destruct (T Hc) as ((u & Hu & Hp) & Y). split; [exact (some_chance u _ Hu Hp)|exact Y].
  - eapply rt_mono; [exact (ellip_mutate_gen gen_ok K P normal_ok SR HX (Forall rate_ok) c1 (conj L1 (conj L2 M1)) (adapt1 K LO _ M1 R1))|].
    intros [d ch] ((D1 & D2 & _) & Q & X & U). split; [exact Q|]. split; [exact D1|]. split; [exact D2|]. split; [exact X|exact U].
Qed.
(** The gradient update of centres. *)
Lemma C67_centres_lemma :
  (forall c x, len (r_b1 c) = xd -> len (r_b2 c) = xd -> length (r_mu c) = 1%nat -> len x = xd ->
    exists c', rect_update K P c x = Ok c' /\ len (r_b1 c') = xd /\ r_b2 c' = r_b2 c /\ r_mu c' = r_mu c /\
      forall i, 0 <= i < xd -> at_ f0 (r_b1 c') i =
        if (cp_type P =? COND_TYPE_HYPERRECTANGLE_CSR) && flt f0 (cp_eta P)
        then fadd (at_ f0 (r_b1 c) i) (fmul (cp_eta P) (fsub (at_ f0 x i) (at_ f0 (r_b1 c) i))) else at_ f0 (r_b1 c) i) /\
  (forall c x, len (e_center c) = xd -> len (e_spread c) = xd -> length (e_mu c) = 1%nat -> len x = xd ->
    exists c', ellip_update K P c x = Ok c' /\ len (e_center c') = xd /\ e_spread c' = e_spread c /\ e_mu c' = e_mu c /\
      forall i, 0 <= i < xd -> at_ f0 (e_center c') i =
        if flt f0 (cp_eta P)
        then fadd (at_ f0 (e_center c) i) (fmul (cp_eta P) (fsub (at_ f0 x i) (at_ f0 (e_center c) i))) else at_ f0 (e_center c) i).
Proof.
  split; intros c x L1 L2 M L.
  - destruct (rect_update_ok K P HX c x (conj L1 (conj L2 M)) L) as (c' & E & (D1 & _) & (U1 & U2 & U3)).
    exists c'. split; [exact E|]. split; [exact D1|]. split; [exact U1|]. split; [exact U2|]. intros i Hi.
    destruct ((cp_type P =? COND_TYPE_HYPERRECTANGLE_CSR) && flt f0 (cp_eta P)); [apply U3; exact Hi|now rewrite U3].
  - destruct (ellip_update_ok K P HX c x (conj L1 (conj L2 M)) L) as (c' & E & (D1 & _) & (U1 & U2 & U3)).
    exists c'. split; [exact E|]. split; [exact D1|]. split; [exact U1|]. split; [exact U2|]. intros i Hi.
    destruct (flt f0 (cp_eta P)); [apply U3; exact Hi|now rewrite U3].
Qed.
(** Integer actions and the learning rate of a linear prediction. *)
Lemma C67_action_lemma c : 1 <= n_actions K <= int_max ->
  0 <= a_action c < n_actions K -> length (a_mu c) = 1%nat -> Forall rate_ok (a_mu c) ->
  rtg (actint_mutate K c) (fun r => let '(d, ch) := r in
    0 <= a_action d < n_actions K /\ Forall rate_ok (a_mu d) /\ (ch = true <-> a_action d <> a_action c)).
Proof.
  intros HN A M R. eapply rt_mono; [exact (actint_mutate_gen gen_ok K normal_ok SR HN (Forall rate_ok) c (conj A M) (adapt1 K LO _ M R))|].
  intros [d ch] ((D & _) & Q & X & _). auto.
Qed.
Lemma C67_eta_lemma (R : ppar) c : 1 <= y_dim K ->
  wf_nlms K R c -> Forall rate_ok (nl_mu c) ->
  rtg (nlms_mutate K R c) (fun r => let '(d, ch) := r in
    nl_weights d = nl_weights c /\
    (ch = true <-> pp_evolve_eta R = true /\ feq (nl_eta c) (nl_eta d) = false) /\
    if pp_evolve_eta R then Forall rate_ok (nl_mu d) /\
      stepped (fun v => clamp v (pp_eta_min R) (pp_eta R)) (at_ f0 (nl_mu d) 0) (nl_eta c) (nl_eta d)
    else d = c).
Proof.
  intros HY W R1. eapply rt_mono; [refine (nlms_mutate_gen gen_ok K R normal_ok SR (Forall rate_ok) c W _)|].
  - intros _. exact (adapt1 K LO _ (proj1 (proj2 (proj2 W))) R1).
  - intros [d ch] (_ & Wt & _ & X & Y). split; [exact Wt|]. split; [exact X|]. exact Y.
Qed.
End Cross.
