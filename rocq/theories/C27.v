(** * C27 Rule actions are always valid. *)
From Coq Require Import ZArith Bool List Reals.
From Flocq Require Import Core BinarySingleNaN.
From Verif Require Import Outcome F64 F64Facts F64Bounds Rng RngFacts Pop Arr ArrFacts Sam SamFacts Cond TernFacts RectFacts EllipFacts RandInt PropTern PropBox PropGrow PropRefCond Demo PopSpec PopFit PopRL PopOps PopSeq DemoEx.
Import ListNotations.
Open Scope Z_scope.

(** An integer action obtained by any sequence of initialisation, covering, mutation and copying
    ([grown_act], PropGrow) is in range, and mutation always succeeds. *)
Theorem C27_integer :
  forall K : cfg,
  libm_ok (lm K) ->
  1 <= n_actions K <= int_max ->
  forall a : actint,
  grown_act K a ->
  0 <= actint_compute a < n_actions K /\
  Forall rate_ok (a_mu a) /\
  rt gen_ok (actint_mutate K a) (fun r : actint * bool => 0 <= actint_compute (fst r) < n_actions K).
Proof. exact @C27_lemma. Qed.
Print Assumptions C27_integer.

(** In any system of any representation, after any sequence of operations, every rule (in the
    population, or stored) has an action in range. *)
Theorem C27_population :
  forall (B : Type) (FO : Prop) (V : vtab B) (K : cfg) (kf : Z) (wf : B -> Prop)
    (mt : B -> list f64 -> Prop) (dom : list f64 -> Prop) (E : Type) (VE : env E) 
    (einv : E -> Prop),
  cfg_ok K kf ->
  vt_ok (dom := dom) FO V K wf mt ->
  (ea_tournament K = true -> FO) ->
  env_ok (dom := dom) FO K VE einv ->
  forall (os : list op) (s : st B),
  (forall l : loc, s_heap s l = None) ->
  Forall (op_ok (dom := dom) FO K kf wf einv) os ->
  costs K os <= 2 ^ 53 ->
  hpost FO ((xcsf_init V K;;; run_ops V K VE os) s)
    (fun (_ : unit) (s' : st B) =>
     forall (l : loc) (c : cl B), s_heap s' l = Some c -> 0 <= c_action c < n_actions K).
Proof. exact @C27_population_lemma. Qed.
Print Assumptions C27_population.

(** Seven actions; four random actions mutated. *)
Example C27_example :
  libm_ok (lm K2) /\
  map (fun seed => match (a <- actint_init (demo_cfg 7 1 8 false true false false) ;; actint_mutate (demo_cfg 7 1 8 false true false false) a)%rng (demo_rng seed) with Ok ((a, ch), _) => Some (actint_compute a, ch) | _ => None end) [1; 2; 3; 4] =
    [Some (2, false); Some (6, false); Some (6, true); Some (2, false)].
Proof. split; [exact demo_libm_ok|vm_compute; reflexivity]. Qed.
