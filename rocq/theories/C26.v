(** * C26 Self-adaptive mutation rates stay in their range. *)
From Coq Require Import ZArith Bool List Reals.
From Flocq Require Import Core BinarySingleNaN.
From Verif Require Import Outcome F64 F64Facts F64Bounds Rng RngFacts Pop Arr ArrFacts Sam SamFacts Cond TernFacts RectFacts EllipFacts RandInt PropTern PropBox PropGrow PropRefCond Demo.
Import ListNotations.
Open Scope Z_scope.

(** Initialisation followed by any number of adaptations always succeeds and leaves every rate
    between 0.0005 and 1 ([rate_ok], SamFacts). *)
Theorem C26_rates :
  forall K : cfg,
  libm_ok (lm K) ->
  forall (n : nat) (types : list Z),
  Forall scheme_ok types ->
  rt gen_ok (mu <- sam_init types;; sam_adapts K n types mu)
    (fun mu : list f64 => length mu = length types /\ Forall rate_ok mu).
Proof. exact @C26_lemma. Qed.
Print Assumptions C26_rates.

(** One adaptation of any rates in range. *)
Theorem C26_step :
  forall K : cfg,
  libm_ok (lm K) ->
  forall (types : list Z) (mu : list f64),
  Forall scheme_ok types ->
  length mu = length types ->
  Forall rate_ok mu ->
  rt gen_ok (sam_adapt (lm K) types mu)
    (fun mu' : list f64 => length mu' = length types /\ Forall rate_ok mu').
Proof. exact @C26_step_lemma. Qed.
Print Assumptions C26_step.

(** Five adaptations under the three schemes. *)
Example C26_example :
  libm_ok (lm K2) /\ Forall scheme_ok [SAM_LOG_NORMAL; SAM_RATE_SELECT; SAM_UNIFORM] /\
  match (mu <- sam_init [SAM_LOG_NORMAL; SAM_RATE_SELECT; SAM_UNIFORM] ;; sam_adapts K2 5 [SAM_LOG_NORMAL; SAM_RATE_SELECT; SAM_UNIFORM] mu)%rng (demo_rng 1) with Ok (mu, _) => Some (map parts mu) | _ => None end =
    Some [Some (false, 5339041889680512%positive, -54); Some (false, 5764607523034235%positive, -60); Some (false, 8852334000031190%positive, -53)].
Proof. split; [exact demo_libm_ok|split; [repeat (apply Forall_cons; [unfold scheme_ok; auto|]); apply Forall_nil|vm_compute; reflexivity]]. Qed.
