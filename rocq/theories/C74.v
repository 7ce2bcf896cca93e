(** * C74 Recurrent layers compute, learn, evolve and survive files as connected layers do. *)
From Coq Require Import ZArith Bool List Lia.
From Verif Require Import Outcome F64 Rng RngFacts Sam SamFacts PopSpec Arr ArrFacts Blas BlasFacts Act Layer LayerFacts PropMut Net NetFacts NetLayer File FileFacts Recur RecFacts PropRecur.
Import ListNotations.
Open Scope Z_scope.

(** Making a layer always succeeds. [rsound]: the three connected layers are sound, fit each other
    and the arrays; [rarg_ok]: parameters within the limits. *)
Theorem C74_init :
  forall (lm : libm) (a : largs) (g : rng),
  libm_ok lm ->
  gen_ok g ->
  rarg_ok a ->
  exists (r : rlayer f64) (g' : rng),
    recurrent_init lm a g = Ok (r, g') /\
    gen_ok g' /\
    rsound r /\
    counted r /\
    (l_n_inputs (r_l r), l_n_outputs (r_l r), l_max_outputs (r_l r), l_options (r_l r), l_function (r_l r)) =
    (la_n_inputs a, la_n_init a, la_n_max a, layer_args_opt a, la_function a) /\
    l_state (r_l r) = zeros f0 (la_n_init a) /\
    l_eta (r_l r) = l_eta (r_in r) /\
    l_eta (r_self r) = l_eta (r_in r) /\ l_eta (r_out r) = l_eta (r_in r).
Proof. exact @C74_init_lemma. Qed.
Print Assumptions C74_init.

(** The forward pass. [pre l x i] is the clamped weighted sum of neuron i; the input and self layers
    are linear. *)
Theorem C74_forward :
  forall (lm : libm) (r : rlayer f64) (x : list f64) (f : f64 -> f64),
  rsound r ->
  l_n_inputs (r_l r) <= len x ->
  (forall v : f64, neural_activate (f64_arith lm) (l_function (r_l r)) v = Ok (f v)) ->
  exists r' : rlayer f64,
    recurrent_forward (f64_arith lm) r x = Ok r' /\
    rsound r' /\
    (counted r -> counted r') /\
    same_net r r' /\
    r_prev r' = l_state (r_l r) /\
    (forall i : Z,
     0 <= i < l_n_outputs (r_l r) ->
     at_ f0 (l_state (r_l r')) i =
     fadd (pre (f64_arith lm) (r_in r) x i) (pre (f64_arith lm) (r_self r) (l_output (r_out r)) i)) /\
    (forall i : Z,
     0 <= i < l_n_outputs (r_l r) ->
     at_ f0 (l_output (r_out r')) i = f (pre (f64_arith lm) (r_out r) (l_state (r_l r')) i)).
Proof. exact @recurrent_forward_ok. Qed.
Print Assumptions C74_forward.

(** The backward pass: exactly what is added to the updates ([learned x]: error times x), the errors
    of the three layers, and that nothing else changes. *)
Theorem C74_backward :
  forall (lm : libm) (r : rlayer f64) (x : list f64) (od : option (list f64)) (g : f64 -> f64),
  rsound r ->
  l_n_inputs (r_l r) <= len x ->
  (forall d : list f64, od = Some d -> l_n_inputs (r_l r) <= len d) ->
  (forall v : f64, neural_gradient (f64_arith lm) (l_function (r_l r)) v = Ok (g v)) ->
  exists (r' : rlayer f64) (od' : option (list f64)),
    recurrent_backward (f64_arith lm) r x od = Ok (r', od') /\
    rsound r' /\
    (counted r -> counted r') /\
    same_net r r' /\
    (r_l r' = r_l r /\ r_prev r' = r_prev r /\ l_output (r_out r') = l_output (r_out r)) /\
    match od with
    | Some d => exists d' : list f64, od' = Some d' /\ len d' = len d
    | None => od' = None
    end /\
    (let n := l_n_outputs (r_l r) in
     (forall i : Z,
      0 <= i < n ->
      at_ f0 (l_delta (r_out r')) i =
      fmul (at_ f0 (l_delta (r_out r)) i) (g (at_ f0 (l_state (r_out r)) i))) /\
     (exists e : list f64,
        len e = n /\
        (forall j : Z,
         0 <= j < n ->
         at_ f0 e j =
         gemm_entry (a_num (f64_arith lm)) false false n (a_Z (f64_arith lm) 1) 
           (l_delta (r_out r')) n (l_weights (r_out r)) n (a_Z (f64_arith lm) 1) 0 j f0) /\
        (forall j : Z,
         0 <= j < n ->
         at_ f0 (l_delta (r_in r')) j = at_ f0 e j /\ at_ f0 (l_delta (r_self r')) j = at_ f0 e j))) /\
    learned x (r_in r) (r_in r') /\
    learned (r_prev r) (r_self r) (r_self r') /\ learned (l_state (r_l r)) (r_out r) (r_out r').
Proof. exact @recurrent_backward_ok. Qed.
Print Assumptions C74_backward.

(** Any sequence of forward passes, learning, randomising, mutations and copies: no fault. Only
    drawing a number of neurons to add may not end. *)
Theorem C74_life :
  forall (lm : libm) (fuel : nat) (a : largs) (os : list rop) (g : rng),
  libm_ok lm ->
  gen_ok g ->
  (1 <= fuel)%nat ->
  rarg_ok a ->
  Forall (rop_ok (la_n_inputs a)) os ->
  match rec_life lm fuel a os g with
  | Ok (r, g') =>
      rsound r /\
      l_n_inputs (r_l r) = la_n_inputs a /\ 1 <= l_n_outputs (r_l r) <= la_n_max a /\ gen_ok g'
  | OutOfFuel => True
  | _ => False
  end.
Proof. exact @C74_life_lemma. Qed.
Print Assumptions C74_life.

(** A copy computes, from then on, what a layer of the same weights computes whose last output is
    zero. *)
Theorem C74_copy :
  forall (lm : libm) (r : rlayer f64) (xs : list (list f64)),
  rsound r ->
  Forall (fun x : list f64 => l_n_inputs (r_l r) <= len x) xs ->
  exists c : rlayer f64,
    recurrent_copy r = Ok c /\
    rsound c /\
    same_net r c /\
    r_prev c = r_prev r /\
    l_state (r_l c) = zeros f0 (l_n_outputs (r_l r)) /\
    (forall r0 : rlayer f64,
     rsound r0 ->
     same_net r r0 ->
     l_output (r_out r0) = zeros f0 (l_n_outputs (r_l r)) ->
     exists q q' : rlayer f64,
       steps lm r0 xs = Ok q /\ steps lm c xs = Ok q' /\ recurrent_output q = recurrent_output q').
Proof. exact @C74_copy_lemma. Qed.
Print Assumptions C74_copy.

(** REFUTED that a copy computes what the original does: the last output is not copied. *)
Theorem C74_refuted_copy :
  exists (lm : libm) (r : rlayer f64) (x : list f64) (r1 r2 : rlayer f64) (y1 y2 : f64),
    rsound r /\
    steps lm r [x] = Ok r1 /\
    recurrent_copy r1 = Ok r2 /\
    first_output (steps lm r1 [x]) = Ok y1 /\ first_output (steps lm r2 [x]) = Ok y2 /\ feq y1 y2 = false.
Proof. exact @C74_copy_differs_lemma. Qed.
Print Assumptions C74_refuted_copy.

(** REFUTED that the backward pass computes the gradient: the self layer is trained with the
    previous state instead of the previous output. The output is an affine function of the self
    weight with slope 4, the update for the error 1 is 2. *)
Theorem C74_refuted_gradient :
  exists (lm : libm) (r : f64 -> rlayer f64) (x : list (list f64)),
    (forall w : f64, rsound (r w) /\ l_weights (r_self (r w)) = [w]) /\
    (forall w : f64,
     set_weights [] (r_self (r w)) = set_weights [] (r_self (r f0)) /\
     r_in (r w) = r_in (r f0) /\ r_out (r w) = r_out (r f0) /\ r_l (r w) = r_l (r f0)) /\
    (exists y0 y1 y2 : f64,
       first_output (steps lm (r f0) x) = Ok y0 /\
       first_output (steps lm (r f1) x) = Ok y1 /\
       first_output (steps lm (r (of_Z 2)) x) = Ok y2 /\
       feq (fsub y1 y0) (of_Z 4) = true /\ feq (fsub y2 y1) (of_Z 4) = true) /\
    (exists (q : rlayer f64) (u : f64),
       steps lm (r f1) x = Ok q /\
       self_update (rec_learn lm q (last x []) f1) = Ok u /\ feq u (of_Z 2) = true).
Proof. exact @C74_gradient_lemma. Qed.
Print Assumptions C74_refuted_gradient.

(** REFUTED that evolving the rate of learning keeps it in its range: the limits of the layer are
    zero, so any mutation makes the rate zero, and from then on learning changes nothing. *)
Theorem C74_refuted_rate :
  forall (lm : libm) (junk : f64) (fuel : nat) (r : rlayer f64) (g : rng) (r' : rlayer f64) 
    (b : bool) (g' : rng),
  (1 <= fuel)%nat ->
  rsound r ->
  has (r_l r) EVOLVE_ETA = true ->
  recurrent_mutate lm junk fuel r g = Ok (r', b, g') ->
  rsound r' /\
  flt f0 (l_eta (r_l r')) = false /\
  (forall q : rlayer f64, r_l q = r_l r' -> recurrent_update (f64_arith lm) q = Ok q).
Proof. exact @C74_eta_lemma. Qed.
Print Assumptions C74_refuted_rate.

(** Growth: the states of new neurons are whatever realloc returned. *)
Theorem C74_growth :
  forall (lm : libm) (junk : f64) (fuel : nat) (r : rlayer f64) (g : rng) (r' : rlayer f64) 
    (b : bool) (g' : rng),
  (1 <= fuel)%nat ->
  rsound r ->
  r_mutate_neurons lm junk fuel r g = Ok (r', b, g') ->
  rsound r' /\
  (forall i : Z,
   0 <= i < l_n_outputs (r_l r') ->
   at_ f0 (l_state (r_l r')) i = (if i <? l_n_outputs (r_l r) then at_ f0 (l_state (r_l r)) i else junk)).
Proof. exact @C74_growth_lemma. Qed.
Print Assumptions C74_growth.

(** REFUTED that learning is determined by the data: after growing, a pass and an update, the
    weights depend on these values. *)
Theorem C74_refuted_growth :
  exists (lm : libm) (r : rlayer f64) (x : list f64) (g : rng) (w1 w2 : list f64),
    rsound r /\
    grown_rec lm r x g f0 = Ok w1 /\
    grown_rec lm r x g f1 = Ok w2 /\ feq (at_ f0 w1 1) (at_ f0 w2 1) = false.
Proof. exact @C74_junk_lemma. Qed.
Print Assumptions C74_refuted_growth.

(** REFUTED that a layer read from a file works: all that is written is read again, but the pointer
    to the output stays NULL, and reading the output faults. *)
Theorem C74_refuted_load :
  forall r : rlayer f64,
  rsound r ->
  codec (recurrent_save r) recurrent_load (rec_restored r) /\
  recurrent_output (rec_restored r) = UB NullDeref.
Proof. exact @C74_load_lemma. Qed.
Print Assumptions C74_refuted_load.

(** Parameters that meet the limits; a life with every operation from them. *)
Definition rec_args : largs := mkLargs RECURRENT 1 1 3 1 LOGISTIC 0 0 0 0 0 0 f1 f0 f0 f0 f0 f0 true true true true true true.
Example C74_args : rarg_ok rec_args /\ Forall (rop_ok (la_n_inputs rec_args)) [RForward [f1]; RLearn [f1] (fun _ => f1); RMutate f0; RCopy; RForward [f1]] /\ (1 <= 9)%nat /\ gen_ok tape3.
Proof.
  split; [unfold rarg_ok; vm_compute; intuition congruence|]. split; [|split; [lia|intros Hf; discriminate Hf]].
  repeat (apply Forall_cons; [first [exact I|vm_compute; discriminate]|]). apply Forall_nil.
Qed.
Example C74_runs : match rec_life const_lm 9 rec_args [RForward [f1]; RLearn [f1] (fun _ => f1); RMutate f0; RCopy; RForward [f1]] tape3 with
  | Ok (r, _) => l_n_outputs (r_l r) = len (l_output (r_out r)) | _ => False end.
Proof. vm_compute. reflexivity. Qed.
(** Weights 1, 1 and 2, the input 1 twice: 2 and then 6. *)
Example C74_pass : rsound (rec_w f1) /\ match first_output (steps const_lm (rec_w f1) [[f1]]), first_output (steps const_lm (rec_w f1) twice) with
  | Ok a, Ok b => to_int a = Some 2 /\ to_int b = Some 6 | _, _ => False end.
Proof. split; [apply unit_sound; lia|]. vm_compute. auto. Qed.
Example C74_evolves : has (r_l (rec_w f1)) EVOLVE_ETA = false /\ has (r_l (unit_rec (2 ^ EVOLVE_ETA) 1 f1 f1 f1)) EVOLVE_ETA = true /\ rsound (unit_rec (2 ^ EVOLVE_ETA) 1 f1 f1 f1) /\
  match recurrent_mutate const_lm f0 9 (unit_rec (2 ^ EVOLVE_ETA) 1 f1 f1 f1) tape3 with Ok _ => True | _ => False end.
Proof. split; [reflexivity|]. split; [reflexivity|]. split; [apply unit_sound; lia|vm_compute; exact I]. Qed.
