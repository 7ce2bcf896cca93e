(** * C51 Multiplexer environment is correct. *)
From Coq Require Import ZArith Bool List Reals Lia.
From Flocq Require Import Core BinarySingleNaN.
From Verif Require Import Outcome F64 F64Facts F64Bounds Rng RngFacts Pop PopSpec PopInv PopTrial PopFit PopRL PopOps PopSeq Arr ArrFacts Env EnvFacts Cond Blas Pred Comp Demo DemoEx PropMulti PropEnv.
Import ListNotations.
Open Scope Z_scope.

(** Construction: p position bits and a state of p + 2^p entries. For a requested length of at least
    3 it is the largest multiplexer that fits; below 3 (including negative lengths) it has one entry
    and no position bits. *)
Theorem C51_init :
  forall lm : libm,
  pow2_exact lm ->
  forall (fuel : nat) (bits : Z),
  in_int bits = true ->
  31 <= Z.of_nat fuel ->
  exists p : Z,
    0 <= p <= 30 /\
    mux_init lm fuel bits =
    Ok ({| mx_state := repeat None (Z.to_nat (p + 2 ^ p)); mx_pos := p |}, p + 2 ^ p) /\
    (3 <= bits -> p + 2 ^ p <= bits < p + 1 + 2 ^ (p + 1)) /\ (bits < 3 -> p = 0).
Proof. exact @mux_init_spec. Qed.
Print Assumptions C51_init.

(** Perceiving: always succeeds, the whole state is filled with numbers strictly between 0 and 1,
    and exactly the state is returned. *)
Theorem C51_state :
  forall (n : Z) (e : mux),
  0 <= n ->
  len (mx_state e) = n ->
  rt (fun _ : rng => True) (mux_get_state n e)
    (fun r : mux * list f64 =>
     exists x : list f64,
       r = ({| mx_state := map Some x; mx_pos := mx_pos e |}, x) /\
       len x = n /\ Forall (fun v : f64 => is_finite v = true /\ (0 < B2R v < 1)%R) x).
Proof. exact @mux_state_spec. Qed.
Print Assumptions C51_state.

(** The address (the position bits as a binary number) falls inside the data bits; the reward is 1
    exactly when the action is the bit at that address, else 0. No state is changed (see mux_env).
    [high v] is v > 1/2; [mux_answer] is the bit at position p + address. *)
Theorem C51_execute :
  forall lm : libm,
  pow2_exact lm ->
  forall (p : Z) (x : list f64) (a : Z),
  0 <= p <= 30 ->
  len x = p + 2 ^ p ->
  0 <= address (map high (firstn (Z.to_nat p) x)) < 2 ^ p /\
  mux_execute lm {| mx_state := map Some x; mx_pos := p |} a = Ok (if a =? mux_answer p x then f1 else f0).
Proof. exact @mux_execute_spec. Qed.
Print Assumptions C51_execute.

(** The multiplexer meets the contract of environments, so all theorems about trials and sequences
    of operations hold for it (C01, C53, ...). *)
Theorem C51_environment :
  forall lm : libm,
  pow2_exact lm ->
  forall (FO : Prop) (K : cfg) (dom : list f64 -> Prop) (p : Z),
  0 <= p <= 30 ->
  x_dim K = p + 2 ^ p ->
  (forall x : list f64, len x = x_dim K -> Forall (fin_in 0 1) x -> dom x) ->
  env_ok (dom := dom) FO K (mux_env lm (x_dim K)) (mux_idle p).
Proof. exact @mux_env_ok. Qed.
Print Assumptions C51_environment.

(** A whole trial: it takes a single step, and reports 1 exactly when the action chosen by the
    system (decides) is the addressed bit of the random state. *)
Theorem C51_trial :
  forall (FO : Prop) (B : Type) (V : vtab B) (K : cfg) (kf : Z) (wf : B -> Prop)
    (mt : B -> list f64 -> Prop) (dom : list f64 -> Prop),
  cfg_ok K kf ->
  vt_ok (dom := dom) FO V K wf mt ->
  (ea_tournament K = true -> FO) ->
  y_dim K = 1 ->
  vla0_is_ub K = false ->
  forall (lm : libm) (p : Z),
  pow2_exact lm ->
  0 <= p <= 30 ->
  x_dim K = p + 2 ^ p ->
  (forall x : list f64, len x = x_dim K -> Forall (fin_in 0 1) x -> dom x) ->
  forall (N : Z) (e : mux) (explore : bool) (s : st B),
  FO ->
  mux_idle p e ->
  0 <= N ->
  1 <= TELETRANSPORTATION K ->
  N + 2 * TELETRANSPORTATION K <= 2 ^ 53 ->
  Good K kf N wf s ->
  hpost FO (rl_trial V K (mux_env lm (x_dim K)) e explore s)
    (fun (q : mux * f64 * f64) (s' : st B) =>
     let
     '(e', perf, _) := q in
      exists (x : list f64) (a : Z) (g g' : rng) (s1 : st B),
        len x = x_dim K /\
        Forall (fin_in 0 1) x /\
        0 <= a < n_actions K /\
        decides V K wf mt x a
          (with_rng g
             (with_set ASET empty_set
                (with_set MSET empty_set (begun K (with_explore explore (with_rng g' s)))))) s1 /\
        perf = (if a =? mux_answer p x then f1 else f0) /\
        mux_idle p e' /\ Good K kf (N + 2 * TELETRANSPORTATION K) wf s').
Proof. exact @C51_trial_lemma. Qed.
Print Assumptions C51_trial.

(** Seven bits asked for, six used; the address 10 selects the third data entry. *)
Example C51_example :
  pow2_exact pow_lm /\ in_int 7 = true /\
  match mux_init pow_lm 40 7 with Ok (e, n) => Some (mx_pos e, n, length (mx_state e)) | _ => None end = Some (2, 6, 6%nat) /\
  let x := [lit 3 4; lit 1 4; f0; f0; lit 9 10; f0] in
  len x = 2 + 2 ^ 2 /\ mux_answer 2 x = 1 /\
  map (fun a => match mux_execute pow_lm (mkMux (map Some x) 2) a with Ok r => to_int r | _ => None end) [0; 1] = [Some 0; Some 1].
Proof. split; [apply pow_lm_ok|]. repeat split; vm_compute; reflexivity. Qed.

(** A trial of the three-bit multiplexer by a new system. *)
Example C51_trial_example :
  cfg_ok (Kenv 3 2) 0 /\ vt_ok (dom := any_x) True (rect_tab (Kenv 3 2)) (Kenv 3 2) (rect_wf (Kenv 3 2)) (rect_mt (Kenv 3 2)) /\
  pow2_exact pow_lm /\ mux_idle 1 mux3 /\ x_dim (Kenv 3 2) = 1 + 2 ^ 1 /\
  exists s, Good (Kenv 3 2) 0 0 (rect_wf (Kenv 3 2)) s /\
    run (rl_trial (rect_tab (Kenv 3 2)) (Kenv 3 2) (mux_env pow_lm 3) mux3 true) s
      (fun r s' => (to_int (snd (fst r)), set_sz (s_pset s'), s_time s')) = Some (Some 0, 2, 1).
Proof.
  split; [apply Kenv_ok; unfold int_max; lia|]. split; [apply Venv_ok; unfold int_max; lia|]. split; [apply pow_lm_ok|].
  split; [split; reflexivity|]. split; [reflexivity|].
  apply (look_new 3 2 5); [unfold int_max; lia|unfold int_max; lia|vm_compute; reflexivity].
Qed.
