(** * C52 Maze environment stays inside its grid. *)
From Coq Require Import ZArith Bool List Reals Lia.
From Flocq Require Import Core BinarySingleNaN.
From Verif Require Import Outcome F64 F64Facts F64Bounds Rng RngFacts Pop PopSpec PopInv PopTrial PopFit PopRL PopOps PopSeq Arr ArrFacts Env EnvFacts Cond Blas Pred Comp Demo DemoEx PropMulti PropEnv.
Import ListNotations.
Open Scope Z_scope.

(** Loading: at most 50 lines of at most 50 characters, each ended by a newline, and possibly an
    unfinished last line, load without any access outside the grid; the cells hold the characters.
    The height is the number of newlines (an unfinished last line is not counted), the width that of
    the last complete line. *)
Theorem C52_load :
  forall (rows : list (list Z)) (tail : list Z) (jx jy : Z) (jd : bool),
  rows <> [] ->
  Forall line rows ->
  len rows <= 50 ->
  line tail ->
  tail = [] \/ len rows < 50 ->
  exists e : maze,
    maze_init (text rows ++ tail) jx jy jd = Ok e /\
    mz_h e = len rows /\
    mz_w e = len (last rows []) /\
    (forall (j i : nat) (l : list Z) (c : Z),
     nth_error rows j = Some l ->
     nth_error l i = Some c -> cell (mz_grid e) (Z.of_nat i) (Z.of_nat j) = Ok c).
Proof. exact @C52_load_lemma. Qed.
Print Assumptions C52_load.

(** No other file loads successfully. *)
Theorem C52_load_only :
  forall (file : list Z) (jx jy : Z) (jd : bool) (e : maze),
  maze_init file jx jy jd = Ok e ->
  exists (rows : list (list Z)) (tail : list Z),
    file = text rows ++ tail /\
    rows <> [] /\ Forall line rows /\ len rows <= 50 /\ line tail /\ (tail = [] \/ len rows < 50).
Proof. exact @C52_load_only_lemma. Qed.
Print Assumptions C52_load_only.

(** REFUTED for the other files: the size check comes after the write, so a line of 51 characters or
    a character after 50 lines is written outside of the grid. *)
Theorem C52_load_refuted :
  maze_init (repeat ch_star 51) 0 0 false = UB OutOfBounds /\
  maze_init (repeat ch_nl 50 ++ [ch_star]) 0 0 false = UB OutOfBounds.
Proof. exact @C52_load_refuted_lemma. Qed.
Print Assumptions C52_load_refuted.

(** A rectangle of the characters * O G F Q gives a well-formed maze. *)
Theorem C52_rectangle :
  forall (rows : list (list Z)) (w jx jy : Z) (jd : bool),
  1 <= len rows <= 50 ->
  1 <= w <= 50 ->
  Forall (fun l : list Z => len l = w /\ Forall (fun c : Z => In c alphabet) l) rows ->
  exists e : maze,
    maze_init (text rows) jx jy jd = Ok e /\
    mz_w e = w /\
    mz_h e = len rows /\
    wf_maze e /\
    (forall x y : Z,
     0 <= x < w -> 0 <= y < len rows -> cell (mz_grid e) x y = Ok (at_ 0 (at_ [] rows y) x)).
Proof. exact @C52_rectangle_lemma. Qed.
Print Assumptions C52_rectangle.

(** Resetting a well-formed maze (if it ends, FO) places the agent inside, on an empty cell, not
    done; the grid is unchanged. *)
Theorem C52_reset :
  forall (FO : Prop) (fuel : nat) (e : maze),
  FO ->
  wf_maze e ->
  rpost FO (maze_place fuel e)
    (fun e' : maze =>
     in_maze e' /\
     cell (mz_grid e) (mz_x e') (mz_y e') = Ok ch_star /\
     mz_done e' = false /\ mz_grid e' = mz_grid e /\ mz_w e' = mz_w e /\ mz_h e' = mz_h e).
Proof. exact @maze_place_spec. Qed.
Print Assumptions C52_reset.

(** Every empty cell can be drawn. *)
Theorem C52_reset_all :
  forall (e : maze) (x y : Z),
  wf_maze e ->
  0 <= x < mz_w e ->
  0 <= y < mz_h e ->
  cell (mz_grid e) x y = Ok ch_star ->
  exists g g' : rng,
    maze_place 1 e g =
    Ok
      ({| mz_grid := mz_grid e; mz_x := x; mz_y := y; mz_w := mz_w e; mz_h := mz_h e; mz_done := false |},
       g').
Proof. exact @maze_placed. Qed.
Print Assumptions C52_reset_all.

(** FINDING: in a maze without an empty cell resetting never ends. *)
Theorem C52_reset_stuck :
  forall (fuel : nat) (e : maze) (g : rng),
  wf_maze e ->
  (forall x y : Z, 0 <= x < mz_w e -> 0 <= y < mz_h e -> cell (mz_grid e) x y <> Ok ch_star) ->
  maze_place fuel e g = OutOfFuel.
Proof. exact @maze_stuck. Qed.
Print Assumptions C52_reset_stuck.

(** Perception never leaves the grid: the eight neighbours in reading order, on the torus. *)
Theorem C52_sense :
  forall e : maze, in_maze e -> maze_get_state e = Ok (map (fun d : Z * Z => percept (seen e d)) around).
Proof. exact @maze_state_spec. Qed.
Print Assumptions C52_sense.

(** Moves wrap toroidally and stay inside; obstacles block without a reward; an empty cell is
    entered without a reward; food is entered, ends the trial and pays 1. Directions are clockwise
    from north. *)
Theorem C52_execute :
  forall (e : maze) (a : Z) (d : Z * Z),
  in_maze e ->
  0 <= a ->
  nth_error compass (Z.to_nat a) = Some d ->
  let x := (mz_x e + fst d) mod mz_w e in
  let y := (mz_y e + snd d) mod mz_h e in
  0 <= x < mz_w e /\
  0 <= y < mz_h e /\
  (exists c : Z,
     cell (mz_grid e) x y = Ok c /\
     In c alphabet /\
     (c = ch_O \/ c = ch_Q -> maze_execute e a = Ok (e, f0)) /\
     (c = ch_star -> maze_execute e a = Ok (moved e x y (mz_done e), f0)) /\
     (c = ch_F \/ c = ch_G -> maze_execute e a = Ok (moved e x y true, f1))).
Proof. exact @maze_execute_spec. Qed.
Print Assumptions C52_execute.

(** A well-formed maze meets the contract of environments, so all theorems about trials and
    sequences of operations hold for it (C01, C53, ...). *)
Theorem C52_environment :
  forall (FO : Prop) (K : cfg) (dom : list f64 -> Prop) (fuel : nat),
  FO ->
  x_dim K = 8 ->
  n_actions K = 8 ->
  (forall x : list f64, len x = 8 -> Forall (fin_in 0 1) x -> dom x) ->
  env_ok (dom := dom) FO K (maze_env fuel) wf_maze.
Proof. exact @maze_env_ok. Qed.
Print Assumptions C52_environment.

(** A maze of three by two cells. *)
Example C52_example :
  wf_maze small_maze /\ in_maze small_maze /\ Forall line small /\ len small <= 50 /\
  map (fun d => seen small_maze d) around = [ch_star; ch_star; ch_F; ch_O; ch_Q; ch_star; ch_star; ch_F] /\
  map (fun a => match maze_execute small_maze a with Ok (e, r) => Some (mz_x e, mz_y e, mz_done e, to_int r) | _ => None end) [0; 1; 2; 3; 6] =
    [Some (1, 1, false, Some 0); Some (2, 1, true, Some 1); Some (1, 0, false, Some 0); Some (2, 1, true, Some 1); Some (1, 0, false, Some 0)].
Proof.
  split; [apply small_wf|]. split; [split; [apply small_wf|cbn; lia]|].
  split; [|split; [unfold len; cbn; lia|split; vm_compute; reflexivity]].
  repeat (apply Forall_cons; [split; [unfold len; cbn; lia|cbn; unfold ch_nl, ch_star, ch_O, ch_F, ch_Q; lia]|]). apply Forall_nil.
Qed.

(** A trial in it by a new system. *)
Example C52_trial_example :
  cfg_ok (Kenv 8 8) 0 /\ vt_ok (dom := any_x) True (rect_tab (Kenv 8 8)) (Kenv 8 8) (rect_wf (Kenv 8 8)) (rect_mt (Kenv 8 8)) /\
  exists s, Good (Kenv 8 8) 0 0 (rect_wf (Kenv 8 8)) s /\
    run (rl_trial (rect_tab (Kenv 8 8)) (Kenv 8 8) (maze_env 100) small_maze true) s
      (fun r s' => (mz_x (fst (fst r)), mz_y (fst (fst r)), mz_done (fst (fst r)), to_int (snd (fst r)))) = Some (2, 1, true, Some 1).
Proof.
  split; [apply Kenv_ok; unfold int_max; lia|]. split; [apply Venv_ok; unfold int_max; lia|].
  apply (look_new 8 8 5); [unfold int_max; lia|unfold int_max; lia|vm_compute; reflexivity].
Qed.
