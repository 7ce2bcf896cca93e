(** * Built-in problem environments: the real multiplexer and the mazes.

    /repo/xcsf/env_mux.c and /repo/xcsf/env_maze.c.  Memory from malloc is indeterminate:
    state cells and maze cells are [None] until written, and reading [None] is [UB Uninit]. *)
From Coq Require Import ZArith Bool List.
From Verif Require Import Outcome F64 Rng Arr Pop.
Import ListNotations.
Open Scope Z_scope.

(** Reading an initialised cell. *)
Definition rdi {A} (l : list (option A)) (i : Z) : outcome A :=
  (o <- rd l i ;; match o with Some v => Ok v | None => UB Uninit end)%out.

(** ** env_mux.h:32-35 struct EnvMux *)
Record mux := mkMux { mx_state : list (option f64); mx_pos : Z }.

Section Mux.
Context (lm : libm).

(** env_mux.c:48-50: [while (pos_bits + pow(2, pos_bits) <= bits) ++pos_bits] in double
    arithmetic. *)
Fixpoint mux_grow (fuel : nat) (bits p : Z) : outcome Z :=
  match fuel with
  | O => OutOfFuel
  | S k => if fle (fadd (of_Z p) (m_pow lm f2 (of_Z p))) (of_Z bits) then mux_grow k bits (p + 1) else Ok p
  end.

(** env_mux.c:43-56 env_mux_init: the environment and the x_dim passed to param_init
    (y_dim is 1, n_actions 2).  Allocation does not fail. *)
Definition mux_init (fuel : nat) (bits : Z) : outcome (mux * Z) :=
  (p' <- mux_grow fuel bits 1 ;;
   let p := p' - 1 in
   match to_int (m_pow lm f2 (of_Z p)) with
   | None => UB BadCast
   | Some q =>
       let n := p + q in
       if in_int n then Ok (mkMux (repeat None (Z.to_nat n)) p, n) else UB IntOverflow
   end)%out.

(** env_mux.c:75-83 env_mux_get_state: x_dim fresh uniform numbers. *)
Definition mux_get_state (x_dim : Z) (e : mux) : RM (mux * list f64) :=
  (st <- rfor x_dim (fun i st => u <- rand_uniform f0 f1 ;; lift (wr st i (Some u))) (mx_state e) ;;
   x <- lift (ofor x_dim (fun i x => (v <- rdi st i ;; Ok (x ++ [v]))%out) []) ;;
   ret (mkMux st (mx_pos e), x))%rng.

(** env_mux.c:91-103 env_mux_execute.  [env->state[i] > 0.5]. *)
Definition mux_execute (e : mux) (action : Z) : outcome f64 :=
  (pos <- ofor (mx_pos e) (fun i pos =>
            v <- rdi (mx_state e) i ;;
            if fgt v fhalf
            then match to_int (m_pow lm f2 (of_Z (mx_pos e - 1 - i))) with
                 | None => UB BadCast
                 | Some q => if in_int (pos + q) then Ok (pos + q) else UB IntOverflow
                 end
            else Ok pos) (mx_pos e) ;;
   v <- rdi (mx_state e) pos ;;
   let answer := if fgt v fhalf then 1 else 0 in
   Ok (if action =? answer then f1 else f0))%out.

(** env_mux.h env_mux_vtbl: reset does nothing (lines 109-113), always done (120-125), the
    maximum payoff is 1 (132-137), single-step (144-149). *)
Definition mux_env (x_dim : Z) : env mux := mkEnv mux
  (fun e => ret e) (mux_get_state x_dim)
  (fun e a => r <- lift (mux_execute e a) ;; ret (e, r))%rng
  (fun _ => true) (fun _ => f1) false.
End Mux.

(** ** env_maze.h:34-42 struct EnvMaze: maze[MAX_SIZE][MAX_SIZE] with MAX_SIZE = 50. *)
Definition max_size : Z := 50.
Definition grid := list (list (option Z)).
Record maze := mkMaze {
  mz_grid : grid;
  mz_x : Z;
  mz_y : Z;
  mz_w : Z;
  mz_h : Z;
  mz_done : bool
}.
Definition blank_grid : grid := repeat (repeat None 50) 50.

(** maze[y][x] *)
Definition cell (g : grid) (x y : Z) : outcome Z := (row <- rd g y ;; rdi row x)%out.
(** maze[y][x] = c *)
Definition put (g : grid) (x y c : Z) : outcome grid :=
  (row <- rd g y ;; row' <- wr row x (Some c) ;; wr g y row')%out.

(** Character codes. *)
Definition ch_nl : Z := 10.
Definition ch_star : Z := 42.
Definition ch_F : Z := 70.
Definition ch_G : Z := 71.
Definition ch_O : Z := 79.
Definition ch_Q : Z := 81.

(** env_maze.c:110-127: the reading loop; [w] is env->xsize, indeterminate before the first
    newline. *)
Fixpoint maze_read (file : list Z) (g : grid) (w : option Z) (x y : Z) : outcome (grid * option Z * Z) :=
  match file with
  | [] => Ok (g, w, y)
  | c :: rest =>
      if c =? ch_nl then
        if (0 >? max_size) || (y + 1 >? max_size) then Exit
        else maze_read rest g (Some x) 0 (y + 1)
      else
        (g' <- put g x y c ;;
         if (x + 1 >? max_size) || (y >? max_size) then Exit
         else maze_read rest g' w (x + 1) y)%out
  end.

(** env_maze.c:99-140 env_maze_init for a readable file with the given bytes (a file that
    cannot be opened or read ends the process).  The position and the flag are left
    indeterminate: [jx], [jy], [jd] stand for whatever memory contains.  An indeterminate
    width is reported when it is first used, which any use of the maze does. *)
Definition maze_init (file : list Z) (jx jy : Z) (jd : bool) : outcome maze :=
  (r <- maze_read file blank_grid None 0 0 ;;
   match r with
   | (g, None, _) => UB Uninit
   | (g, Some w, h) => Ok (mkMaze g jx jy w h jd)
   end)%out.

(** env_maze.c:158-167 env_maze_reset: random positions until an empty one is found. *)
Fixpoint maze_place (fuel : nat) (e : maze) : RM maze :=
  match fuel with
  | O => rfuel
  | S k =>
      (x <- rand_uniform_int 0 (mz_w e) ;;
       y <- rand_uniform_int 0 (mz_h e) ;;
       c <- lift (cell (mz_grid e) x y) ;;
       if c =? ch_star then ret (mkMaze (mz_grid e) x y (mz_w e) (mz_h e) false)
       else maze_place k e)%rng
  end.

(** [(v % n + n) % n] *)
Definition wrap (v n : Z) : outcome Z :=
  if n =? 0 then UB DivByZero else Ok (Z.rem (Z.rem v n + n) n).

(** env_maze.c:73-92 env_maze_sensor. *)
Definition maze_sensor (c : Z) : outcome f64 :=
  if c =? ch_star then Ok (lit 1 10)
  else if c =? ch_O then Ok (lit 3 10)
  else if c =? ch_G then Ok (lit 5 10)
  else if c =? ch_F then Ok (lit 7 10)
  else if c =? ch_Q then Ok (lit 9 10)
  else Exit.

(** env_maze.c:186-208 env_maze_get_state: the loops over y and x from -1 to 1, leaving out
    (0, 0), filling the eight cells of env->state in order. *)
Definition maze_get_state (e : maze) : outcome (list f64) :=
  (ofor 3 (fun j st =>
    ofor 3 (fun i st =>
      let x := i - 1 in
      let y := j - 1 in
      if (x =? 0) && (y =? 0) then Ok st
      else
        xs <- wrap (mz_x e + x) (mz_w e) ;;
        ys <- wrap (mz_y e + y) (mz_h e) ;;
        c <- cell (mz_grid e) xs ys ;;
        v <- maze_sensor c ;;
        Ok (st ++ [v])) st) [])%out.

(** env_maze.c:60-65 x_moves, y_moves. *)
Definition x_moves : list Z := [0; 1; 1; 1; 0; -1; -1; -1].
Definition y_moves : list Z := [-1; -1; 0; 1; 1; 1; 0; -1].

(** env_maze.c:216-251 env_maze_execute. *)
Definition maze_execute (e : maze) (action : Z) : outcome (maze * f64) :=
  (if (action <? 0) || (action >? 7) then Exit
   else
     dx <- rd x_moves action ;;
     dy <- rd y_moves action ;;
     nx <- wrap (mz_x e + dx) (mz_w e) ;;
     ny <- wrap (mz_y e + dy) (mz_h e) ;;
     c <- cell (mz_grid e) nx ny ;;
     if (c =? ch_O) || (c =? ch_Q) then Ok (e, f0)
     else if c =? ch_star then Ok (mkMaze (mz_grid e) nx ny (mz_w e) (mz_h e) (mz_done e), f0)
     else if (c =? ch_F) || (c =? ch_G) then Ok (mkMaze (mz_grid e) nx ny (mz_w e) (mz_h e) true, f1)
     else Exit)%out.

(** env_maze.h env_maze_vtbl: is_done (lines 174-179), the maximum payoff is 1 (258-263),
    multistep (270-275). *)
Definition maze_env (fuel : nat) : env maze := mkEnv maze
  (maze_place fuel)
  (fun e => x <- lift (maze_get_state e) ;; ret (e, x))%rng
  (fun e a => lift (maze_execute e a))%rng
  mz_done (fun _ => f1) true.
