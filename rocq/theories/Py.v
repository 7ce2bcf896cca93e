(** * The Python wrapper: supervised fitting in epochs, callbacks, ownership of the cover array.
    pybind_wrapper.cpp, pybind_callback_earlystop.h, pybind_callback_checkpoint.h. *)
From Coq Require Import ZArith Bool List.
From Verif Require Import Outcome F64 Rng Pop Clock.
Import ListNotations.
Open Scope Z_scope.

(** ** Numpy arrays as arguments. *)

(** A numpy array of doubles in C order: its shape and its elements. *)
Record ndarray := mkNd { nd_shape : list Z; nd_data : list f64 }.
(** What numpy guarantees. *)
Definition nd_wf (a : ndarray) : Prop :=
  Forall (fun n => 0 <= n) (nd_shape a) /\ Z.of_nat (length (nd_data a)) = fold_right Z.mul 1 (nd_shape a).

(** A Python exception, or a value. *)
Inductive pyres (A : Type) := Raise | Return (a : A).
Arguments Raise {A}.
Arguments Return {A} a.

(** struct Input (xcsf.h:146-152) as the wrapper fills it in: pointers to the elements, and sizes. *)
Record pyinput := mkPyIn { pi_x : list f64; pi_y : list f64; pi_x_dim : Z; pi_y_dim : Z; pi_n : Z }.

(** pybind_wrapper.cpp:336-375 load_input.  Exceptions: the number of dimensions must be 1 or 2, the
    numbers of rows equal; the number of columns is compared only if there are two dimensions. *)
Definition load_input (x_dim y_dim : Z) (X Y : ndarray) : pyres pyinput :=
  let nx := Z.of_nat (length (nd_shape X)) in
  let ny := Z.of_nat (length (nd_shape Y)) in
  if (nx <? 1) || (2 <? nx) then Raise else
  if (ny <? 1) || (2 <? ny) then Raise else
  if negb (nth 0 (nd_shape X) 0 =? nth 0 (nd_shape Y) 0) then Raise else
  if (1 <? nx) && negb (nth 1 (nd_shape X) 0 =? x_dim) then Raise else
  if (1 <? ny) && negb (nth 1 (nd_shape Y) 0 =? y_dim) then Raise else
  Return (mkPyIn (nd_data X) (nd_data Y) x_dim y_dim (nth 0 (nd_shape X) 0)).

(** pybind_wrapper.cpp:586-598 predict, the check of its argument: the number of rows to predict. *)
Definition predict_rows_of (x_dim : Z) (X : ndarray) : pyres Z :=
  let nx := Z.of_nat (length (nd_shape X)) in
  if (nx <? 1) || (2 <? nx) then Raise else
  if (1 <? nx) && negb (nth 1 (nd_shape X) 0 =? x_dim) then Raise else
  Return (nth 0 (nd_shape X) 0).

(** &data->x[row * data->x_dim], and the x_dim elements read from there
    (xcs_supervised.c:107-108, 151, 167-168, 192-193). *)
Definition row_at (data : list f64) (dim row : Z) : outcome (list f64) :=
  if (row <? 0) || (Z.of_nat (length data) <? (row + 1) * dim) then UB OutOfBounds
  else Ok (firstn (Z.to_nat dim) (skipn (Z.to_nat (row * dim)) data)).

(** pybind_wrapper.cpp:224-242 fit(input, action, reward) and :286-299 decision: the size of the
    first dimension is compared, whatever the number of dimensions. *)
Definition state_arg (x_dim : Z) (X : ndarray) : pyres (list f64) :=
  match nd_shape X with
  | [] => Raise   (* shape[0] of a 0-D array: not modelled further *)
  | n :: _ => if negb (n =? x_dim) then Raise else Return (nd_data X)
  end.

(** ** Callbacks. *)

(** pybind_callback_earlystop.h: class EarlyStoppingCallback.  [es_val]: the monitored metric is
    "val" (otherwise "train").  verbose only prints. *)
Record early := mkEarly {
  es_val : bool; es_patience : Z; es_restore : bool; es_min_delta : f64; es_start_from : Z;
  es_best_error : f64; es_best_trial : Z; es_do_restore : bool }.
(** pybind_callback_earlystop.h:56-79: the constructor, and the initial values (:175-177). *)
Definition early_new (val : bool) (patience : Z) (restore : bool) (min_delta : f64) (start_from : Z) : pyres early :=
  if patience <? 0 then Raise else
  if flt min_delta f0 then Raise else
  Return (mkEarly val patience restore min_delta start_from dbl_max 0 false).

(** pybind_callback_checkpoint.h: class CheckpointCallback. *)
Record check := mkCheck {
  ck_val : bool; ck_best_only : bool; ck_freq : Z; ck_best_error : f64; ck_save_trial : Z }.
(** pybind_callback_checkpoint.h:53-71 and :131-132. *)
Definition check_new (val best_only : bool) (freq : Z) : pyres check :=
  if freq <? 0 then Raise else Return (mkCheck val best_only freq dbl_max 0).

Inductive callback := Early (c : early) | Check (c : check).

Section Fit.
Context {B : Type} (V : vtab B) (K : cfg).

(** The part of class XCS that fitting uses: the metrics (newest first) and their counter, and the
    systems written to the checkpoint file (newest first; the file holds the first). *)
Record py := mkPy { p_counter : Z; p_train : list f64; p_val : list f64; p_trials : list Z; p_files : list (st B) }.

(** pybind_wrapper.cpp:408-419 update_metrics; int arithmetic can overflow. *)
Definition update_metrics (train val : f64) (n_trials : Z) (p : py) : outcome py :=
  obind (cint (1 + p_counter p)) (fun c =>
  obind (cint (c * n_trials)) (fun trial =>
  Ok (mkPy c (train :: p_train p) (val :: p_val p) (trial :: p_trials p) (p_files p)))).

(** pybind_callback_earlystop.h:124-153 run.  xcsf_store_pset at :89, xcsf_retrieve_pset at :107. *)
Definition early_run (c : early) (error : f64) (trial : Z) : M B (early * bool) :=
  if trial <? es_start_from c then mret (c, false) else
  c1 <~ (if flt error (fsub (es_best_error c) (es_min_delta c)) then
           if es_restore c then
             store_pset V K ;;;
             mret (mkEarly (es_val c) (es_patience c) (es_restore c) (es_min_delta c) (es_start_from c) error trial true)
           else mret (mkEarly (es_val c) (es_patience c) (es_restore c) (es_min_delta c) (es_start_from c) error trial (es_do_restore c))
         else mret c) ;;
  lim <~ mlift (cint (trial - es_patience c1)) ;;
  if es_best_trial c1 <? lim then
    if es_restore c1 then
      retrieve_pset ;;;
      mret (mkEarly (es_val c1) (es_patience c1) (es_restore c1) (es_min_delta c1) (es_start_from c1) (es_best_error c1) (es_best_trial c1) false, true)
    else mret (c1, true)
  else mret (c1, false).
(** pybind_callback_earlystop.h:159-165 finish. *)
Definition early_finish (c : early) : M B early :=
  if es_restore c && es_do_restore c then
    retrieve_pset ;;;
    mret (mkEarly (es_val c) (es_patience c) (es_restore c) (es_min_delta c) (es_start_from c) (es_best_error c) (es_best_trial c) false)
  else mret c.

(** pybind_callback_checkpoint.h:77-85 save: the file is overwritten (its contents: C34). *)
Definition save (p : py) : M B py :=
  s <~ mget (fun s => s) ;;
  mret (mkPy (p_counter p) (p_train p) (p_val p) (p_trials p) (s :: p_files p)).
(** pybind_callback_checkpoint.h:93-110 run. *)
Definition check_run (c : check) (error : f64) (trial : Z) (p : py) : M B (check * py) :=
  due <~ mlift (cint (ck_save_trial c + ck_freq c)) ;;
  if due <=? trial then
    cp <~ (if negb (ck_best_only c) || flt error (ck_best_error c)
           then q <~ save p ;; mret (mkCheck (ck_val c) (ck_best_only c) (ck_freq c) (ck_best_error c) trial, q)
           else mret (c, p)) ;;
    let '(c1, q) := cp in
    mret (if flt error (ck_best_error c1)
          then (mkCheck (ck_val c1) (ck_best_only c1) (ck_freq c1) error (ck_save_trial c1), q)
          else (c1, q))
  else mret (c, p).
(** pybind_callback_checkpoint.h:116-122 finish. *)
Definition check_finish (c : check) (p : py) : M B py := if ck_best_only c then mret p else save p.

(** The last entry of a metric. *)
Definition newest {T} (l : list T) : outcome T := match l with [] => UB OutOfBounds | x :: _ => Ok x end.

(** pybind_wrapper.cpp:451-467 callbacks_run: all callbacks run, in order, even after one asked to
    stop.  (Entries of the list that are not callbacks raise an exception; not modelled.) *)
Fixpoint callbacks_run (calls : list callback) (p : py) : M B (list callback * py * bool) :=
  match calls with
  | [] => mret ([], p, false)
  | cb :: r =>
      trial <~ mlift (newest (p_trials p)) ;;
      x <~ match cb with
           | Early c =>
               e <~ mlift (newest (if es_val c then p_val p else p_train p)) ;;
               cs <~ early_run c e trial ;;
               let '(c1, stop) := cs in mret (Early c1, p, stop)
           | Check c =>
               e <~ mlift (newest (if ck_val c then p_val p else p_train p)) ;;
               cq <~ check_run c e trial p ;;
               let '(c1, q) := cq in mret (Check c1, q, false)
           end ;;
      let '(cb1, p1, stop) := x in
      y <~ callbacks_run r p1 ;;
      let '(r1, p2, stop') := y in
      mret (cb1 :: r1, p2, stop || stop')
  end.
(** pybind_wrapper.cpp:473-484 callbacks_finish. *)
Fixpoint callbacks_finish (calls : list callback) (p : py) : M B (list callback * py) :=
  match calls with
  | [] => mret ([], p)
  | cb :: r =>
      x <~ match cb with
           | Early c => c1 <~ early_finish c ;; mret (Early c1, p)
           | Check c => q <~ check_finish c p ;; mret (Check c, q)
           end ;;
      let '(cb1, p1) := x in
      y <~ callbacks_finish r p1 ;;
      let '(r1, p2) := y in
      mret (cb1 :: r1, p2)
  end.

(** pybind_wrapper.cpp:515-516: number of epochs [ceil(MAX_TRIALS / (double) PERF_TRIALS)] and
    trials per epoch. *)
Definition n_epochs (MAX_TRIALS PERF_TRIALS : Z) : outcome Z :=
  match to_int (fceil (fdiv (of_Z MAX_TRIALS) (of_Z PERF_TRIALS))) with
  | Some n => Ok n
  | None => UB BadCast
  end.
Definition epoch_trials (MAX_TRIALS PERF_TRIALS : Z) : Z := Z.min MAX_TRIALS PERF_TRIALS.

(** pybind_wrapper.cpp:518-524: training and validation of epoch [i].  The cover array has been set
    to zeros (pybind_wrapper.cpp:441). *)
Definition epoch (d : input) (val : option input) (shuffle : bool) (n_trials i : Z) : M B (f64 * f64) :=
  start <~ mlift (cint (i * n_trials)) ;;
  e <~ supervised_fit V K d None shuffle start n_trials ;;
  v <~ match val with
       | Some t => supervised_score V K t (Some (zeros (pa_size K)))
       | None => mret f0
       end ;;
  mret (e, v).
(** pybind_wrapper.cpp:517-532: the loop over the epochs. *)
Fixpoint fit_loop (n : nat) (i n_trials : Z) (d : input) (val : option input) (shuffle : bool)
  (calls : list callback) (p : py) : M B (list callback * py) :=
  match n with
  | O => mret (calls, p)
  | S n' =>
      ev <~ epoch d val shuffle n_trials i ;;
      p1 <~ mlift (update_metrics (fst ev) (snd ev) n_trials p) ;;
      x <~ callbacks_run calls p1 ;;
      let '(calls1, p2, stop) := x in
      if stop : bool then mret (calls1, p2)
      else fit_loop n' (i + 1) n_trials d val shuffle calls1 p2
  end.
(** pybind_wrapper.cpp:498-535 fit (the arguments have passed load_input). *)
Definition py_fit (MAX_TRIALS PERF_TRIALS : Z) (d : input) (val : option input) (shuffle warm_start : bool)
  (calls : list callback) (p : py) : M B (list callback * py) :=
  (if warm_start then mret tt else xcsf_free K ;;; xcsf_init V K) ;;;
  n <~ mlift (n_epochs MAX_TRIALS PERF_TRIALS) ;;
  x <~ fit_loop (Z.to_nat n) 0 (epoch_trials MAX_TRIALS PERF_TRIALS) d val shuffle calls p ;;
  let '(calls1, p1) := x in
  callbacks_finish calls1 p1.

(** pybind_wrapper.cpp:617-627 score: a limit of 1 is treated as no limit. *)
Definition py_score (d : input) (N : Z) (cover : option (list f64)) : M B f64 :=
  if 1 <? N then supervised_score_n V K d N cover else supervised_score V K d cover.

(** ** Who owns the cover array. *)

(** Memory blocks: obtained from malloc/calloc by the system, or belonging to a Python array. *)
Inductive owner := System | Python.
Record block := mkBlock { b_owner : owner; b_data : list f64 }.
(** [m_block id = None]: not allocated, or freed.  [m_cover]: the address in xcsf->cover. *)
Record mem := mkMem { m_block : nat -> option block; m_next : nat; m_cover : nat }.
Definition set_block (id : nat) (b : option block) (m : mem) : mem :=
  mkMem (fun j => if Nat.eqb j id then b else m_block m j) (m_next m) (m_cover m).
Definition new_block (b : block) (m : mem) : nat * mem :=
  (m_next m, mkMem (fun j => if Nat.eqb j (m_next m) then Some b else m_block m j) (S (m_next m)) (m_cover m)).
Definition aim (id : nat) (m : mem) : mem := mkMem (m_block m) (m_next m) id.

(** pa.c:46-53 pa_init: xcsf->cover = calloc(pa_size). *)
Definition cover_init (m : mem) : mem :=
  let '(id, m1) := new_block (mkBlock System (zeros (pa_size K))) m in aim id m1.
(** pa.c:191-197 pa_free: free(xcsf->cover).  Freeing memory that did not come from malloc is
    undefined; so is freeing twice. *)
Definition cover_free (m : mem) : outcome mem :=
  match m_block m (m_cover m) with
  | None => UB DoubleFree
  | Some b => match b_owner b with
              | Python => UB DoubleFree
              | System => Ok (set_block (m_cover m) None m)
              end
  end.
(** memset(xcs.cover, 0, sizeof(double) * xcs.pa_size). *)
Definition cover_zero (m : mem) : outcome mem :=
  match m_block m (m_cover m) with
  | None => UB UseAfterFree
  | Some b => if Z.of_nat (length (b_data b)) <? pa_size K then UB OutOfBounds
              else Ok (set_block (m_cover m)
                         (Some (mkBlock (b_owner b) (zeros (pa_size K) ++ skipn (Z.to_nat (pa_size K)) (b_data b)))) m)
  end.
(** What a read through xcsf->cover finds.  After the block is gone: nothing, so that any read is
    out of bounds. *)
Definition cover_data (m : mem) : list f64 :=
  match m_block m (m_cover m) with Some b => b_data b | None => [] end.

(** The argument [cover] of predict and score: None, a one-dimensional float64 array of the caller,
    or anything pybind11 has to convert first (a list, another dtype). *)
Inductive cover_arg := NoCover | ArrayCover (id : nat) | ConvertedCover (data : list f64).
(** pybind_wrapper.cpp:542-574 get_cover and set_cover.  A converted argument lives in a temporary
    array that is released when set_cover returns. *)
Definition set_cover (a : cover_arg) (m : mem) : outcome (pyres mem) :=
  match a with
  | NoCover => obind (cover_zero m) (fun m1 => Ok (Return m1))
  | ArrayCover id =>
      match m_block m id with
      | None => Ok Raise   (* no such array in the calling program *)
      | Some b => if Z.of_nat (length (b_data b)) =? y_dim K then Ok (Return (aim id m)) else Ok Raise
      end
  | ConvertedCover data =>
      if Z.of_nat (length data) =? y_dim K then
        let '(id, m1) := new_block (mkBlock Python data) m in
        Ok (Return (set_block id None (aim id m1)))
      else Ok Raise
  end.

(** pybind_wrapper.cpp:600-605: the output array of predict comes from malloc, and py::array_t copies
    it (no base object is given), so nothing frees it. *)
Definition cover_predict (xs : list (list f64)) (a : cover_arg) (m : mem) : M B (pyres (list (list f64)) * mem) :=
  let '(out, m1) := new_block (mkBlock System (zeros (Z.of_nat (length xs) * pa_size K))) m in
  r <~ mlift (set_cover a m1) ;;
  match r with
  | Raise => mret (Raise, m1)
  | Return m2 =>
      ps <~ supervised_predict V K xs (Some (cover_data m2)) ;;
      mret (Return ps, set_block out (Some (mkBlock System (concat ps))) m2)
  end.
(** pybind_wrapper.cpp:617-627 (the arrays have passed load_input, called after set_cover). *)
Definition cover_score (d : input) (N : Z) (a : cover_arg) (m : mem) : M B (pyres f64 * mem) :=
  r <~ mlift (set_cover a m) ;;
  match r with
  | Raise => mret (Raise, m)
  | Return m1 => e <~ py_score d N (Some (cover_data m1)) ;; mret (Return e, m1)
  end.
(** The effect of fit on the cover array: pybind_wrapper.cpp:503-506 (free and initialise again) and
    :441 (zeros if there is validation data). *)
Definition cover_fit (warm_start has_val : bool) (m : mem) : outcome mem :=
  obind (if warm_start then Ok m else obind (cover_free m) (fun m1 => Ok (cover_init m1))) (fun m2 =>
  if has_val : bool then cover_zero m2 else Ok m2).

(** What a Python program does with one XCS object and its own arrays. *)
Inductive pycall :=
| PNew (data : list f64)                                      (* a = numpy.array(data) *)
| PDrop (id : nat)                                            (* the last reference to an array goes *)
| PPredict (xs : list (list f64)) (a : cover_arg)
| PScore (d : input) (N : Z) (a : cover_arg)
| PFit (MAX_TRIALS PERF_TRIALS : Z) (d : input) (val : option input) (shuffle warm_start : bool).
(** Validation scores read the cover array; it holds zeros by then ([cover_fit], [epoch]). *)
Definition run_call (c : pycall) (m : mem) : M B mem :=
  match c with
  | PNew data => mret (snd (new_block (mkBlock Python data) m))
  | PDrop id =>
      match m_block m id with
      | Some (mkBlock Python _) => mret (set_block id None m)
      | _ => mret m   (* not an array of the calling program *)
      end
  | PPredict xs a => r <~ cover_predict xs a m ;; mret (snd r)
  | PScore d N a => r <~ cover_score d N a m ;; mret (snd r)
  | PFit mx pf d val shuffle warm =>
      m1 <~ mlift (cover_fit warm (match val with Some _ => true | None => false end) m) ;;
      _ <~ py_fit mx pf d val shuffle warm [] (mkPy 0 [] [] [] []) ;;
      mret m1
  end.
Fixpoint run_calls (cs : list pycall) (m : mem) : M B mem :=
  match cs with [] => mret m | c :: r => m1 <~ run_call c m ;; run_calls r m1 end.
End Fit.
