(** * Recurrent and LSTM layers: /repo/xcsf/neural_layer_recurrent.c, neural_layer_lstm.c.

    As in Layer.v: passes for any type of numbers, the rest for binary64.  Both are made of
    connected layers, whose functions are those of Layer.v.  Printing and JSON are not modelled.
    Files are as in File.v. *)
From Coq Require Import ZArith Bool List.
From Verif Require Import Outcome F64 Rng Sam Arr Blas Clock Dgp Act Image Layer Net File.
Import ListNotations.
Open Scope Z_scope.

(** ** Recurrent layers *)

(** neural_layer.h:73-133 struct Layer, the fields of recurrent layers: [r_l] has those of all
    layers.  The pointers l->output and l->delta are those of the output layer if [r_linked], and
    NULL otherwise; the arrays of that name in [r_l] are not used. *)
Record rlayer (T : Type) := mkRec {
  r_l : layer T; r_prev : list T; r_in : layer T; r_self : layer T; r_out : layer T; r_linked : bool
}.
Arguments mkRec {T} _ _ _ _ _ _.
Arguments r_l {T} _.
Arguments r_prev {T} _.
Arguments r_in {T} _.
Arguments r_self {T} _.
Arguments r_out {T} _.
Arguments r_linked {T} _.

(** memset(a, 0, n * sizeof(double)) *)
Definition clear {T} (z : T) (n : Z) (a : list T) : outcome (list T) := ofor n (fun i a => wr a i z) a.

Section Pass.
Context {T : Type} (A : arith T).
Let Q := a_num A.

(** neural_layer_recurrent.c:348-358 *)
Definition recurrent_forward (r : rlayer T) (input : list T) : outcome (rlayer T) :=
  let n := l_n_outputs (r_l r) in
  (prev <- copy_n n (l_state (r_l r)) (r_prev r) ;;
   i <- connected_forward A (r_in r) input ;;
   s <- connected_forward A (r_self r) (l_output (r_out r)) ;;
   st <- copy_n n (l_output i) (l_state (r_l r)) ;;
   st <- blas_axpy Q n (a_Z A 1) (l_output s) 1 st 0 1 ;;
   o <- connected_forward A (r_out r) st ;;
   Ok (mkRec (set_state st (r_l r)) prev i s o (r_linked r)))%out.

(** neural_layer_recurrent.c:367-378 *)
Definition recurrent_backward (r : rlayer T) (input : list T) (delta : option (list T))
  : outcome (rlayer T * option (list T)) :=
  let n := l_n_outputs (r_l r) in
  (di <- clear (a_Z A 0) n (l_delta (r_in r)) ;;
   ds <- clear (a_Z A 0) n (l_delta (r_self r)) ;;
   bo <- connected_backward A (r_out r) (l_state (r_l r)) (Some ds) ;;
   ds <- match snd bo with Some d => Ok d | None => UB NullDeref end ;;
   di <- copy_n n ds di ;;
   bs <- connected_backward A (set_delta ds (r_self r)) (r_prev r) None ;;
   bi <- connected_backward A (set_delta di (r_in r)) input delta ;;
   Ok (mkRec (r_l r) (r_prev r) (fst bi) (fst bs) (fst bo) (r_linked r), snd bi))%out.

(** neural_layer_recurrent.c:384-392 *)
Definition recurrent_update (r : rlayer T) : outcome (rlayer T) :=
  if has (r_l r) SGD_WEIGHTS && a_lt A (a_Z A 0) (l_eta (r_l r)) then
    (i <- weights_update A (r_in r) ;; s <- weights_update A (r_self r) ;; o <- weights_update A (r_out r) ;;
     Ok (mkRec (r_l r) (r_prev r) i s o (r_linked r)))%out
  else Ok r.

(** neural_layer_recurrent.c:413-417: what the next layer, or neural_output, reads. *)
Definition recurrent_output (r : rlayer T) : outcome (list T) :=
  if r_linked r then Ok (l_output (r_out r)) else UB NullDeref.
End Pass.

(** neural_layer_recurrent.c:99-126: the three sums *)
Definition set_r_counts (l i s o : layer f64) : layer f64 :=
  set_n_biases (l_n_biases i + l_n_biases s + l_n_biases o)
    (set_n_weights (l_n_weights i + l_n_weights s + l_n_weights o)
      (set_n_active (l_n_active i + l_n_active s + l_n_active o) l)).

(** neural_layer_args.c layer_args_copy, then the assignments of neural_layer_recurrent.c:256-263 and neural_layer_lstm.c:299-306:
    parameters of a connected layer with another number of inputs and function. *)
Definition part_args (a : largs) (n_inputs f : Z) : largs :=
  mkLargs CONNECTED n_inputs (la_n_init a) (la_n_max a) (la_grow a) f (la_height a) (la_width a) (la_channels a) (la_size a)
    (la_stride a) (la_pad a) (la_eta a) (la_eta_min a) (la_momentum a) (la_decay a) (la_probability a) (la_scale a)
    (la_evolve_weights a) (la_evolve_neurons a) (la_evolve_functions a) (la_evolve_eta a) (la_evolve_connect a) (la_sgd_weights a).

Section Ops.
Context (lm : libm).

(** neural_layer_recurrent.c:245-275 (and 50-57) *)
Definition recurrent_init (a : largs) : RM (rlayer f64) :=
  let l := set_options (layer_args_opt a) (set_function (la_function a) (set_n_inputs (la_n_inputs a)
    (set_n_outputs (la_n_init a) (set_max_outputs (la_n_max a) (set_out_w (la_n_init a) (set_out_c 1 (set_out_h 1
    (set_type RECURRENT layer_defaults)))))))) in
  (i <- layer_init lm (part_args a (la_n_inputs a) LINEAR) ;;
   s <- layer_init lm (part_args a (la_n_init a) LINEAR) ;;
   o <- layer_init lm (part_args a (la_n_init a) (la_function a)) ;;
   let e := l_eta i in
   _ <- lift (layer_guard_outputs l) ;;
   mu <- sam_init layer_mu_type ;;
   ret (mkRec (set_state (zeros f0 (la_n_init a)) (set_mu mu (set_eta e (set_r_counts l i s o)))) (zeros f0 (la_n_init a))
          i (set_eta e s) (set_eta e o) true))%rng.

(** neural_layer_recurrent.c:282-312.  n_weights, n_biases and the limits of the learning rate
    are not copied. *)
Definition recurrent_copy (src : rlayer f64) : outcome (rlayer f64) :=
  let m := r_l src in
  if negb (l_type m =? RECURRENT) then Exit
  else
    let l := set_type (l_type m) (set_options (l_options m) (set_function (l_function m) (set_n_inputs (l_n_inputs m)
      (set_n_outputs (l_n_outputs m) (set_max_outputs (l_max_outputs m) (set_out_w (l_out_w m) (set_out_c (l_out_c m)
      (set_out_h (l_out_h m) (set_n_active (l_n_active m) (set_eta (l_eta m) layer_defaults)))))))))) in
    (i <- layer_copy (r_in src) ;;
     s <- layer_copy (r_self src) ;;
     o <- layer_copy (r_out src) ;;
     _ <- layer_guard_outputs l ;;
     mu <- copy_n 6 (l_mu m) (zeros fnan 6) ;;
     prev <- copy_n (l_n_outputs m) (r_prev src) (zeros f0 (l_n_outputs m)) ;;
     Ok (mkRec (set_state (zeros f0 (l_n_outputs m)) (set_mu mu l)) prev i s o true))%out.

(** neural_layer_recurrent.c:334-340 *)
Definition recurrent_rand (r : rlayer f64) : RM (rlayer f64) :=
  (i <- layer_rand lm (r_in r) ;; s <- layer_rand lm (r_self r) ;; o <- layer_rand lm (r_out r) ;;
   ret (mkRec (r_l r) (r_prev r) i s o (r_linked r)))%rng.

(** neural_layer_recurrent.c:399-406 *)
Definition recurrent_resize (fuel : nat) (r : rlayer f64) (prev : layer f64) : RM (rlayer f64) :=
  (i <- layer_resize lm fuel (r_in r) prev ;;
   let l := set_n_inputs (l_n_inputs i) (set_n_active (l_n_active i + l_n_active (r_self r) + l_n_active (r_out r)) (r_l r)) in
   ret (mkRec l (r_prev r) i (r_self r) (r_out r) (r_linked r)))%rng.

(** neural_layer_recurrent.c:133-143 *)
Definition r_mutate_eta (r : rlayer f64) : RM (rlayer f64 * bool) :=
  if has (r_l r) EVOLVE_ETA then
    (m <- lift (rd (l_mu (r_l r)) 0) ;;
     ' (l, b) <- layer_mutate_eta lm (r_l r) m ;;
     if b : bool then
       ret (mkRec l (r_prev r) (set_eta (l_eta l) (r_in r)) (set_eta (l_eta l) (r_self r)) (set_eta (l_eta l) (r_out r)) (r_linked r), true)
     else ret (mkRec l (r_prev r) (r_in r) (r_self r) (r_out r) (r_linked r), false))%rng
  else ret (r, false).
(** neural_layer_recurrent.c:150-175 (and 63-69).  [junk]: what realloc leaves in the new elements of the
    two arrays of states. *)
Definition r_mutate_neurons (junk : f64) (fuel : nat) (r : rlayer f64) : RM (rlayer f64 * bool) :=
  if has (r_l r) EVOLVE_NEURONS then
    (m <- lift (rd (l_mu (r_l r)) 1) ;;
     n <- layer_mutate_neurons lm fuel (r_self r) m ;;
     if n =? 0 then ret (r, false)
     else
       (i <- layer_add_neurons lm (r_in r) n ;;
        s <- layer_add_neurons lm (r_self r) n ;;
        o <- layer_add_neurons lm (r_out r) n ;;
        s <- layer_resize lm fuel s i ;;
        o <- layer_resize lm fuel o i ;;
        let no := l_n_outputs o in
        let l := set_n_outputs no (set_out_w no (set_out_h 1 (set_out_c 1 (r_l r)))) in
        _ <- lift (layer_guard_outputs l) ;;
        ret (mkRec (set_r_counts (set_state (realloc junk no (l_state (r_l r))) l) i s o) (realloc junk no (r_prev r)) i s o true, true))%rng)%rng
  else ret (r, false).
(** neural_layer_recurrent.c:182-199 *)
Definition r_mutate_connectivity (r : rlayer f64) : RM (rlayer f64 * bool) :=
  if has (r_l r) EVOLVE_CONNECT then
    (m2 <- lift (rd (l_mu (r_l r)) 2) ;; m3 <- lift (rd (l_mu (r_l r)) 3) ;;
     ' (i, b1) <- layer_mutate_connectivity lm (r_in r) m2 m3 ;;
     ' (s, b2) <- layer_mutate_connectivity lm (r_self r) m2 m3 ;;
     ' (o, b3) <- layer_mutate_connectivity lm (r_out r) m2 m3 ;;
     ret (mkRec (set_n_active (l_n_active i + l_n_active s + l_n_active o) (r_l r)) (r_prev r) i s o (r_linked r), b1 || b2 || b3))%rng
  else ret (r, false).
(** neural_layer_recurrent.c:206-222 *)
Definition r_mutate_weights (r : rlayer f64) : RM (rlayer f64 * bool) :=
  if has (r_l r) EVOLVE_WEIGHTS then
    (m <- lift (rd (l_mu (r_l r)) 4) ;;
     ' (i, b1) <- layer_mutate_weights lm (r_in r) m ;;
     ' (s, b2) <- layer_mutate_weights lm (r_self r) m ;;
     ' (o, b3) <- layer_mutate_weights lm (r_out r) m ;;
     ret (mkRec (r_l r) (r_prev r) i s o (r_linked r), b1 || b2 || b3))%rng
  else ret (r, false).
(** neural_layer_recurrent.c:229-238 *)
Definition r_mutate_functions (r : rlayer f64) : RM (rlayer f64 * bool) :=
  if has (r_l r) EVOLVE_FUNCTIONS then
    (m <- lift (rd (l_mu (r_l r)) 5) ;;
     ' (l, b) <- layer_mutate_functions (r_l r) m ;;
     if b : bool then ret (mkRec l (r_prev r) (r_in r) (r_self r) (set_function (l_function l) (r_out r)) (r_linked r), true)
     else ret (mkRec l (r_prev r) (r_in r) (r_self r) (r_out r) (r_linked r), false))%rng
  else ret (r, false).
(** neural_layer_recurrent.c:424-435 *)
Definition recurrent_mutate (junk : f64) (fuel : nat) (r : rlayer f64) : RM (rlayer f64 * bool) :=
  (mu <- sam_adapt lm layer_mu_type (l_mu (r_l r)) ;;
   let r := mkRec (set_mu mu (r_l r)) (r_prev r) (r_in r) (r_self r) (r_out r) (r_linked r) in
   ' (r, b0) <- r_mutate_eta r ;;
   ' (r, b1) <- r_mutate_neurons junk fuel r ;;
   ' (r, b2) <- r_mutate_connectivity r ;;
   ' (r, b3) <- r_mutate_weights r ;;
   ' (r, b4) <- r_mutate_functions r ;;
   ret (r, b0 || b1 || b2 || b3 || b4))%rng.
End Ops.

(** neural_layer_recurrent.c:493-511, with the type as layer_save writes it *)
Definition recurrent_save (r : rlayer f64) : outcome (list cell) :=
  let l := r_l r in
  cat [one (int_ (l_type l)); one (int_ (l_n_inputs l)); one (int_ (l_n_outputs l)); one (int_ (l_max_outputs l)); one (CU (l_options l));
       one (int_ (l_function l)); one (dbl_ (l_eta l)); one (int_ (l_n_active l)); fwrite dbl_ 6 (l_mu l);
       fwrite dbl_ (l_n_outputs l) (l_state l); fwrite dbl_ (l_n_outputs l) (r_prev r);
       layer_save (r_in r); layer_save (r_self r); layer_save (r_out r)].
(** neural_layer_recurrent.c:519-542; layer_defaults (neural_layer.h:389) has set the pointers to
    the output and the error to NULL, and nothing here sets them. *)
Definition recurrent_load : PL (rlayer f64) :=
  (t <- get_int ;;
   if negb (t =? RECURRENT) then pexit
   else
     (ni <- get_int ;; no <- get_int ;; mo <- get_int ;; op <- get_u32 ;; fn <- get_int ;; e <- get_dbl ;; na <- get_int ;;
      let l := set_n_inputs ni (set_n_outputs no (set_max_outputs mo (set_options op (set_function fn (set_eta e (set_n_active na
        (set_out_w no (set_out_c 1 (set_out_h 1 (set_type t layer_defaults)))))))))) in
      _ <- plift (lift (layer_guard_outputs l)) ;;
      mu <- fread get_dbl 6 (dbls_ 6) ;;
      st <- fread get_dbl no (zeros f0 no) ;; pr <- fread get_dbl no (zeros f0 no) ;;
      i <- layer_load ;; s <- layer_load ;; o <- layer_load ;;
      pret (mkRec (set_state st (set_mu mu l)) pr i s o false)))%file.

(** ** LSTM layers *)

(** neural_layer.h:73-133: [m_l] has the fields of all layers; [m_rec] is recurrent_function. *)
Record lstm (T : Type) := mkLstm {
  m_l : layer T; m_rec : Z;
  m_uf : layer T; m_ui : layer T; m_ug : layer T; m_uo : layer T;
  m_wf : layer T; m_wi : layer T; m_wg : layer T; m_wo : layer T;
  m_prev_state : list T; m_prev_cell : list T; m_cell : list T;
  m_f : list T; m_i : list T; m_g : list T; m_o : list T; m_c : list T; m_h : list T;
  m_temp : list T; m_temp2 : list T; m_temp3 : list T; m_dc : list T
}.
Arguments mkLstm {T} _ _ _ _ _ _ _ _ _ _ _ _ _ _ _ _ _ _ _ _ _ _ _.
Arguments m_l {T} _.
Arguments m_rec {T} _.
Arguments m_uf {T} _.
Arguments m_ui {T} _.
Arguments m_ug {T} _.
Arguments m_uo {T} _.
Arguments m_wf {T} _.
Arguments m_wi {T} _.
Arguments m_wg {T} _.
Arguments m_wo {T} _.
Arguments m_prev_state {T} _.
Arguments m_prev_cell {T} _.
Arguments m_cell {T} _.
Arguments m_f {T} _.
Arguments m_i {T} _.
Arguments m_g {T} _.
Arguments m_o {T} _.
Arguments m_c {T} _.
Arguments m_h {T} _.
Arguments m_temp {T} _.
Arguments m_temp2 {T} _.
Arguments m_temp3 {T} _.
Arguments m_dc {T} _.

Section LstmPass.
Context {T : Type} (A : arith T).
Let Q := a_num A.

(** neural_activate_array(a, a, n, f), neural_activations.c:189-198 with one array for both *)
Definition activate_self (a : list T) (n f : Z) : outcome (list T) :=
  ofor n (fun i a =>
    (x <- rd a i ;;
     let c := aclamp A x (a_Z A NEURON_MIN) (a_Z A NEURON_MAX) in
     a <- wr a i c ;;
     y <- neural_activate A f c ;;
     wr a i y)%out) a.
(** memcpy(dst, w, n); blas_axpy(n, 1, u, 1, dst, 1) *)
Definition gate (n : Z) (w u dst : list T) : outcome (list T) :=
  (d <- copy_n n w dst ;; blas_axpy Q n (a_Z A 1) u 1 d 0 1)%out.

(** neural_layer_lstm.c:418-451 *)
Definition lstm_forward (m : lstm T) (input : list T) : outcome (lstm T) :=
  let n := l_n_outputs (m_l m) in
  let fn := l_function (m_l m) in
  (uf <- connected_forward A (m_uf m) input ;;
   ui <- connected_forward A (m_ui m) input ;;
   ug <- connected_forward A (m_ug m) input ;;
   uo <- connected_forward A (m_uo m) input ;;
   wf <- connected_forward A (m_wf m) (m_h m) ;;
   wi <- connected_forward A (m_wi m) (m_h m) ;;
   wg <- connected_forward A (m_wg m) (m_h m) ;;
   wo <- connected_forward A (m_wo m) (m_h m) ;;
   f <- gate n (l_output wf) (l_output uf) (m_f m) ;;
   i <- gate n (l_output wi) (l_output ui) (m_i m) ;;
   g <- gate n (l_output wg) (l_output ug) (m_g m) ;;
   o <- gate n (l_output wo) (l_output uo) (m_o m) ;;
   f <- activate_self f n (m_rec m) ;;
   i <- activate_self i n (m_rec m) ;;
   g <- activate_self g n fn ;;
   o <- activate_self o n (m_rec m) ;;
   temp <- copy_n n i (m_temp m) ;;
   temp <- blas_mul Q n g 1 temp 1 ;;
   c <- blas_mul Q n f 1 (m_c m) 1 ;;
   c <- blas_axpy Q n (a_Z A 1) temp 1 c 0 1 ;;
   h <- copy_n n c (m_h m) ;;
   h <- activate_self h n fn ;;
   h <- blas_mul Q n o 1 h 1 ;;
   cell <- copy_n n c (m_cell m) ;;
   out <- copy_n n h (l_output (m_l m)) ;;
   Ok (mkLstm (set_output out (m_l m)) (m_rec m) uf ui ug uo wf wi wg wo (m_prev_state m) (m_prev_cell m) cell f i g o c h
         temp (m_temp2 m) (m_temp3 m) (m_dc m)))%out.

(** neural_layer_lstm.c:476-479 and the three like it: the error of a gate into its two layers *)
Definition gate_back (n : Z) (temp : list T) (w u : layer T) (prev input : list T) (delta : option (list T))
  : outcome (layer T * layer T * option (list T)) :=
  (dw <- copy_n n temp (l_delta w) ;;
   bw <- connected_backward A (set_delta dw w) prev None ;;
   du <- copy_n n temp (l_delta u) ;;
   bu <- connected_backward A (set_delta du u) input delta ;;
   Ok (fst bw, fst bu, snd bu))%out.
(** neural_layer_lstm.c:460-504 (and 172-184) *)
Definition lstm_backward (m : lstm T) (input : list T) (delta : option (list T)) : outcome (lstm T * option (list T)) :=
  let n := l_n_outputs (m_l m) in
  let fn := l_function (m_l m) in
  let z := a_Z A 0 in
  (wf <- (d <- clear z n (l_delta (m_wf m)) ;; Ok (set_delta d (m_wf m))) ;;
   wi <- (d <- clear z n (l_delta (m_wi m)) ;; Ok (set_delta d (m_wi m))) ;;
   wg <- (d <- clear z n (l_delta (m_wg m)) ;; Ok (set_delta d (m_wg m))) ;;
   wo <- (d <- clear z n (l_delta (m_wo m)) ;; Ok (set_delta d (m_wo m))) ;;
   uf <- (d <- clear z n (l_delta (m_uf m)) ;; Ok (set_delta d (m_uf m))) ;;
   ui <- (d <- clear z n (l_delta (m_ui m)) ;; Ok (set_delta d (m_ui m))) ;;
   ug <- (d <- clear z n (l_delta (m_ug m)) ;; Ok (set_delta d (m_ug m))) ;;
   uo <- (d <- clear z n (l_delta (m_uo m)) ;; Ok (set_delta d (m_uo m))) ;;
   t3 <- copy_n n (l_delta (m_l m)) (m_temp3 m) ;;
   t1 <- copy_n n (m_c m) (m_temp m) ;;
   t1 <- activate_self t1 n fn ;;
   t2 <- copy_n n t3 (m_temp2 m) ;;
   t2 <- blas_mul Q n (m_o m) 1 t2 1 ;;
   t2 <- neural_gradient_array A t1 t2 n fn ;;
   t2 <- blas_axpy Q n (a_Z A 1) (m_dc m) 1 t2 0 1 ;;
   t1 <- copy_n n (m_c m) t1 ;;
   t1 <- activate_self t1 n fn ;;
   t1 <- blas_mul Q n t3 1 t1 1 ;;
   t1 <- neural_gradient_array A (m_o m) t1 n (m_rec m) ;;
   bo <- gate_back n t1 wo uo (m_prev_state m) input delta ;;
   t1 <- copy_n n t2 t1 ;;
   t1 <- blas_mul Q n (m_i m) 1 t1 1 ;;
   t1 <- neural_gradient_array A (m_g m) t1 n fn ;;
   bg <- gate_back n t1 wg ug (m_prev_state m) input (snd bo) ;;
   t1 <- copy_n n t2 t1 ;;
   t1 <- blas_mul Q n (m_g m) 1 t1 1 ;;
   t1 <- neural_gradient_array A (m_i m) t1 n (m_rec m) ;;
   bi <- gate_back n t1 wi ui (m_prev_state m) input (snd bg) ;;
   t1 <- copy_n n t2 t1 ;;
   t1 <- blas_mul Q n (m_prev_cell m) 1 t1 1 ;;
   t1 <- neural_gradient_array A (m_f m) t1 n (m_rec m) ;;
   bf <- gate_back n t1 wf uf (m_prev_state m) input (snd bi) ;;
   t1 <- copy_n n t2 t1 ;;
   t1 <- blas_mul Q n (m_f m) 1 t1 1 ;;
   dc <- copy_n n t1 (m_dc m) ;;
   Ok (mkLstm (m_l m) (m_rec m) (snd (fst bf)) (snd (fst bi)) (snd (fst bg)) (snd (fst bo))
         (fst (fst bf)) (fst (fst bi)) (fst (fst bg)) (fst (fst bo))
         (m_prev_state m) (m_prev_cell m) (m_cell m) (m_f m) (m_i m) (m_g m) (m_o m) (m_c m) (m_h m) t1 t2 t3 dc, snd bf))%out.

(** Eight results for the eight layers *)
Definition with_parts (m : lstm T) (l : layer T) (uf ui ug uo wf wi wg wo : layer T) : lstm T :=
  mkLstm l (m_rec m) uf ui ug uo wf wi wg wo (m_prev_state m) (m_prev_cell m) (m_cell m) (m_f m) (m_i m) (m_g m) (m_o m) (m_c m)
    (m_h m) (m_temp m) (m_temp2 m) (m_temp3 m) (m_dc m).
(** neural_layer_lstm.c:510-523 *)
Definition lstm_update (m : lstm T) : outcome (lstm T) :=
  if has (m_l m) SGD_WEIGHTS && a_lt A (a_Z A 0) (l_eta (m_l m)) then
    (wf <- weights_update A (m_wf m) ;; wi <- weights_update A (m_wi m) ;; wg <- weights_update A (m_wg m) ;; wo <- weights_update A (m_wo m) ;;
     uf <- weights_update A (m_uf m) ;; ui <- weights_update A (m_ui m) ;; ug <- weights_update A (m_ug m) ;; uo <- weights_update A (m_uo m) ;;
     Ok (with_parts m (m_l m) uf ui ug uo wf wi wg wo))%out
  else Ok m.
End LstmPass.

(** neural_layer_lstm.c:51-81 *)
Definition set_m_counts (l uf ui ug uo wf wi wg wo : layer f64) : layer f64 :=
  let sum (k : layer f64 -> Z) := k uf + k ui + k ug + k uo + k wf + k wi + k wg + k wo in
  set_n_weights (sum l_n_weights) (set_n_biases (sum l_n_biases) (set_n_active (sum l_n_active) l)).
(** neural_layer_lstm.c:87-107: the arrays of a layer with n outputs *)
Definition lstm_arrays (n : Z) (l : layer f64) (rf : Z) (uf ui ug uo wf wi wg wo : layer f64) : lstm f64 :=
  let z := zeros f0 n in
  mkLstm (set_delta z (set_output z (set_state z l))) rf uf ui ug uo wf wi wg wo z z z z z z z z z z z z z.

Section LstmOps.
Context (lm : libm).

(** neural_layer_lstm.c:283-319 *)
Definition lstm_init (a : largs) (rf : Z) : RM (lstm f64) :=
  let l := set_options (layer_args_opt a) (set_function (la_function a) (set_n_inputs (la_n_inputs a) (set_n_outputs (la_n_init a)
    (set_max_outputs (la_n_max a) (set_out_w (la_n_init a) (set_out_c 1 (set_out_h 1 (set_eta_max (la_eta a)
    (set_momentum (la_momentum a) (set_grow (la_grow a) (set_decay (la_decay a) (set_type LSTM layer_defaults)))))))))))) in
  let u := layer_init lm (part_args a (la_n_inputs a) LINEAR) in
  let w := layer_init lm (part_args a (la_n_init a) LINEAR) in
  (uf <- u ;; ui <- u ;; ug <- u ;; uo <- u ;; wf <- w ;; wi <- w ;; wg <- w ;; wo <- w ;;
   let l := set_m_counts l uf ui ug uo wf wi wg wo in
   let e := l_eta uf in
   _ <- lift (layer_guard_outputs l) ;;
   mu <- sam_init layer_mu_type ;;
   ret (lstm_arrays (la_n_init a) (set_mu mu (set_eta e l)) rf uf (set_eta e ui) (set_eta e ug) (set_eta e uo)
          (set_eta e wf) (set_eta e wi) (set_eta e wg) (set_eta e wo)))%rng.

(** neural_layer_lstm.c:326-366; eta_min is not copied (it is not set in lstm_init either). *)
Definition lstm_copy (src : lstm f64) : outcome (lstm f64) :=
  let m := m_l src in
  if negb (l_type m =? LSTM) then Exit
  else
    let l := set_type (l_type m) (set_function (l_function m) (set_options (l_options m) (set_n_inputs (l_n_inputs m)
      (set_n_outputs (l_n_outputs m) (set_out_w (l_out_w m) (set_out_h (l_out_h m) (set_out_c (l_out_c m) (set_n_weights (l_n_weights m)
      (set_n_biases (l_n_biases m) (set_n_active (l_n_active m) (set_eta (l_eta m) (set_eta_max (l_eta_max m) (set_momentum (l_momentum m)
      (set_decay (l_decay m) (set_grow (l_grow m) (set_max_outputs (l_max_outputs m) layer_defaults)))))))))))))))) in
    (uf <- layer_copy (m_uf src) ;; ui <- layer_copy (m_ui src) ;; ug <- layer_copy (m_ug src) ;; uo <- layer_copy (m_uo src) ;;
     wf <- layer_copy (m_wf src) ;; wi <- layer_copy (m_wi src) ;; wg <- layer_copy (m_wg src) ;; wo <- layer_copy (m_wo src) ;;
     _ <- layer_guard_outputs l ;;
     mu <- copy_n 6 (l_mu m) (zeros fnan 6) ;;
     Ok (lstm_arrays (l_n_outputs m) (set_mu mu l) (m_rec src) uf ui ug uo wf wi wg wo))%out.

(** A function on layers that draws, on all eight in the order of the code *)
Definition on_parts (k : layer f64 -> RM (layer f64)) (m : lstm f64) : RM (lstm f64) :=
  (uf <- k (m_uf m) ;; ui <- k (m_ui m) ;; ug <- k (m_ug m) ;; uo <- k (m_uo m) ;;
   wf <- k (m_wf m) ;; wi <- k (m_wi m) ;; wg <- k (m_wg m) ;; wo <- k (m_wo m) ;;
   ret (with_parts m (m_l m) uf ui ug uo wf wi wg wo))%rng.
(** neural_layer_lstm.c:399-410 *)
Definition lstm_rand (m : lstm f64) : RM (lstm f64) := on_parts (layer_rand lm) m.

(** neural_layer_lstm.c:530-542; uf is resized twice. *)
Definition lstm_resize (fuel : nat) (m : lstm f64) (prev : layer f64) : RM (lstm f64) :=
  (uf <- layer_resize lm fuel (m_uf m) prev ;; ui <- layer_resize lm fuel (m_ui m) prev ;;
   ug <- layer_resize lm fuel (m_ug m) prev ;; uo <- layer_resize lm fuel (m_uo m) prev ;;
   uf <- layer_resize lm fuel uf prev ;;
   ret (with_parts m (set_m_counts (set_n_inputs (l_n_outputs prev) (m_l m)) uf ui ug uo (m_wf m) (m_wi m) (m_wg m) (m_wo m))
          uf ui ug uo (m_wf m) (m_wi m) (m_wg m) (m_wo m)))%rng.

(** neural_layer_lstm.c:191-199 (and 155-166) *)
Definition m_mutate_eta (m : lstm f64) : RM (lstm f64 * bool) :=
  (r <- lift (rd (l_mu (m_l m)) 0) ;;
   ' (uf, b) <- layer_mutate_eta lm (m_uf m) r ;;
   let e := l_eta uf in
   if b : bool then
     ret (with_parts m (set_eta e (m_l m)) uf (set_eta e (m_ui m)) (set_eta e (m_ug m)) (set_eta e (m_uo m))
            (set_eta e (m_wf m)) (set_eta e (m_wi m)) (set_eta e (m_wg m)) (set_eta e (m_wo m)), true)
   else ret (with_parts m (m_l m) uf (m_ui m) (m_ug m) (m_uo m) (m_wf m) (m_wi m) (m_wg m) (m_wo m), false))%rng.
(** neural_layer_lstm.c:206-235: the arrays are freed and allocated anew. *)
Definition m_mutate_neurons (fuel : nat) (m : lstm f64) : RM (lstm f64 * bool) :=
  (r <- lift (rd (l_mu (m_l m)) 1) ;;
   n <- layer_mutate_neurons lm fuel (m_uf m) r ;;
   if n =? 0 then ret (m, false)
   else
     (m1 <- on_parts (fun l => layer_add_neurons lm l n) m ;;
      let uf := m_uf m1 in
      wf <- layer_resize lm fuel (m_wf m1) uf ;; wi <- layer_resize lm fuel (m_wi m1) uf ;;
      wg <- layer_resize lm fuel (m_wg m1) uf ;; wo <- layer_resize lm fuel (m_wo m1) uf ;;
      let no := l_n_outputs uf in
      let l := set_m_counts (set_n_outputs no (set_out_w no (set_out_c 1 (set_out_h 1 (m_l m))))) uf (m_ui m1) (m_ug m1) (m_uo m1) wf wi wg wo in
      _ <- lift (layer_guard_outputs l) ;;
      ret (lstm_arrays no l (m_rec m) uf (m_ui m1) (m_ug m1) (m_uo m1) wf wi wg wo, true))%rng)%rng.
(** A mutation of layers, on all eight *)
Definition on_parts_b (k : layer f64 -> RM (layer f64 * bool)) (m : lstm f64) : RM (lstm f64 * bool) :=
  (' (uf, b1) <- k (m_uf m) ;; ' (ui, b2) <- k (m_ui m) ;; ' (ug, b3) <- k (m_ug m) ;; ' (uo, b4) <- k (m_uo m) ;;
   ' (wf, b5) <- k (m_wf m) ;; ' (wi, b6) <- k (m_wi m) ;; ' (wg, b7) <- k (m_wg m) ;; ' (wo, b8) <- k (m_wo m) ;;
   ret (with_parts m (m_l m) uf ui ug uo wf wi wg wo, b1 || b2 || b3 || b4 || b5 || b6 || b7 || b8))%rng.
(** neural_layer_lstm.c:242-256 *)
Definition m_mutate_connectivity (m : lstm f64) : RM (lstm f64 * bool) :=
  (m2 <- lift (rd (l_mu (m_l m)) 2) ;; m3 <- lift (rd (l_mu (m_l m)) 3) ;;
   ' (p, b) <- on_parts_b (fun l => layer_mutate_connectivity lm l m2 m3) m ;;
   let act := l_n_active (m_uf p) + l_n_active (m_ui p) + l_n_active (m_ug p) + l_n_active (m_uo p) + l_n_active (m_wf p) +
     l_n_active (m_wi p) + l_n_active (m_wg p) + l_n_active (m_wo p) in
   ret (with_parts p (set_n_active act (m_l p)) (m_uf p) (m_ui p) (m_ug p) (m_uo p) (m_wf p) (m_wi p) (m_wg p) (m_wo p), b))%rng.
(** neural_layer_lstm.c:263-276 *)
Definition m_mutate_weights (m : lstm f64) : RM (lstm f64 * bool) :=
  (r <- lift (rd (l_mu (m_l m)) 4) ;; on_parts_b (fun l => layer_mutate_weights lm l r) m)%rng.
(** neural_layer.c:282-301 with the second draw of LSTM layers *)
Definition m_mutate_functions (m : lstm f64) : RM (lstm f64 * bool) :=
  (r <- lift (rd (l_mu (m_l m)) 5) ;;
   ' (l, b) <- layer_mutate_functions (m_l m) r ;;
   u <- rand_uniform f0 f1 ;;
   ' (rf, b2) <- (if flt u r then (f <- rand_uniform_int 0 NUM_ACTIVATIONS ;; ret (f, negb (f =? m_rec m)))%rng else ret (m_rec m, false)) ;;
   let p := with_parts m l (m_uf m) (m_ui m) (m_ug m) (m_uo m) (m_wf m) (m_wi m) (m_wg m) (m_wo m) in
   ret (mkLstm (m_l p) rf (m_uf p) (m_ui p) (m_ug p) (m_uo p) (m_wf p) (m_wi p) (m_wg p) (m_wo p) (m_prev_state p) (m_prev_cell p)
          (m_cell p) (m_f p) (m_i p) (m_g p) (m_o p) (m_c p) (m_h p) (m_temp p) (m_temp2 p) (m_temp3 p) (m_dc p), b || b2))%rng.
(** neural_layer_lstm.c:560-582 *)
Definition lstm_mutate (fuel : nat) (m : lstm f64) : RM (lstm f64 * bool) :=
  let opt (o : Z) (k : lstm f64 -> RM (lstm f64 * bool)) (m : lstm f64) := if has (m_l m) o then k m else ret (m, false) in
  (mu <- sam_adapt lm layer_mu_type (l_mu (m_l m)) ;;
   let m := with_parts m (set_mu mu (m_l m)) (m_uf m) (m_ui m) (m_ug m) (m_uo m) (m_wf m) (m_wi m) (m_wg m) (m_wo m) in
   ' (m, b0) <- opt EVOLVE_ETA m_mutate_eta m ;;
   ' (m, b1) <- opt EVOLVE_NEURONS (m_mutate_neurons fuel) m ;;
   ' (m, b2) <- opt EVOLVE_CONNECT m_mutate_connectivity m ;;
   ' (m, b3) <- opt EVOLVE_WEIGHTS m_mutate_weights m ;;
   ' (m, b4) <- opt EVOLVE_FUNCTIONS m_mutate_functions m ;;
   ret (m, b0 || b1 || b2 || b3 || b4))%rng.
End LstmOps.

(** neural_layer_lstm.c:661-700, with the type.  The two functions are not among what is written,
    nor are the output and prev_cell. *)
Definition lstm_save (m : lstm f64) : outcome (list cell) :=
  let l := m_l m in
  let n := l_n_outputs l in
  cat [one (int_ (l_type l)); one (int_ (l_n_inputs l)); one (int_ n); one (int_ (l_n_weights l)); one (int_ (l_n_biases l));
       one (int_ (l_max_outputs l)); one (int_ (l_n_active l)); one (dbl_ (l_eta l)); one (dbl_ (l_eta_max l)); one (dbl_ (l_momentum l));
       one (dbl_ (l_decay l)); one (int_ (l_grow l)); one (CU (l_options l)); fwrite dbl_ 6 (l_mu l);
       fwrite dbl_ n (l_state l); fwrite dbl_ n (m_prev_state m); fwrite dbl_ n (m_cell m); fwrite dbl_ n (m_f m); fwrite dbl_ n (m_i m);
       fwrite dbl_ n (m_g m); fwrite dbl_ n (m_o m); fwrite dbl_ n (m_c m); fwrite dbl_ n (m_h m); fwrite dbl_ n (m_temp m);
       fwrite dbl_ n (m_temp2 m); fwrite dbl_ n (m_temp3 m); fwrite dbl_ n (m_dc m);
       layer_save (m_uf m); layer_save (m_ui m); layer_save (m_ug m); layer_save (m_uo m);
       layer_save (m_wf m); layer_save (m_wi m); layer_save (m_wg m); layer_save (m_wo m)].
(** neural_layer_lstm.c:708-753; the functions stay as layer_defaults sets them. *)
Definition lstm_load : PL (lstm f64) :=
  (t <- get_int ;;
   if negb (t =? LSTM) then pexit
   else
     (ni <- get_int ;; n <- get_int ;; nw <- get_int ;; nb <- get_int ;; mo <- get_int ;; na <- get_int ;; e <- get_dbl ;; em <- get_dbl ;;
      mom <- get_dbl ;; de <- get_dbl ;; gr <- get_int ;; op <- get_u32 ;;
      let l := set_n_inputs ni (set_n_outputs n (set_n_weights nw (set_n_biases nb (set_max_outputs mo (set_n_active na (set_eta e
        (set_eta_max em (set_momentum mom (set_decay de (set_grow gr (set_options op (set_out_w n (set_out_c 1 (set_out_h 1
        (set_type t layer_defaults))))))))))))))) in
      _ <- plift (lift (layer_guard_outputs l)) ;;
      mu <- fread get_dbl 6 (dbls_ 6) ;;
      let z := zeros f0 n in
      st <- fread get_dbl n z ;; ps <- fread get_dbl n z ;; ce <- fread get_dbl n z ;; f <- fread get_dbl n z ;; i <- fread get_dbl n z ;;
      g <- fread get_dbl n z ;; o <- fread get_dbl n z ;; c <- fread get_dbl n z ;; h <- fread get_dbl n z ;; t1 <- fread get_dbl n z ;;
      t2 <- fread get_dbl n z ;; t3 <- fread get_dbl n z ;; dc <- fread get_dbl n z ;;
      uf <- layer_load ;; ui <- layer_load ;; ug <- layer_load ;; uo <- layer_load ;;
      wf <- layer_load ;; wi <- layer_load ;; wg <- layer_load ;; wo <- layer_load ;;
      pret (mkLstm (set_delta z (set_output z (set_state st (set_mu mu l)))) 0 uf ui ug uo wf wi wg wo ps z ce f i g o c h t1 t2 t3 dc)))%file.
