(** * Neural networks: /repo/xcsf/neural.c, cond_neural.c, pred_neural.c, rule_neural.c.

    A network is the list of its layers from the one at the input to the output layer (the
    linked list itself is in Llist.v), with the numbers of inputs and outputs that struct Net
    keeps.  Printing, JSON and files are not modelled.  Layers as in Layer.v. *)
From Coq Require Import ZArith Bool List.
From Verif Require Import Outcome F64 Rng Sam Arr Pop Blas Comp Dgp Act Layer.
Import ListNotations.
Open Scope Z_scope.

(** neural.h:48-56 struct Net; [train] is an argument here. *)
Record nn (T : Type) := mkNn { nn_layers : list (layer T); nn_inputs : Z; nn_outputs : Z }.
Arguments mkNn {T} _ _ _.
Arguments nn_layers {T} _.
Arguments nn_inputs {T} _.
Arguments nn_outputs {T} _.

(** ** Learning, for any type of numbers *)
Section Learn.
Context {T : Type} (A : arith T).
Let Q := a_num A.
Notation "# z" := (a_Z A z) (at level 1, format "# z").

(** neural.c:331-335: memset of the errors of a layer. *)
Definition zero_delta (l : layer T) : outcome (layer T) :=
  (d <- ofor (l_n_outputs l) (fun i d => wr d i #0) (l_delta l) ;; Ok (set_delta d l))%out.
(** neural.c:337-340 *)
Definition output_delta (p : layer T) (truth : list T) : outcome (layer T) :=
  (d <- ofor (l_n_outputs p) (fun i d =>
     (t <- rd truth i ;; o <- rd (l_output p) i ;; wr d i (nsub Q t o))%out) (l_delta p) ;;
   Ok (set_delta d p))%out.
(** neural.c:341-352: from the output layer [l] on; [rest] are the layers before it, the nearest
    first.  The result is in the same order. *)
Fixpoint backward_from (l : layer T) (rest : list (layer T)) (input : list T) {struct rest} : outcome (list (layer T)) :=
  match rest with
  | [] => (r <- layer_backward A l input None ;; Ok [fst r])%out
  | p :: rest' =>
    (r <- layer_backward A l (l_output p) (Some (l_delta p)) ;;
     match snd r with
     | None => UB NullDeref
     | Some d => (ls <- backward_from (set_delta d p) rest' input ;; Ok (fst r :: ls))%out
     end)%out
  end.
Fixpoint omap {X Y} (f : X -> outcome Y) (xs : list X) : outcome (list Y) :=
  match xs with
  | [] => Ok []
  | x :: r => (y <- f x ;; ys <- omap f r ;; Ok (y :: ys))%out
  end.
(** neural.c:327-359 neural_learn *)
Definition neural_learn (n : nn T) (truth input : list T) : outcome (nn T) :=
  (ls <- omap zero_delta (nn_layers n) ;;
   match rev ls with
   | [] => UB NullDeref
   | p :: rest =>
     (p <- output_delta p truth ;;
      back <- backward_from p rest input ;;
      ls <- omap (layer_update A) (rev back) ;;
      Ok (mkNn ls (nn_inputs n) (nn_outputs n)))%out
   end)%out.
(** neural.c:368-376 neural_output *)
Definition neural_output (n : nn T) (i : Z) : outcome T :=
  if (i <? 0) || (nn_outputs n <=? i) then Exit
  else match rev (nn_layers n) with
       | [] => UB NullDeref
       | p :: _ => rd (l_output p) i
       end.
(** neural.c:449-469 neural_size: the number of active weights. *)
Definition neural_size (n : nn T) : Z :=
  fold_left (fun s l => if (l_type l =? CONNECTED) || (l_type l =? CONVOLUTIONAL) then s + l_n_active l else s) (nn_layers n) 0.
End Learn.

(** ** Building and changing networks *)
Section Ops.
Context (lm : libm).

(** neural.c:60-78: what a layer's parameters get from the layer before it. *)
Definition passes (t : Z) : bool :=
  (t =? AVGPOOL) || (t =? MAXPOOL) || (t =? DROPOUT) || (t =? UPSAMPLE) || (t =? SOFTMAX) || (t =? NOISE).
Definition pass_args (prev : option (layer f64)) (a : largs) : largs :=
  match prev with
  | None => a
  | Some p =>
    mkLargs (la_type a) (l_n_outputs p) (if passes (la_type a) then l_n_outputs p else la_n_init a) (la_n_max a) (la_grow a) (la_function a)
      (l_out_h p) (l_out_w p) (l_out_c p) (la_size a) (la_stride a) (la_pad a)
      (la_eta a) (la_eta_min a) (la_momentum a) (la_decay a) (la_probability a) (la_scale a)
      (la_evolve_weights a) (la_evolve_neurons a) (la_evolve_functions a) (la_evolve_eta a) (la_evolve_connect a) (la_sgd_weights a)
  end.
Fixpoint create_from (prev : option (layer f64)) (args : list largs) : RM (list (layer f64)) :=
  match args with
  | [] => ret []
  | a :: r => (l <- layer_init lm (pass_args prev a) ;; ls <- create_from (Some l) r ;; ret (l :: ls))%rng
  end.
(** The numbers kept by neural_push (neural.c:94-132, Llist.v): inputs of the first layer
    pushed, outputs of the last. *)
Definition of_layers (ls : list (layer f64)) : nn f64 :=
  mkNn ls (match ls with [] => 0 | l :: _ => l_n_inputs l end) (match rev ls with [] => 0 | l :: _ => l_n_outputs l end).
(** neural.c:53-86 neural_create *)
Definition neural_create (args : list largs) : RM (nn f64) :=
  (ls <- create_from None args ;;
   let n := of_layers ls in
   if (Z.of_nat (length ls) <? 1) || (nn_outputs n <? 1) || (nn_inputs n <? 1) then rexit else ret n)%rng.
(** neural.c:207-217 neural_copy *)
Definition neural_copy (src : nn f64) : outcome (nn f64) := (ls <- omap layer_copy (nn_layers src) ;; Ok (of_layers ls))%out.
(** neural.c:241-249 neural_rand *)
Fixpoint rmap {X Y} (f : X -> RM Y) (xs : list X) : RM (list Y) :=
  match xs with
  | [] => ret []
  | x :: r => (y <- f x ;; ys <- rmap f r ;; ret (y :: ys))%rng
  end.
Definition with_layers {T} (n : nn T) (ls : list (layer T)) : nn T := mkNn ls (nn_inputs n) (nn_outputs n).
Definition neural_rand (n : nn f64) : RM (nn f64) := (ls <- rmap (layer_rand lm) (nn_layers n) ;; ret (with_layers n ls))%rng.
(** neural.c:256-283 neural_mutate.  [prev] is the layer before and whether its number of outputs
    has just changed.  n_outputs of the network is left as it is. *)
Fixpoint mutate_from (fuel : nat) (prev : option (layer f64 * bool)) (ls : list (layer f64)) : RM (list (layer f64) * bool) :=
  match ls with
  | [] => ret ([], false)
  | l :: r =>
    (l1 <- match prev with Some (p, true) => layer_resize lm fuel l p | _ => ret l end ;;
     ' (l2, b) <- layer_mutate lm fuel l1 ;;
     ' (r, b') <- mutate_from fuel (Some (l2, negb (l_n_outputs l2 =? l_n_outputs l))) r ;;
     ret (l2 :: r, b || b'))%rng
  end.
Definition neural_mutate (fuel : nat) (n : nn f64) : RM (nn f64 * bool) :=
  (' (ls, b) <- mutate_from fuel None (nn_layers n) ;; ret (with_layers n ls, b))%rng.
(** neural.c:289-301 neural_resize *)
Fixpoint resize_from (fuel : nat) (prev : option (layer f64)) (ls : list (layer f64)) : RM (list (layer f64)) :=
  match ls with
  | [] => ret []
  | l :: r =>
    (l1 <- match prev with
           | Some p => if l_n_inputs l =? l_n_outputs p then ret l else layer_resize lm fuel l p
           | None => ret l
           end ;;
     r <- resize_from fuel (Some l1) r ;; ret (l1 :: r))%rng
  end.
Definition neural_resize (fuel : nat) (n : nn f64) : RM (nn f64) :=
  (ls <- resize_from fuel None (nn_layers n) ;; ret (with_layers n ls))%rng.
(** neural.c:309-319 neural_propagate *)
Fixpoint forward_from (train : bool) (ls : list (layer f64)) (input : list f64) : RM (list (layer f64)) :=
  match ls with
  | [] => ret []
  | l :: r => (l <- layer_forward lm train l input ;; r <- forward_from train r (l_output l) ;; ret (l :: r))%rng
  end.
Definition neural_propagate (train : bool) (n : nn f64) (input : list f64) : RM (nn f64) :=
  (ls <- forward_from train (nn_layers n) input ;; ret (with_layers n ls))%rng.
End Ops.

(** ** Networks as conditions, predictions and rules.  [train] stands for xcsf->explore at the
    time of the call. *)
Section Parts.
Context (K : cfg) (args : list largs) (train : bool).

(** cond_neural.c:117-126 and rule_neural.c:88-98 *)
Definition net_match (c : nn f64) (x : list f64) : RM (nn f64 * bool) :=
  (c <- neural_propagate (lm K) train c x ;; o <- lift (neural_output c 0) ;; ret (c, fgt o fhalf))%rng.
(** cond_neural.c:85-92 *)
Fixpoint net_cover (fuel : nat) (c : nn f64) (x : list f64) : RM (nn f64) :=
  match fuel with
  | O => rfuel
  | S f =>
    (c <- neural_rand (lm K) c ;;
     ' (c, b) <- net_match c x ;;
     if b : bool then ret c else net_cover f c x)%rng
  end.
(** cond_neural.c *)
Definition neural_cond : condT (nn f64) := mkCondT (nn f64)
  (neural_create (lm K) args) (fun c => lift (neural_copy c)) (net_cover (loop_fuel K)) net_match (fun c _ _ => ret c)
  (fun _ _ => Ok false) (fun c1 c2 => ret (c1, c2, false)) (neural_mutate (lm K) (loop_fuel K)) (fun c => of_Z (neural_size c)).

(** pred_neural.c:105-114 *)
Definition net_compute (c : nn f64) (v x : list f64) : RM (nn f64 * list f64) :=
  (c <- neural_propagate (lm K) train c x ;;
   v <- lift (ofor (y_dim K) (fun i v => (o <- neural_output c i ;; wr v i o)%out) v) ;;
   ret (c, v))%rng.
(** pred_neural.c *)
Definition neural_pred : predT (nn f64) := mkPredT (nn f64)
  (neural_create (lm K) args) (fun c => lift (neural_copy c)) net_compute
  (fun c _ v x y => (c <- lift (neural_learn (f64_arith (lm K)) c y x) ;; ret (c, v))%rng)
  (fun c1 c2 => ret (c1, c2, false)) (neural_mutate (lm K) (loop_fuel K)) (fun c => of_Z (neural_size c)).

Context (log2 : f64 -> f64).
(** rule_neural.c:34-47; log2 as in Dgp.v. *)
Definition rnet_init : RM (nn f64) :=
  (c <- neural_create (lm K) args ;;
   n <- lift (n_action_nodes K log2) ;;
   if nn_outputs c =? n + 1 then ret c else rexit)%rng.
(** rule_neural.c:237-252 *)
Definition rnet_compute (c : nn f64) : outcome Z :=
  (z <- ofor (nn_outputs c - 1) (fun i z =>
     v <- neural_output c (i + 1) ;;
     if fgt v fhalf then
       match to_int (m_pow (lm K) f2 (of_Z i)) with
       | None => UB BadCast
       | Some p => if in_int (z + p) then Ok (z + p) else UB IntOverflow
       end
     else Ok z) 0 ;;
   Ok (clamp_int z 0 (n_actions K - 1)))%out.
(** rule_neural.c:226-235: do { neural_rand } while (!match && compute != action). *)
Fixpoint rnet_cover (fuel : nat) (c : nn f64) (x : list f64) (action : Z) : RM (nn f64) :=
  match fuel with
  | O => rfuel
  | S f =>
    (c <- neural_rand (lm K) c ;;
     ' (c, b) <- net_match c x ;;
     if b : bool then ret c
     else a <- lift (rnet_compute c) ;;
          if a =? action then ret c else rnet_cover f c x action)%rng
  end.
Definition neural_rule : ruleT (nn f64) := mkRuleT (nn f64)
  rnet_init (fun c => lift (neural_copy c)) (rnet_cover (loop_fuel K)) net_match
  (fun c _ => (a <- lift (rnet_compute c) ;; ret (c, a))%rng) (neural_mutate (lm K) (loop_fuel K)) (fun c => of_Z (neural_size c)).
End Parts.
