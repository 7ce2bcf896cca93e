(** * C47 Pooling and resampling index safely and compute what they say. *)
From Coq Require Import ZArith Bool List Reals Lra Lia.
From Flocq Require Import Core BinarySingleNaN.
From Verif Require Import Outcome F64 F64Facts F64Bounds Rng Arr ArrFacts Blas BlasFacts Exact Demo Act ActFacts Image Layer LayerFacts PropConn PoolFacts PropPool.
Import ListNotations.
Open Scope Z_scope.

(** Every layer the constructors accept, for images with at least one row, column and channel, has
    consistent dimensions and arrays; upsampling needs a positive stride (see C47_refuted_stride).
    *)
Theorem C47_init :
  forall (a : largs) (l : layer f64),
  1 <= la_height a ->
  1 <= la_width a ->
  1 <= la_channels a ->
  (avgpool_init a = Ok l -> avg_shape l) /\
  (upsample_init a = Ok l -> 1 <= la_stride a -> up_shape l) /\ (maxpool_init a = Ok l -> max_shape l).
Proof. exact @C47_init_lemma. Qed.
Print Assumptions C47_init.

(** Average pooling: the outputs are the means of the channels, the backward pass spreads each delta
    evenly, all accesses in range. *)
Theorem C47_average :
  forall (l : layer R) (input : list R) (od : option (list R)),
  avg_shape l ->
  len input = l_n_inputs l ->
  (forall dl : list R, od = Some dl -> len dl = l_n_inputs l) ->
  let n := l_height l * l_width l in
  (exists out : list R,
     avgpool_forward R_arith l input = Ok (set_output out l) /\
     len out = l_channels l /\
     (forall k : Z,
      0 <= k < l_channels l -> at_ 0%R out k = (rsum n (fun i : Z => at_ 0 input (i + n * k)) / IZR n)%R)) /\
  (exists od' : option (list R),
     avgpool_backward R_arith l od = Ok od' /\
     match od with
     | Some dl =>
         exists dl' : list R,
           od' = Some dl' /\
           len dl' = len dl /\
           (forall k i : Z,
            0 <= k < l_channels l ->
            0 <= i < n -> at_ 0%R dl' (i + n * k) = (at_ 0 dl (i + n * k) + at_ 0 (l_delta l) k / IZR n)%R)
     | None => od' = None
     end).
Proof. exact @C47_average_lemma. Qed.
Print Assumptions C47_average.

(** The same in double precision, with the order of the operations. *)
Theorem C47_average_doubles :
  forall (lm : libm) (l : layer f64) (input : list f64) (od : option (list f64)),
  avg_shape l ->
  len input = l_n_inputs l ->
  (forall dl : list f64, od = Some dl -> len dl = l_n_inputs l) ->
  let n := l_height l * l_width l in
  (exists out : list f64,
     avgpool_forward (f64_arith lm) l input = Ok (set_output out l) /\
     len out = l_channels l /\
     (forall k : Z,
      0 <= k < l_channels l ->
      at_ f0 out k =
      fdiv (fold_left (fun (s : f64) (i : Z) => fadd s (at_ f0 input (i + n * k))) (iota n) f0) (of_Z n))) /\
  (exists od' : option (list f64),
     avgpool_backward (f64_arith lm) l od = Ok od' /\
     match od with
     | Some dl =>
         exists dl' : list f64,
           od' = Some dl' /\
           len dl' = len dl /\
           (forall k i : Z,
            0 <= k < l_channels l ->
            0 <= i < n ->
            at_ f0 dl' (i + n * k) = fadd (at_ f0 dl (i + n * k)) (fdiv (at_ f0 (l_delta l) k) (of_Z n)))
     | None => od' = None
     end).
Proof. exact @C47_average_doubles_lemma. Qed.
Print Assumptions C47_average_doubles.

(** Max pooling in double precision, for every accepted geometry and all inputs: if each window has
    a cell greater than -DBL_MAX, each output is a cell of its window that is less than none of the
    others, and the index recorded is its position; otherwise the program ends. *)
Theorem C47_max :
  forall (lm : libm) (l : layer f64) (input : list f64),
  max_shape l ->
  len input = l_n_inputs l ->
  let at_in := fun k y x : Z => at_ f0 input (pixel (l_height l) (l_width l) k y x) in
  let m := maxpool_forward (f64_arith lm) l input in
  ((forall k i j : Z,
    0 <= k < l_channels l ->
    0 <= i < l_out_h l ->
    0 <= j < l_out_w l -> exists y x : Z, window l i j y x /\ flt (fneg dbl_max) (at_in k y x) = true) ->
   exists (ix : list Z) (out : list f64),
     m = Ok (set_indexes ix (set_output out l)) /\
     max_shape (set_indexes ix (set_output out l)) /\
     (forall k i j : Z,
      0 <= k < l_channels l ->
      0 <= i < l_out_h l ->
      0 <= j < l_out_w l ->
      let o := pixel (l_out_h l) (l_out_w l) k i j in
      exists y x : Z,
        window l i j y x /\
        at_ 0 ix o = pixel (l_height l) (l_width l) k y x /\
        at_ f0 out o = at_in k y x /\
        (forall y' x' : Z, window l i j y' x' -> flt (at_ f0 out o) (at_in k y' x') = false))) /\
  ((exists k i j : Z,
      0 <= k < l_channels l /\
      0 <= i < l_out_h l /\
      0 <= j < l_out_w l /\ (forall y x : Z, window l i j y x -> flt (fneg dbl_max) (at_in k y x) = false)) ->
   m = Exit).
Proof. exact @C47_max_lemma. Qed.
Print Assumptions C47_max.

(** The backward pass adds each delta to the input recorded as the winner, and to no other. *)
Theorem C47_max_back :
  forall (l : layer R) (od : option (list R)),
  max_shape l ->
  (forall dl : list R, od = Some dl -> len dl = l_n_inputs l) ->
  exists od' : option (list R),
    maxpool_backward R_arith l od = Ok od' /\
    match od with
    | Some dl =>
        exists dl' : list R,
          od' = Some dl' /\
          len dl' = len dl /\
          (forall p : Z,
           0 <= p < len dl ->
           at_ 0%R dl' p =
           (at_ 0 dl p +
            rsum (l_n_outputs l)
              (fun o : Z => if at_ 0%Z (l_indexes l) o =? p then at_ 0 (l_delta l) o else 0))%R)
    | None => od' = None
    end.
Proof. exact @C47_max_back_lemma. Qed.
Print Assumptions C47_max_back.

(** The same in double precision, with the order of the additions. *)
Theorem C47_max_back_doubles :
  forall (lm : libm) (l : layer f64) (od : option (list f64)),
  max_shape l ->
  (forall dl : list f64, od = Some dl -> len dl = l_n_inputs l) ->
  exists od' : option (list f64),
    maxpool_backward (f64_arith lm) l od = Ok od' /\
    match od with
    | Some dl =>
        exists dl' : list f64,
          od' = Some dl' /\
          len dl' = len dl /\
          (forall p : Z,
           0 <= p < len dl ->
           at_ f0 dl' p =
           fold_left
             (fun (s : f64) (o : Z) =>
              if at_ 0 (l_indexes l) o =? p then fadd s (at_ f0 (l_delta l) o) else s)
             (iota (l_n_outputs l)) (at_ f0 dl p))
    | None => od' = None
    end.
Proof. exact @C47_max_back_doubles_lemma. Qed.
Print Assumptions C47_max_back_doubles.

(** Geometries for which every window has a cell of the image: max pooling then does not end the
    program for inputs above -DBL_MAX. *)
Theorem C47_max_ends :
  forall (lm : libm) (l : layer f64) (input : list f64),
  max_shape l ->
  len input = l_n_inputs l ->
  1 <= l_stride l ->
  0 <= l_pad l ->
  l_pad l + 1 < 2 * l_size l ->
  l_size l <= l_height l + l_pad l ->
  l_size l <= l_width l + l_pad l ->
  Forall (fun v : f64 => flt (fneg dbl_max) v = true) input ->
  exists l' : layer f64, maxpool_forward (f64_arith lm) l input = Ok l'.
Proof. exact @C47_max_ends_lemma. Qed.
Print Assumptions C47_max_ends.

(** Upsampling repeats every input in a square of stride times stride outputs, in any arithmetic. *)
Theorem C47_upsample :
  forall (T : Type) (l : layer T) (d : T) (input : list T),
  up_shape l ->
  len input = l_n_inputs l ->
  let h := l_height l in
  let w := l_width l in
  let s := l_stride l in
  exists out : list T,
    upsample_forward l input = Ok (set_output out l) /\
    len out = l_n_outputs l /\
    (forall k y x a b : Z,
     0 <= k < l_channels l ->
     0 <= y < h ->
     0 <= x < w ->
     0 <= a < s ->
     0 <= b < s ->
     at_ d out (pixel (h * s) (w * s) k (s * y + a) (s * x + b)) = at_ d input (pixel h w k y x)).
Proof. exact @C47_upsample_lemma. Qed.
Print Assumptions C47_upsample.

(** Its backward pass adds the sum of the deltas of that square. *)
Theorem C47_upsample_back :
  forall (l : layer R) (od : option (list R)),
  up_shape l ->
  (forall dl : list R, od = Some dl -> len dl = l_n_inputs l) ->
  let h := l_height l in
  let w := l_width l in
  let s := l_stride l in
  exists od' : option (list R),
    upsample_backward R_arith l od = Ok od' /\
    match od with
    | Some dl =>
        exists dl' : list R,
          od' = Some dl' /\
          len dl' = len dl /\
          (forall k y x : Z,
           0 <= k < l_channels l ->
           0 <= y < h ->
           0 <= x < w ->
           at_ 0%R dl' (pixel h w k y x) =
           (at_ 0 dl (pixel h w k y x) +
            rsum s
              (fun a : Z =>
               rsum s (fun b : Z => at_ 0 (l_delta l) (pixel (h * s) (w * s) k (s * y + a) (s * x + b)))))%R)
    | None => od' = None
    end.
Proof. exact @C47_upsample_back_lemma. Qed.
Print Assumptions C47_upsample_back.

(** REFUTED: upsampling with a negative stride is accepted, and the outputs stay 0. *)
Theorem C47_refuted_stride :
  exists a : largs,
    (forall l : layer f64, avgpool_init a = Ok l -> avg_shape l) /\
    match upsample_init a with
    | Ok l =>
        len (l_output l) = 4 /\
        l_n_inputs l = 4 /\
        upsample_forward l [f1; f1; f1; f1] = Ok l /\
        map (fun v : f64 => feq v f0) (l_output l) = [true; true; true; true]
    | _ => False
    end.
Proof. exact @C47_refuted_stride_lemma. Qed.
Print Assumptions C47_refuted_stride.

(** REFUTED: a max pooling layer with a window outside the image is accepted, and every use ends the
    program. *)
Theorem C47_refuted_window :
  forall lm : libm,
  exists (a : largs) (l : layer f64),
    maxpool_init a = Ok l /\
    max_shape l /\
    (forall input : list f64, len input = l_n_inputs l -> maxpool_forward (f64_arith lm) l input = Exit).
Proof. exact @C47_refuted_window_lemma. Qed.
Print Assumptions C47_refuted_window.

(** REFUTED: a stride of 0 divides by zero in the constructor. *)
Theorem C47_refuted_zero :
  exists a : largs, maxpool_init a = UB DivByZero.
Proof. exact @C47_refuted_zero_lemma. Qed.
Print Assumptions C47_refuted_zero.

(** A 3 x 3 image with windows of 2 x 2 cells, 2 apart, one row and column of padding at the end;
    the gradients 10, 20, 30, 40 go to 5, 6, 8, 9; upsampling (1, 2) by 2. *)
Definition ints (l : list f64) : list (option Z) := map to_int l.
Example C47_example :
  match maxpool_init (pool_args 3 3 1 2 2 1) with
  | Ok l => l_stride l = 2 /\ l_out_h l = 2 /\ l_out_w l = 2 /\
      match maxpool_forward (f64_arith demo_lm) l (map of_Z [1; 2; 3; 4; 5; 6; 7; 8; 9]) with
      | Ok l1 => ints (l_output l1) = map Some [5; 6; 8; 9] /\ l_indexes l1 = [4; 5; 7; 8] /\
          match maxpool_backward (f64_arith demo_lm) (set_delta (map of_Z [10; 20; 30; 40]) l1) (Some (zeros f0 9)) with
          | Ok (Some d) => ints d = map Some [0; 0; 0; 0; 10; 20; 0; 30; 40]
          | _ => False
          end
      | _ => False
      end
  | _ => False
  end /\
  match upsample_init (pool_args 1 2 1 1 2 0) with
  | Ok l => match upsample_forward l [of_Z 1; of_Z 2] with
      | Ok l1 => ints (l_output l1) = map Some [1; 1; 2; 2; 1; 1; 2; 2]
      | _ => False
      end /\
      match upsample_backward (f64_arith demo_lm) (set_delta (map of_Z [1; 2; 3; 4; 5; 6; 7; 8]) l) (Some (zeros f0 2)) with
      | Ok (Some d) => ints d = map Some [14; 22]
      | _ => False
      end
  | _ => False
  end /\
  match avgpool_init (pool_args 1 2 2 1 1 0) with
  | Ok l => match avgpool_forward (f64_arith demo_lm) l (map of_Z [1; 3; 10; 20]) with
      | Ok l1 => ints (l_output l1) = map Some [2; 15]
      | _ => False
      end
  | _ => False
  end.
Proof. vm_compute. repeat split; reflexivity. Qed.
