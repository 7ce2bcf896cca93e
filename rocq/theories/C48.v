(** * C48 Convolution computes the zero-padded correlation. *)
From Coq Require Import ZArith Bool List Reals Lra Lia.
From Flocq Require Import Core BinarySingleNaN.
From Verif Require Import Outcome F64 F64Facts F64Bounds Rng Arr ArrFacts Blas BlasFacts Exact Demo Act ActFacts Image Layer LayerFacts PropConn PoolFacts PropPool ConvFacts PropConv.
Import ListNotations.
Open Scope Z_scope.

(** Exact arithmetic; any image, filters, stride and padding, as long as filters of one cell have
    stride 1 and no padding and the int indexing the workspace cannot overflow: each neuron state is
    the bias plus the zero-padded strided correlation, limited to +-100; only the workspace, states
    and outputs change. *)
Theorem C48 :
  forall (l : layer R) (input : list R) (f : R -> R),
  conv_shape l ->
  conv_plain l ->
  conv_small l ->
  len input = l_n_inputs l ->
  denotes (neural_activate R_arith) (l_function l) f ->
  exists st out tmp : list R,
    convolutional_forward R_arith l input = Ok (set_temp tmp (set_state st (set_output out l))) /\
    len st = l_n_outputs l /\
    len out = l_n_outputs l /\
    len tmp = len (l_temp l) /\
    (forall g y x : Z,
     0 <= g < l_n_filters l ->
     0 <= y < l_out_h l ->
     0 <= x < l_out_w l ->
     let o := x + l_out_w l * (y + l_out_h l * g) in
     at_ 0%R st o =
     rclamp
       (at_ 0%R (l_biases l) g +
        correlation (l_channels l) (l_height l) (l_width l) (l_size l) (l_stride l) 
          (l_pad l) (l_weights l) input g y x) /\ at_ 0%R out o = f (at_ 0%R st o)).
Proof. exact @C48_lemma. Qed.
Print Assumptions C48.

(** The same in double precision, with the order of the operations. *)
Theorem C48_doubles :
  forall (lm : libm) (l : layer f64) (input : list f64) (f : f64 -> f64),
  conv_shape l ->
  conv_plain l ->
  conv_small l ->
  len input = l_n_inputs l ->
  (forall x : f64, neural_activate (f64_arith lm) (l_function l) x = Ok (f x)) ->
  exists st out tmp : list f64,
    convolutional_forward (f64_arith lm) l input = Ok (set_temp tmp (set_state st (set_output out l))) /\
    len st = l_n_outputs l /\
    len out = l_n_outputs l /\
    len tmp = len (l_temp l) /\
    (forall g y x : Z,
     0 <= g < l_n_filters l ->
     0 <= y < l_out_h l ->
     0 <= x < l_out_w l ->
     let o := x + l_out_w l * (y + l_out_h l * g) in
     let K := l_channels l * l_size l * l_size l in
     at_ f0 st o =
     clamp
       (fadd
          (fold_left
             (fun (s : f64) (k : Z) =>
              fadd s
                (fmul (fmul (of_Z 1) (at_ f0 (l_weights l) (g * K + k)))
                   (let i := (k / l_size l) mod l_size l + y * l_stride l - l_pad l in
                    let j := k mod l_size l + x * l_stride l - l_pad l in
                    if (0 <=? i) && (i <? l_height l) && (0 <=? j) && (j <? l_width l)
                    then at_ f0 input (j + l_width l * (i + l_height l * (k / l_size l / l_size l)))
                    else f0))) (iota K) (fmul (of_Z 0) (of_Z 1))) (at_ f0 (l_biases l) g)) 
       (of_Z (-100)) (of_Z 100) /\ at_ f0 out o = f (at_ f0 st o)).
Proof. exact @C48_doubles_lemma. Qed.
Print Assumptions C48_doubles.

(** Every layer the constructor returns is as assumed, if the filters are not larger than the padded
    image. *)
Theorem C48_init :
  forall (lm : libm) (a : largs) (r : rng) (l : layer f64) (r' : rng),
  convolutional_init lm a r = Ok (l, r') ->
  1 <= la_height a ->
  1 <= la_width a -> 1 <= la_channels a -> 1 <= la_size a -> 1 <= l_out_h l -> conv_shape l.
Proof. exact @C48_init_lemma. Qed.
Print Assumptions C48_init.

(** col2im is the adjoint of im2col: for every image x and columns c, the inner product of c with
    im2col x is that of what col2im c adds with x. *)
Theorem C48_adjoint :
  forall (im im0 col col0 : list R) (C H W s st pad oh ow : Z),
  1 <= s ->
  1 <= C ->
  C * s * s < 2 ^ 31 ->
  conv_out H pad s st = Ok oh ->
  conv_out W pad s st = Ok ow ->
  0 <= H ->
  0 <= W ->
  0 <= oh ->
  0 <= ow ->
  ow * (oh * (C * s * s)) <= 2 ^ 31 ->
  len col = ow * (oh * (C * s * s)) ->
  len col0 = len col ->
  len im = W * (H * C) ->
  len im0 = len im ->
  exists col' im' : list R,
    im2col R_num im C H W s st pad col0 = Ok col' /\
    len col' = len col /\
    col2im R_num col C H W s st pad im0 = Ok im' /\
    len im' = len im /\
    rsum (len col) (fun q : Z => (at_ 0 col q * at_ 0 col' q)%R) =
    rsum (len im) (fun p : Z => ((at_ 0 im' p - at_ 0 im0 p) * at_ 0 im p)%R).
Proof. exact @C48_adjoint_lemma. Qed.
Print Assumptions C48_adjoint.

(** When the int can overflow, it does. *)
Theorem C48_overflow :
  forall (T : Type) (A : arith T) (l : layer T) (input : list T),
  conv_shape l ->
  l_size l <> 1 ->
  ~ conv_small l -> len input = l_n_inputs l -> convolutional_forward A l input = UB IntOverflow.
Proof. exact @C48_overflow_lemma. Qed.
Print Assumptions C48_overflow.

(** REFUTED for filters of one cell: the stride is ignored; the second output is computed from the
    second pixel instead of the third. *)
Theorem C48_refuted_stride :
  exists (l : layer f64) (input : list f64),
    conv_shape l /\
    l_size l = 1 /\
    l_stride l = 2 /\
    l_pad l = 0 /\
    len input = l_n_inputs l /\
    (forall lm : libm,
     match convolutional_forward (f64_arith lm) l input with
     | Ok l' =>
         map to_int (l_output l') = [Some 1; Some 2] /\
         l_out_w l = 2 /\ to_int (at_ f0 input (1 * l_stride l)) = Some 3
     | _ => False
     end).
Proof. exact @C48_refuted_stride_lemma. Qed.
Print Assumptions C48_refuted_stride.

(** REFUTED for filters of one cell: with padding the input is read past its end. *)
Theorem C48_refuted_pad :
  exists (l : layer f64) (input : list f64),
    conv_shape l /\
    l_size l = 1 /\
    l_stride l = 1 /\
    l_pad l = 1 /\
    len input = l_n_inputs l /\
    (forall lm : libm, convolutional_forward (f64_arith lm) l input = UB OutOfBounds).
Proof. exact @C48_refuted_pad_lemma. Qed.
Print Assumptions C48_refuted_pad.

(** REFUTED for a 1046 x 1046 image and one 47 x 47 filter: an int overflows. *)
Theorem C48_refuted_overflow :
  exists l : layer f64,
    conv_shape l /\
    conv_plain l /\
    l_height l = 1046 /\
    l_width l = 1046 /\
    l_channels l = 1 /\
    l_size l = 47 /\
    l_n_filters l = 1 /\
    l_stride l = 1 /\
    l_pad l = 0 /\
    (forall (lm : libm) (input : list f64),
     len input = l_n_inputs l -> convolutional_forward (f64_arith lm) l input = UB IntOverflow).
Proof. exact @C48_refuted_overflow_lemma. Qed.
Print Assumptions C48_refuted_overflow.

(** REFUTED for filters larger than the image: the outputs are computed from memory nobody has
    written. *)
Theorem C48_refuted_size :
  exists (a : largs) (r : rng),
    1 <= la_height a /\
    1 <= la_width a /\
    1 <= la_channels a /\
    1 <= la_size a /\
    1 <= la_stride a /\
    0 <= la_pad a /\
    match convolutional_init demo_lm a r with
    | Ok (l, _) =>
        l_out_h l = -2 /\
        l_out_w l = -2 /\
        l_n_outputs l = 4 /\
        len (l_temp l) = 64 /\
        (let l0 := set_weights (zeros f1 16) l in
         let run :=
           fun t : Z =>
           match convolutional_forward (f64_arith demo_lm) (set_temp (zeros (of_Z t) 64) l0) [f0] with
           | Ok l' => map to_int (l_output l')
           | _ => []
           end in
         run 1 = [Some 16; Some 16; Some 16; Some 16] /\ run 2 = [Some 32; Some 32; Some 32; Some 32])
    | _ => False
    end.
Proof. exact @C48_refuted_size_lemma. Qed.
Print Assumptions C48_refuted_size.

(** A 3 x 3 image, one filter of 2 x 2, stride 2, padding 1; 2 x 2 outputs. *)
Definition C48_layer {T} (z : T) (w : list T) : layer T := conv_layer z 3 3 1 1 2 2 1 2 2 w [].
Example C48_example :
  conv_shape (C48_layer f0 (map of_Z [1; 2; 3; 4])) /\ conv_shape (C48_layer 0%R [1%R; 2%R; 3%R; 4%R]) /\
  conv_plain (C48_layer f0 (map of_Z [1; 2; 3; 4])) /\ conv_small (C48_layer f0 (map of_Z [1; 2; 3; 4])) /\
  match convolutional_forward (f64_arith demo_lm) (C48_layer f0 (map of_Z [1; 2; 3; 4])) (map of_Z [1; 2; 3; 4; 5; 6; 7; 8; 9]) with
  | Ok l => map to_int (l_output l) = [Some 4; Some 18; Some 36; Some 77]
  | _ => False
  end.
Proof.
  split; [apply conv_layer_shape; try reflexivity; vm_compute; discriminate|].
  split; [apply conv_layer_shape; try reflexivity; vm_compute; discriminate|].
  split; [vm_compute; discriminate|]. split; [vm_compute; discriminate|]. vm_compute. reflexivity.
Qed.
