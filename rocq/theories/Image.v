(** * Image buffers: /repo/xcsf/image.c, for any type of numbers. *)
From Coq Require Import ZArith Bool List.
From Verif Require Import Outcome F64 Rng Arr Blas Clock.
Import ListNotations.
Open Scope Z_scope.

(** The C division of ints (truncation; division by zero is undefined, INT_MIN / -1
    overflows) and a chain of checked products. *)
Definition cdiv (a b : Z) : outcome Z := if b =? 0 then UB DivByZero else cint (Z.quot a b).
Fixpoint cprod (acc : Z) (l : list Z) : outcome Z :=
  match l with
  | [] => Ok acc
  | x :: r => (p <- cint (acc * x) ;; cprod p r)%out
  end.

(** (dim + 2 * pad - ksize) / stride + 1; image.c:66-67, neural_layer_convolutional.c:50-65 *)
Definition conv_out (dim pad ksize stride : Z) : outcome Z :=
  (p <- cint (2 * pad) ;; s <- cint (dim + p) ;; s <- cint (s - ksize) ;; q <- cdiv s stride ;; cint (q + 1))%out.

Section Image.
Context {T : Type} (Q : num T).

(** image.c:26-36 *)
Definition col2im_add_pixel (im : list T) (height width row col channel pad : Z) (val : T) : outcome (list T) :=
  let row := row - pad in
  let col := col - pad in
  if (row <? 0) || (col <? 0) || (height <=? row) || (width <=? col) then Ok im
  else modify_at im (col + width * (row + height * channel)) (fun x => nadd Q x val).

(** image.c:38-48 *)
Definition im2col_get_pixel (im : list T) (height width row col channel pad : Z) : outcome T :=
  let row := row - pad in
  let col := col - pad in
  if (row <? 0) || (col <? 0) || (height <=? row) || (width <=? col) then Ok (n0 Q)
  else rd im (col + width * (row + height * channel)).

(** image.c:62-85.  Of the int arithmetic in the loops only [col_index], the largest
    value, is checked for overflow. *)
Definition col2im (data_col : list T) (channels height width ksize stride pad : Z) (data_im : list T)
  : outcome (list T) :=
  (height_col <- conv_out height pad ksize stride ;;
   width_col <- conv_out width pad ksize stride ;;
   channels_col <- cprod channels [ksize; ksize] ;;
   ofor channels_col (fun c im =>
     let w_offset := Z.rem c ksize in
     let h_offset := Z.rem (Z.quot c ksize) ksize in
     let c_im := Z.quot (Z.quot c ksize) ksize in
     ofor height_col (fun h im =>
       ofor width_col (fun w im =>
         let im_row := h_offset + h * stride in
         let im_col := w_offset + w * stride in
         (col_index <- cint ((c * height_col + h) * width_col + w) ;;
          val <- rd data_col col_index ;;
          col2im_add_pixel im height width im_row im_col c_im pad val)%out) im) im) data_im)%out.

(** image.c:99-121 *)
Definition im2col (data_im : list T) (channels height width ksize stride pad : Z) (data_col : list T)
  : outcome (list T) :=
  (height_col <- conv_out height pad ksize stride ;;
   width_col <- conv_out width pad ksize stride ;;
   channels_col <- cprod channels [ksize; ksize] ;;
   ofor channels_col (fun c col =>
     let w_offset := Z.rem c ksize in
     let h_offset := Z.rem (Z.quot c ksize) ksize in
     let c_im := Z.quot (Z.quot c ksize) ksize in
     ofor height_col (fun h col =>
       ofor width_col (fun w col =>
         let im_row := h_offset + h * stride in
         let im_col := w_offset + w * stride in
         (col_index <- cint ((c * height_col + h) * width_col + w) ;;
          p <- im2col_get_pixel data_im height width im_row im_col c_im pad ;;
          wr col col_index p)%out) col) col) data_col)%out.
End Image.
