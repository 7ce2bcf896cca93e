(** * Model of loss.c: error functions of a prediction and a target. *)
From Coq Require Import ZArith Bool List.
From Verif Require Import Outcome F64 Rng Arr Pop.
Import ListNotations.
Open Scope Z_scope.

(** loss.h:27-35. *)
Definition LOSS_MAE : Z := 0.
Definition LOSS_MSE : Z := 1.
Definition LOSS_RMSE : Z := 2.
Definition LOSS_LOG : Z := 3.
Definition LOSS_BINARY_LOG : Z := 4.
Definition LOSS_ONEHOT : Z := 5.
Definition LOSS_HUBER : Z := 6.

Section Loss.
Context (lm : libm) (ydim : Z) (delta : f64).   (* xcsf->y_dim, xcsf->HUBER_DELTA *)

(** for (i < y_dim) error += term(y[i], pred[i]); *)
Definition total (term : f64 -> f64 -> f64) (pred y : list f64) : outcome f64 :=
  ofor ydim (fun i e => (yi <- rd y i ;; pi <- rd pred i ;; Ok (fadd e (term yi pi)))%out) f0.

(** loss.c:34-43 loss_mae. *)
Definition loss_mae (pred y : list f64) : outcome f64 :=
  (e <- total (fun yi pi => fabs (fsub yi pi)) pred y ;; Ok (fdiv e (of_Z ydim)))%out.
(** loss.c:52-61 loss_mse. *)
Definition loss_mse (pred y : list f64) : outcome f64 :=
  (e <- total (fun yi pi => fmul (fsub yi pi) (fsub yi pi)) pred y ;; Ok (fdiv e (of_Z ydim)))%out.
(** loss.c:70-74 loss_rmse. *)
Definition loss_rmse (pred y : list f64) : outcome f64 :=
  (e <- loss_mse pred y ;; Ok (fsqrt e))%out.
(** loss.c:84-92 loss_log. *)
Definition loss_log (pred y : list f64) : outcome f64 :=
  (e <- total (fun yi pi => fmul yi (m_log lm (fmax pi dbl_epsilon))) pred y ;; Ok (fneg e))%out.
(** loss.c:101-110 loss_binary_log. *)
Definition loss_binary_log (pred y : list f64) : outcome f64 :=
  (e <- total (fun yi pi =>
          fadd (fmul yi (m_log lm (fmax pi dbl_epsilon)))
               (fmul (fsub f1 yi) (m_log lm (fmax (fsub f1 pi) dbl_epsilon)))) pred y ;;
   Ok (fneg e))%out.
(** utils.h:85-101 argmax over the first N elements. *)
Definition argmax (xs : list f64) (n : Z) : outcome Z :=
  if n <? 1 then Exit
  else (x0 <- rd xs 0 ;;
        r <- oloop (Z.to_nat (n - 1)) 1 (fun i (s : Z * f64) =>
               (v <- rd xs i ;; Ok (if fgt v (snd s) then (i, v) else s))%out) (0, x0) ;;
        Ok (fst r))%out.
(** loss.c:119-127 loss_onehot. *)
Definition loss_onehot (pred y : list f64) : outcome f64 :=
  (m <- argmax pred ydim ;; v <- rd y m ;; Ok (if fne v f1 then f1 else f0))%out.
(** loss.c:136-151 loss_huber. *)
Definition huber_term (yi pi : f64) : f64 :=
  let a := fsub yi pi in
  if fgt (fabs a) delta
  then fadd (fmul (fmul fhalf delta) delta) (fmul delta (fsub (fabs a) delta))
  else fmul (fmul fhalf a) a.
Definition loss_huber (pred y : list f64) : outcome f64 :=
  (e <- total huber_term pred y ;; Ok (fdiv e (of_Z ydim)))%out.

(** loss.c:158-189 loss_set_func; None: LOSS_INVALID, the pointer is left as it was. *)
Definition loss_of (type : Z) : option (list f64 -> list f64 -> outcome f64) :=
  if type =? LOSS_MAE then Some loss_mae
  else if type =? LOSS_MSE then Some loss_mse
  else if type =? LOSS_RMSE then Some loss_rmse
  else if type =? LOSS_LOG then Some loss_log
  else if type =? LOSS_BINARY_LOG then Some loss_binary_log
  else if type =? LOSS_ONEHOT then Some loss_onehot
  else if type =? LOSS_HUBER then Some loss_huber
  else None.
(** The total function Pop.v calls through xcsf->loss_ptr.  LossFacts.v proves that the
    loss of two arrays of at least y_dim elements is always [Ok]. *)
Definition loss_fun (type : Z) (pred y : list f64) : f64 :=
  match loss_of type with
  | Some f => match f pred y with Ok e => e | _ => fnan end
  | None => fnan
  end.
End Loss.
