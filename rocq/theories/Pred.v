(** * Predictions: /repo/xcsf/pred_constant.c, pred_nlms.c, pred_rls.c, prediction.c:264-286.

    The arithmetic is written for any numbers ([num], see Blas.v). *)
From Coq Require Import ZArith Bool List.
From Verif Require Import Outcome F64 Rng Arr Blas Sam Pop.
Import ListNotations.
Open Scope Z_scope.

(** prediction.h:29-34. *)
Definition PRED_TYPE_CONSTANT : Z := 0.
Definition PRED_TYPE_NLMS_LINEAR : Z := 1.
Definition PRED_TYPE_NLMS_QUADRATIC : Z := 2.
Definition PRED_TYPE_RLS_LINEAR : Z := 3.
Definition PRED_TYPE_RLS_QUADRATIC : Z := 4.
Definition PRED_TYPE_NEURAL : Z := 5.

Section Arith.
Context {T : Type} (Q : num T).

(** prediction.c:264-286 pred_transform_input: fills [tmp] from index 0. *)
Definition transform_input (xdim : Z) (quad : bool) (x : list T) (x0 : T) (tmp : list T)
  : outcome (list T) :=
  (tmp <- wr tmp 0 x0 ;;
   s <- ofor xdim (fun i (st : list T * Z) =>
          let '(tmp, idx) := st in
          xi <- rd x i ;; tmp' <- wr tmp idx xi ;; Ok (tmp', idx + 1)) (tmp, 1) ;;
   if quad then
     s <- ofor xdim (fun i st =>
            ofor (xdim - i) (fun d (st : list T * Z) =>   (* j = i + d *)
              let '(tmp, idx) := st in
              xi <- rd x i ;; xj <- rd x (i + d) ;;
              tmp' <- wr tmp idx (nmul Q xi xj) ;; Ok (tmp', idx + 1)) st) s ;;
     Ok (fst s)
   else Ok (fst s))%out.

(** pred_nlms.c:49-54, pred_rls.c:39-44: number of features. *)
Definition n_features (xdim : Z) (quad : bool) : Z :=
  if quad then 1 + 2 * xdim + Z.quot (xdim * (xdim - 1)) 2 else xdim + 1.

(** pred_nlms.c:56-58, pred_rls.c:46-48: calloc then blas_fill with stride n. *)
Definition init_weights (ydim n : Z) (x0 : T) : outcome (list T) :=
  blas_fill ydim x0 (repeat (n0 Q) (Z.to_nat (n * ydim))) n.

(** pred_nlms.c:143-146, pred_rls.c:163-166. *)
Definition inner_products (ydim n : Z) (weights tmp pred : list T) : outcome (list T) :=
  ofor ydim (fun i p => (v <- blas_dot Q n weights (i * n) 1 tmp 1 ;; wr p i v)%out) pred.

(** pred_nlms.c:114-129 pred_nlms_update (weights only). *)
Definition nlms_weights (xdim ydim n : Z) (x0 eta : T) (x y pred tmp weights : list T)
  : outcome (list T) :=
  (d <- blas_dot Q xdim x 0 1 x 1 ;;
   let norm := nadd Q (nmul Q x0 x0) d in
   ofor ydim (fun i w =>
     yi <- rd y i ;; pi <- rd pred i ;;
     let error := nsub Q yi pi in
     let correction := ndiv Q (nmul Q eta error) norm in
     blas_axpy Q n correction tmp 1 w (i * n) 1) weights)%out.

(** pred_rls.c:50-54: the initial gain matrix. *)
Definition init_matrix (n : Z) (scale : T) : outcome (list T) :=
  ofor n (fun i m => wr m (i * n + i) scale) (repeat (n0 Q) (Z.to_nat (n * n))).

(** pred_rls.c:105-149 pred_rls_update: weights and gain matrix.  The temporaries
    tmp_vec, tmp_matrix1 and tmp_matrix2 are calloc'ed once and multiplied by BETA = 0
    before use; their old contents are [vec0], [mat2]. *)
Definition rls_update (ydim n : Z) (lambda : T) (y pred tmp vec0 mat1 mat2 weights matrix : list T)
  : outcome (list T * list T * (list T * list T * list T)) :=
  (vec <- blas_gemm Q false false n 1 n (n1 Q) matrix n tmp 1 (n0 Q) vec0 1 ;;
   d <- blas_dot Q n tmp 0 1 vec 1 ;;
   let divisor := ndiv Q (n1 Q) (nadd Q d lambda) in
   vec <- blas_scal Q n divisor vec 1 ;;
   w <- ofor ydim (fun i w =>
          yi <- rd y i ;; pi <- rd pred i ;;
          blas_axpy Q n (nsub Q yi pi) vec 1 w (i * n) 1) weights ;;
   m1 <- ofor n (fun i m1 => ofor n (fun j m1 =>
           vi <- rd vec i ;; tj <- rd tmp j ;;
           let t := nmul Q vi tj in
           wr m1 (i * n + j) (if i =? j then nsub Q (n1 Q) t else nneg Q t)) m1) mat1 ;;
   m2 <- blas_gemm Q false false n n n (n1 Q) m1 n matrix n (n0 Q) mat2 n ;;
   mt <- ofor n (fun i mt => ofor n (fun j mt =>
           v <- rd m2 (i * n + j) ;; wr mt (i * n + j) (ndiv Q v lambda)) mt) matrix ;;
   Ok (w, mt, (vec, m1, m2)))%out.

(** pred_constant.c:73-88 pred_constant_update; [warm]: exp * BETA < 1; [e], [e1] are exp
    and exp - 1. *)
Definition constant_update (ydim : Z) (warm : bool) (e e1 beta : T) (pred y : list T) : outcome (list T) :=
  if warm
  then ofor ydim (fun i p => (pi <- rd p i ;; yi <- rd y i ;;
         wr p i (ndiv Q (nadd Q (nmul Q pi e1) yi) e))%out) pred
  else ofor ydim (fun i p => (pi <- rd p i ;; yi <- rd y i ;;
         wr p i (nadd Q pi (nmul Q beta (nsub Q yi pi))))%out) pred.
End Arith.

(** prediction.h:50-59 struct ArgsPred. *)
Record ppar := mkPpar {
  pp_type : Z; pp_evolve_eta : bool; pp_eta : f64; pp_eta_min : f64; pp_lambda : f64;
  pp_scale_factor : f64; pp_x0 : f64
}.

Section Pred.
Context (K : cfg) (P : ppar).

Definition quad : bool :=
  (pp_type P =? PRED_TYPE_NLMS_QUADRATIC) || (pp_type P =? PRED_TYPE_RLS_QUADRATIC).

(** malloc'ed tmp_input: [pred_*_compute] fills it before [pred_*_update] reads it; reading
    it earlier is not distinguished (DESIGN.md). *)
Definition alloc_tmp (n : Z) : list f64 := repeat fnan (Z.to_nat n).

(** pred_nlms.h struct PredNLMS. *)
Record nlms := mkNlms { nl_n : Z; nl_weights : list f64; nl_mu : list f64; nl_eta : f64; nl_tmp : list f64 }.

(** pred_nlms.c:29-36 *)
Definition nlms_mu_type : list Z := [SAM_LOG_NORMAL].

(** pred_nlms.c:43-70 pred_nlms_init (the type test there is on NLMS_QUADRATIC alone). *)
Definition nlms_init : RM nlms :=
  let n := n_features (x_dim K) (pp_type P =? PRED_TYPE_NLMS_QUADRATIC) in
  (w <- lift (init_weights f64_num (y_dim K) n (pp_x0 P)) ;;
   if pp_evolve_eta P then
     mu <- sam_init nlms_mu_type ;;
     eta <- rand_uniform (pp_eta_min P) (pp_eta P) ;;
     ret (mkNlms n w mu eta (alloc_tmp n))
   else ret (mkNlms n w [f0] (pp_eta P) (alloc_tmp n)))%rng.

(** pred_nlms.c:78-88 pred_nlms_copy: init (which draws random numbers) then memcpy of the
    source's n_weights values. *)
Definition overwrite (dst src : list f64) : outcome (list f64) :=
  if Nat.ltb (length dst) (length src) then UB OutOfBounds
  else Ok (src ++ skipn (length src) dst).
Definition nlms_copy (src : nlms) : RM nlms :=
  (d <- nlms_init ;;
   w <- lift (overwrite (nl_weights d) (nl_weights src)) ;;
   ret (mkNlms (nl_n d) w (nl_mu src) (nl_eta src) (nl_tmp d)))%rng.

(** pred_nlms.c:114-129 *)
Definition nlms_update (c : nlms) (pred x y : list f64) : outcome nlms :=
  (w <- nlms_weights f64_num (x_dim K) (y_dim K) (nl_n c) (pp_x0 P) (nl_eta c) x y pred (nl_tmp c) (nl_weights c) ;;
   Ok (mkNlms (nl_n c) w (nl_mu c) (nl_eta c) (nl_tmp c)))%out.

(** pred_nlms.c:137-147 *)
Definition nlms_compute (c : nlms) (pred x : list f64) : outcome (nlms * list f64) :=
  (tmp <- transform_input f64_num (x_dim K) quad x (pp_x0 P) (nl_tmp c) ;;
   p <- inner_products f64_num (y_dim K) (nl_n c) (nl_weights c) tmp pred ;;
   Ok (mkNlms (nl_n c) (nl_weights c) (nl_mu c) (nl_eta c) tmp, p))%out.

(** pred_nlms.c:185-199 *)
Definition nlms_mutate (c : nlms) : RM (nlms * bool) :=
  if pp_evolve_eta P then
    (mu <- sam_adapt (lm K) nlms_mu_type (nl_mu c) ;;
     m0 <- lift (rd mu 0) ;;
     z <- rand_normal (lm K) f0 m0 ;;
     (let eta := clamp (fadd (nl_eta c) z) (pp_eta_min P) (pp_eta P) in
      ret (mkNlms (nl_n c) (nl_weights c) mu eta (nl_tmp c), fne (nl_eta c) eta)))%rng
  else ret (c, false).

(** pred_nlms.c:207-213 *)
Definition nlms_size (c : nlms) : f64 := of_Z (Z.of_nat (length (nl_weights c))).

(** pred_rls.h struct PredRLS. *)
Record rls := mkRls { rl_n : Z; rl_weights : list f64; rl_matrix : list f64; rl_tmp : list f64;
  rl_vec : list f64; rl_mat1 : list f64; rl_mat2 : list f64 }.

(** pred_rls.c:33-60 pred_rls_init *)
Definition rls_init : outcome rls :=
  let n := n_features (x_dim K) (pp_type P =? PRED_TYPE_RLS_QUADRATIC) in
  (w <- init_weights f64_num (y_dim K) n (pp_x0 P) ;;
   m <- init_matrix f64_num n (pp_scale_factor P) ;;
   Ok (mkRls n w m (alloc_tmp n) (repeat f0 (Z.to_nat n))
         (repeat f0 (Z.to_nat (n * n))) (repeat f0 (Z.to_nat (n * n)))))%out.

(** pred_rls.c:68-76 pred_rls_copy: the weights are copied, the gain matrix is not. *)
Definition rls_copy (src : rls) : outcome rls :=
  (d <- rls_init ;; w <- overwrite (rl_weights d) (rl_weights src) ;;
   Ok (mkRls (rl_n d) w (rl_matrix d) (rl_tmp d) (rl_vec d) (rl_mat1 d) (rl_mat2 d)))%out.

(** pred_rls.c:105-149 *)
Definition rls_upd (c : rls) (pred y : list f64) : outcome rls :=
  (r <- rls_update f64_num (y_dim K) (rl_n c) (pp_lambda P) y pred (rl_tmp c) (rl_vec c)
         (rl_mat1 c) (rl_mat2 c) (rl_weights c) (rl_matrix c) ;;
   let '(w, m, (vec, m1, m2)) := r in
   Ok (mkRls (rl_n c) w m (rl_tmp c) vec m1 m2))%out.

(** pred_rls.c:157-167 *)
Definition rls_compute (c : rls) (pred x : list f64) : outcome (rls * list f64) :=
  (tmp <- transform_input f64_num (x_dim K) quad x (pp_x0 P) (rl_tmp c) ;;
   p <- inner_products f64_num (y_dim K) (rl_n c) (rl_weights c) tmp pred ;;
   Ok (mkRls (rl_n c) (rl_weights c) (rl_matrix c) tmp (rl_vec c) (rl_mat1 c) (rl_mat2 c), p))%out.

(** pred_rls.c:219-225 *)
Definition rls_size (c : rls) : f64 := of_Z (Z.of_nat (length (rl_weights c))).

(** pred_constant.c:73-88 *)
Definition constant_upd (e : Z) (pred y : list f64) : outcome (list f64) :=
  constant_update f64_num (y_dim K) (flt (fmul (of_Z e) (BETA K)) f1) (of_Z e) (of_Z (e - 1)) (BETA K) pred y.
End Pred.
