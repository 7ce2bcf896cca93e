(** * Saving and loading a system.

    A file is a sequence of typed elements, one per element written by fwrite.  The bytes of an
    element and the file operations themselves (fopen, fwrite, fread) are not modelled: an
    element that has been written is read back unchanged by a read of the same type.  An
    element of indeterminate value is [None].  Reading past the end of the file, or an element of
    another type, gives an error outcome. *)
From Coq Require Import ZArith Bool List Ascii.
From Verif Require Import Outcome F64 Rng Arr Sam Pop Cond Blas Pred Clock Gp Dgp Act Layer Net Names Param.
Import ListNotations.
Open Scope Z_scope.

(** Elements: int, double, bool, char, size_t, uint32_t. *)
Inductive cell := CI (v : option Z) | CD (v : option f64) | CB (v : option bool) | CC (v : Z) | CN (v : Z) | CU (v : Z).

(** ** Writing *)
Definition int_ (z : Z) : cell := CI (Some z).
Definition dbl_ (x : f64) : cell := CD (Some x).
Definition bool_ (b : bool) : cell := CB (Some b).
Definition one (c : cell) : outcome (list cell) := Ok [c].
(** fwrite(src, size, n, fp) *)
Definition fwrite {A} (mk : A -> cell) (n : Z) (src : list A) : outcome (list cell) :=
  if (n <? 0) || (Z.of_nat (length src) <? n) then UB OutOfBounds else Ok (map mk (firstn (Z.to_nat n) src)).
Fixpoint cat (ws : list (outcome (list cell))) : outcome (list cell) :=
  match ws with
  | [] => Ok []
  | w :: r => (a <- w ;; b <- cat r ;; Ok (a ++ b))%out
  end.

(** ** Reading *)
Definition PL (A : Type) : Type := list cell -> RM (A * list cell).
Definition pret {A} (a : A) : PL A := fun c => ret (a, c).
Definition pbind {A B} (m : PL A) (k : A -> PL B) : PL B := fun c => bind (m c) (fun r => k (fst r) (snd r)).
Definition plift {A} (m : RM A) : PL A := fun c => (a <- m ;; ret (a, c))%rng.
Definition perr {A} (k : ub_kind) : PL A := fun _ => rub k.
Definition pexit {A} : PL A := fun _ => rexit.
Declare Scope file_scope.
Delimit Scope file_scope with file.
Notation "x <- m ;; k" := (pbind m (fun x => k)) (at level 61, m at next level, right associativity) : file_scope.

Definition get_cell : PL cell := fun c => match c with x :: r => ret (x, r) | [] => rub Uninit end.
Definition get_i : PL (option Z) := (x <- get_cell ;; match x with CI v => pret v | _ => perr BadCast end)%file.
Definition get_d : PL (option f64) := (x <- get_cell ;; match x with CD v => pret v | _ => perr BadCast end)%file.
Definition get_b : PL (option bool) := (x <- get_cell ;; match x with CB v => pret v | _ => perr BadCast end)%file.
Definition get_char : PL Z := (x <- get_cell ;; match x with CC v => pret v | _ => perr BadCast end)%file.
Definition get_size : PL Z := (x <- get_cell ;; match x with CN v => pret v | _ => perr BadCast end)%file.
Definition get_u32 : PL Z := (x <- get_cell ;; match x with CU v => pret v | _ => perr BadCast end)%file.
Definition known {A} (o : option A) : PL A := match o with Some a => pret a | None => perr Uninit end.
Definition get_int : PL Z := (x <- get_i ;; known x)%file.
Definition get_dbl : PL f64 := (x <- get_d ;; known x)%file.
Definition get_bool : PL bool := (x <- get_b ;; known x)%file.
Fixpoint get_n {A} (g : PL A) (n : nat) : PL (list A) :=
  match n with
  | O => pret []
  | S m => (x <- g ;; xs <- get_n g m ;; pret (x :: xs))%file
  end.
(** fread(dst, size, n, fp) *)
Definition fread {A} (g : PL A) (n : Z) (dst : list A) : PL (list A) :=
  if (n <? 0) || (Z.of_nat (length dst) <? n) then perr OutOfBounds
  else (xs <- get_n g (Z.to_nat n) ;; pret (xs ++ skipn (Z.to_nat n) dst))%file.
(** malloc'ed arrays that are about to be filled *)
Definition dbls_ (n : Z) : list f64 := repeat fnan (Z.to_nat n).
Definition ints_ (n : Z) : list Z := repeat 0 (Z.to_nat n).

(** ** Representations *)

(** cond_rectangle.c:319-327 *)
Definition rect_save (xdim : Z) (c : rect) : outcome (list cell) :=
  cat [fwrite dbl_ xdim (r_b1 c); fwrite dbl_ xdim (r_b2 c); fwrite dbl_ 1 (r_mu c)].
(** cond_rectangle.c:337-349 *)
Definition rect_load (xdim : Z) : PL rect :=
  (b1 <- fread get_dbl xdim (dbls_ xdim) ;; b2 <- fread get_dbl xdim (dbls_ xdim) ;;
   mu <- fread get_dbl 1 (dbls_ 1) ;; pret (mkRect b1 b2 mu))%file.
(** cond_ellipsoid.c:302-310 *)
Definition ellip_save (xdim : Z) (c : ellip) : outcome (list cell) :=
  cat [fwrite dbl_ xdim (e_center c); fwrite dbl_ xdim (e_spread c); fwrite dbl_ 1 (e_mu c)].
(** cond_ellipsoid.c:320-332 *)
Definition ellip_load (xdim : Z) : PL ellip :=
  (a <- fread get_dbl xdim (dbls_ xdim) ;; b <- fread get_dbl xdim (dbls_ xdim) ;;
   mu <- fread get_dbl 1 (dbls_ 1) ;; pret (mkEllip a b mu))%file.
(** cond_ternary.c:292-301; the field length is the length of the string. *)
Definition tern_save (c : ternary) : outcome (list cell) :=
  let n := Z.of_nat (length (t_string c)) in
  cat [one (int_ n); fwrite CC n (t_string c); fwrite dbl_ 1 (t_mu c)].
(** cond_ternary.c:311-329 *)
Definition tern_load : PL ternary :=
  (n <- get_int ;;
   if n <? 1 then pexit
   else s <- fread get_char n (ints_ n) ;; mu <- fread get_dbl 1 (dbls_ 1) ;; pret (mkTernary s mu))%file.
(** gp.c:383-392 *)
Definition tree_save (c : gptree) : outcome (list cell) :=
  cat [one (CI (gp_pos c)); one (int_ (gp_len c)); fwrite int_ (gp_len c) (gp_tree c); fwrite dbl_ 1 (gp_mu c)].
(** gp.c:400-415 *)
Definition tree_load : PL gptree :=
  (p <- get_i ;; n <- get_int ;;
   if n <? 1 then pexit
   else t <- fread get_int n (ints_ n) ;; mu <- fread get_dbl 1 (dbls_ 1) ;; pret (mkGp t n p mu))%file.
(** dgp.c:562-579 *)
Definition graph_save (g : graph) : outcome (list cell) :=
  cat [one (bool_ (d_evolve g)); one (int_ (d_n_inputs g)); one (int_ (d_n g)); one (int_ (d_t g));
       one (int_ (d_klen g)); one (int_ (d_max_t g)); one (int_ (d_max_k g));
       fwrite dbl_ (d_n g) (d_state g); fwrite dbl_ (d_n g) (d_initial g); fwrite int_ (d_n g) (d_func g);
       fwrite int_ (d_klen g) (d_conn g); fwrite dbl_ 3 (d_mu g)].
(** dgp.c:587-617 *)
Definition graph_load : PL graph :=
  (ev <- get_bool ;; ni <- get_int ;; n <- get_int ;; t <- get_int ;; klen <- get_int ;; mt <- get_int ;; mk <- get_int ;;
   if (n <? 1) || (klen <? 1) then pexit
   else st <- fread get_dbl n (dbls_ n) ;; ini <- fread get_dbl n (dbls_ n) ;; f <- fread get_int n (ints_ n) ;;
     co <- fread get_int klen (ints_ klen) ;; mu <- fread get_dbl 3 (dbls_ 3) ;;
     pret (mkGraph ev ini st co f klen mk mt n ni t mu))%file.

(** ** Neural networks *)

(** neural_layer_connected.c:382-406 save *)
Definition connected_save (l : layer f64) : outcome (list cell) :=
  cat [one (int_ (l_n_inputs l)); one (int_ (l_n_outputs l)); one (int_ (l_n_biases l)); one (int_ (l_max_outputs l));
       one (int_ (l_n_weights l)); one (CU (l_options l)); one (int_ (l_function l)); one (int_ (l_grow l));
       one (dbl_ (l_eta l)); one (dbl_ (l_eta_max l)); one (dbl_ (l_eta_min l)); one (dbl_ (l_momentum l));
       one (dbl_ (l_decay l)); one (int_ (l_n_active l));
       fwrite dbl_ (l_n_weights l) (l_weights l); fwrite bool_ (l_n_weights l) (l_active l);
       fwrite dbl_ (l_n_biases l) (l_biases l); fwrite dbl_ (l_n_biases l) (l_bias_updates l);
       fwrite dbl_ (l_n_weights l) (l_weight_updates l); fwrite dbl_ 6 (l_mu l)].
(** neural_layer_connected.c:415-443 load; [l]: the layer after layer_defaults and the type *)
Definition connected_load (l : layer f64) : PL (layer f64) :=
  (ni <- get_int ;; no <- get_int ;; nb <- get_int ;; mo <- get_int ;; nw <- get_int ;; op <- get_u32 ;; fn <- get_int ;;
   gr <- get_int ;; e <- get_dbl ;; ea <- get_dbl ;; ei <- get_dbl ;; mom <- get_dbl ;; de <- get_dbl ;; na <- get_int ;;
   l <- plift (lift (connected_malloc (set_n_inputs ni (set_n_outputs no (set_n_biases nb (set_max_outputs mo (set_n_weights nw
          (set_options op (set_function fn (set_grow gr (set_eta e (set_eta_max ea (set_eta_min ei (set_momentum mom
          (set_decay de (set_n_active na (set_out_w no (set_out_c 1 (set_out_h 1 l))))))))))))))))))) ;;
   w <- fread get_dbl nw (l_weights l) ;; a <- fread get_bool nw (l_active l) ;; b <- fread get_dbl nb (l_biases l) ;;
   bu <- fread get_dbl nb (l_bias_updates l) ;; wu <- fread get_dbl nw (l_weight_updates l) ;;
   mu <- fread get_dbl 6 (l_mu l) ;;
   pret (set_weights w (set_active a (set_biases b (set_bias_updates bu (set_weight_updates wu (set_mu mu l)))))))%file.
(** neural_layer_convolutional.c:546-580 save: the bias updates written are n_filters many. *)
Definition conv_save (l : layer f64) : outcome (list cell) :=
  cat [one (CU (l_options l)); one (int_ (l_function l)); one (int_ (l_height l)); one (int_ (l_width l));
       one (int_ (l_channels l)); one (int_ (l_n_filters l)); one (int_ (l_stride l)); one (int_ (l_size l));
       one (int_ (l_pad l)); one (int_ (l_out_h l)); one (int_ (l_out_w l)); one (int_ (l_out_c l));
       one (int_ (l_n_biases l)); one (int_ (l_n_outputs l)); one (int_ (l_n_inputs l)); one (int_ (l_max_outputs l));
       one (int_ (l_n_weights l)); one (int_ (l_n_active l)); one (dbl_ (l_eta l)); one (dbl_ (l_eta_max l));
       one (dbl_ (l_eta_min l)); one (dbl_ (l_momentum l)); one (dbl_ (l_decay l)); one (int_ (l_grow l));
       fwrite dbl_ (l_n_weights l) (l_weights l); fwrite dbl_ (l_n_weights l) (l_weight_updates l);
       fwrite bool_ (l_n_weights l) (l_active l); fwrite dbl_ (l_n_biases l) (l_biases l);
       fwrite dbl_ (l_n_filters l) (l_bias_updates l); fwrite dbl_ 6 (l_mu l)].
(** neural_layer_convolutional.c:589-624 load: the bias updates read are n_biases many. *)
Definition conv_load (l : layer f64) : PL (layer f64) :=
  (op <- get_u32 ;; fn <- get_int ;; he <- get_int ;; wi <- get_int ;; ch <- get_int ;; nf <- get_int ;; str <- get_int ;;
   sz <- get_int ;; pad <- get_int ;; oh <- get_int ;; ow <- get_int ;; oc <- get_int ;; nb <- get_int ;; no <- get_int ;;
   ni <- get_int ;; mo <- get_int ;; nw <- get_int ;; na <- get_int ;; e <- get_dbl ;; ea <- get_dbl ;; ei <- get_dbl ;;
   mom <- get_dbl ;; de <- get_dbl ;; gr <- get_int ;;
   l <- plift (lift (conv_malloc (set_options op (set_function fn (set_height he (set_width wi (set_channels ch (set_n_filters nf
          (set_stride str (set_size sz (set_pad pad (set_out_h oh (set_out_w ow (set_out_c oc (set_n_biases nb
          (set_n_outputs no (set_n_inputs ni (set_max_outputs mo (set_n_weights nw (set_n_active na (set_eta e
          (set_eta_max ea (set_eta_min ei (set_momentum mom (set_decay de (set_grow gr l)))))))))))))))))))))))))) ;;
   w <- fread get_dbl nw (l_weights l) ;; wu <- fread get_dbl nw (l_weight_updates l) ;;
   a <- fread get_bool nw (l_active l) ;; b <- fread get_dbl nb (l_biases l) ;;
   bu <- fread get_dbl nb (l_bias_updates l) ;; mu <- fread get_dbl 6 (l_mu l) ;;
   pret (set_weights w (set_active a (set_biases b (set_bias_updates bu (set_weight_updates wu (set_mu mu l)))))))%file.
(** neural_layer_softmax.c:257-265, 274-286 *)
Definition softmax_save (l : layer f64) : outcome (list cell) :=
  cat [one (int_ (l_n_inputs l)); one (int_ (l_n_outputs l)); one (int_ (l_max_outputs l)); one (dbl_ (l_scale l))].
Definition softmax_load (l : layer f64) : PL (layer f64) :=
  (ni <- get_int ;; no <- get_int ;; mo <- get_int ;; sc <- get_dbl ;;
   plift (lift (plain_malloc (set_n_inputs ni (set_n_outputs no (set_max_outputs mo (set_scale sc
     (set_out_w no (set_out_h 1 (set_out_c 1 l))))))))))%file.
(** neural_layer_dropout.c:261-273, 282-295 and neural_layer_noise.c:259-271, 280-293 *)
Definition noise_save (l : layer f64) : outcome (list cell) :=
  cat [one (int_ (l_n_inputs l)); one (int_ (l_n_outputs l)); one (int_ (l_max_outputs l)); one (dbl_ (l_probability l));
       one (dbl_ (l_scale l)); one (int_ (l_out_w l)); one (int_ (l_out_h l)); one (int_ (l_out_c l))].
Definition noise_load (l : layer f64) : PL (layer f64) :=
  (ni <- get_int ;; no <- get_int ;; mo <- get_int ;; p <- get_dbl ;; sc <- get_dbl ;; ow <- get_int ;; oh <- get_int ;; oc <- get_int ;;
   plift (lift (plain_malloc (set_n_inputs ni (set_n_outputs no (set_max_outputs mo (set_probability p (set_scale sc
     (set_out_w ow (set_out_h oh (set_out_c oc l)))))))))))%file.
(** neural_layer_maxpool.c:321-337, 346-363 *)
Definition maxpool_save (l : layer f64) : outcome (list cell) :=
  cat [one (int_ (l_height l)); one (int_ (l_width l)); one (int_ (l_channels l)); one (int_ (l_pad l));
       one (int_ (l_out_w l)); one (int_ (l_out_h l)); one (int_ (l_out_c l)); one (int_ (l_n_outputs l));
       one (int_ (l_max_outputs l)); one (int_ (l_n_inputs l)); one (int_ (l_size l)); one (int_ (l_stride l))].
Definition maxpool_load (l : layer f64) : PL (layer f64) :=
  (he <- get_int ;; wi <- get_int ;; ch <- get_int ;; pad <- get_int ;; ow <- get_int ;; oh <- get_int ;; oc <- get_int ;;
   no <- get_int ;; mo <- get_int ;; ni <- get_int ;; sz <- get_int ;; str <- get_int ;;
   plift (lift (plain_malloc (set_height he (set_width wi (set_channels ch (set_pad pad (set_out_w ow (set_out_h oh (set_out_c oc
     (set_n_outputs no (set_max_outputs mo (set_n_inputs ni (set_size sz (set_stride str l)))))))))))))))%file.
(** neural_layer_avgpool.c:264-277, 286-300 *)
Definition avgpool_save (l : layer f64) : outcome (list cell) :=
  cat [one (int_ (l_height l)); one (int_ (l_width l)); one (int_ (l_channels l)); one (int_ (l_out_w l));
       one (int_ (l_out_h l)); one (int_ (l_out_c l)); one (int_ (l_n_outputs l)); one (int_ (l_max_outputs l)); one (int_ (l_n_inputs l))].
Definition avgpool_load (l : layer f64) : PL (layer f64) :=
  (he <- get_int ;; wi <- get_int ;; ch <- get_int ;; ow <- get_int ;; oh <- get_int ;; oc <- get_int ;;
   no <- get_int ;; mo <- get_int ;; ni <- get_int ;;
   plift (lift (plain_malloc (set_height he (set_width wi (set_channels ch (set_out_w ow (set_out_h oh (set_out_c oc
     (set_n_outputs no (set_max_outputs mo (set_n_inputs ni l))))))))))))%file.
(** neural_layer_upsample.c:278-292, 301-316 *)
Definition upsample_save (l : layer f64) : outcome (list cell) :=
  cat [one (int_ (l_height l)); one (int_ (l_width l)); one (int_ (l_channels l)); one (int_ (l_out_w l));
       one (int_ (l_out_h l)); one (int_ (l_out_c l)); one (int_ (l_n_outputs l)); one (int_ (l_max_outputs l));
       one (int_ (l_n_inputs l)); one (int_ (l_stride l))].
Definition upsample_load (l : layer f64) : PL (layer f64) :=
  (he <- get_int ;; wi <- get_int ;; ch <- get_int ;; ow <- get_int ;; oh <- get_int ;; oc <- get_int ;;
   no <- get_int ;; mo <- get_int ;; ni <- get_int ;; str <- get_int ;;
   plift (lift (plain_malloc (set_height he (set_width wi (set_channels ch (set_out_w ow (set_out_h oh (set_out_c oc
     (set_n_outputs no (set_max_outputs mo (set_n_inputs ni (set_stride str l)))))))))))))%file.

(** neural_layer.h:372-378; recurrent and LSTM layers are outside the model. *)
Definition layer_save (l : layer f64) : outcome (list cell) :=
  let t := l_type l in
  cat [one (int_ t);
       if t =? CONNECTED then connected_save l
       else if (t =? DROPOUT) || (t =? NOISE) then noise_save l
       else if t =? SOFTMAX then softmax_save l
       else if t =? MAXPOOL then maxpool_save l
       else if t =? CONVOLUTIONAL then conv_save l
       else if t =? AVGPOOL then avgpool_save l
       else if t =? UPSAMPLE then upsample_save l
       else Exit].
(** neural_layer.h:386-394 and layer_set_vptr, neural_layer.c:41-79 *)
Definition layer_load : PL (layer f64) :=
  (t <- get_int ;;
   let l := set_type t layer_defaults in
   if t =? CONNECTED then connected_load l
   else if (t =? DROPOUT) || (t =? NOISE) then noise_load l
   else if t =? SOFTMAX then softmax_load l
   else if t =? MAXPOOL then maxpool_load l
   else if t =? CONVOLUTIONAL then conv_load l
   else if t =? AVGPOOL then avgpool_load l
   else if t =? UPSAMPLE then upsample_load l
   else pexit)%file.
(** neural.c:478-491; n_layers is the number of layers in the list (Llist.v). *)
Definition net_save (n : nn f64) : outcome (list cell) :=
  cat ([one (int_ (Z.of_nat (length (nn_layers n)))); one (int_ (nn_inputs n)); one (int_ (nn_outputs n))] ++
       map layer_save (nn_layers n)).
(** neural.c:499-515; the numbers of inputs and outputs are those kept by neural_push. *)
Definition net_load : PL (nn f64) :=
  (k <- get_int ;; _ <- get_int ;; _ <- get_int ;; ls <- get_n layer_load (Z.to_nat k) ;; pret (of_layers ls))%file.

(** ** Rules *)

(** What loading a rule takes from the system: dimensions, type codes and the parameters of the
    prediction (struct ArgsPred). *)
Record shape := mkShape { sh_x : Z; sh_y : Z; sh_n : Z; sh_cond : Z; sh_act : Z; sh_pred : ppar }.

(** A system with other dimensions. *)
Definition with_dims (K : cfg) (h : shape) : cfg :=
  mkCfg (sh_n h) (sh_x h) (sh_y h) (POP_SIZE K) (THETA_DEL K) (M_PROBATION K) (THETA_SUB K) (TELETRANSPORTATION K)
    (ALPHA K) (BETA K) (DELTA K) (E0 K) (INIT_ERROR K) (INIT_FITNESS K) (NU K) (GAMMA K) (P_EXPLORE K)
    (POP_INIT K) (SET_SUBSUMPTION K) (COMPACTION K) (ea_tournament K) (ea_select_size K) (ea_theta K) (ea_lambda K)
    (ea_subsumption K) (ea_pred_reset K) (ea_err_reduc K) (ea_fit_reduc K) (loss_ptr K) (lm K) (loop_fuel K) (vla0_is_ub K).

(** The conditions, actions and predictions a rule can have. *)
Inductive cond_v :=
| VDummy | VRect (c : rect) | VEllip (c : ellip) | VTern (c : ternary) | VGp (c : gptree) | VDgp (c : graph)
| VNet (c : nn f64) | VRuleDgp (c : rgraph) | VRuleNet (c : nn f64).
Inductive act_v := AInt (a : actint) | ANet (a : nn f64) | ARule.
Inductive pred_v := PConst | PNlms (p : nlms) | PRls (p : rls) | PNet (p : nn f64).
Record body := mkBody { bd_act : act_v; bd_pred : pred_v; bd_cond : cond_v }.

(** action.h:28-30, condition.h:38 *)
Definition ACT_TYPE_INTEGER : Z := 0.
Definition ACT_TYPE_NEURAL : Z := 1.

Section Rules.
Context (K : cfg) (log2 : f64 -> f64).

Definition cond_save (h : shape) (c : cond_v) : outcome (list cell) :=
  match c with
  | VDummy => Ok []                                   (* cond_dummy.c:195-201 *)
  | VRect c => rect_save (sh_x h) c
  | VEllip c => ellip_save (sh_x h) c
  | VTern c => tern_save c
  | VGp c => tree_save c                              (* cond_gp.c:210-216 *)
  | VDgp c => graph_save c                            (* cond_dgp.c:206-212 *)
  | VNet c => net_save c                              (* cond_neural.c:212-218 *)
  | VRuleDgp c => graph_save (rg_graph c)             (* rule_dgp.c:136-142 *)
  | VRuleNet c => net_save c                          (* rule_neural.c:145-151 *)
  end.
(** condition.c:40-80 condition_set and the loads of each type. *)
Definition cond_load (h : shape) : PL cond_v :=
  (let t := sh_cond h in
   if t =? COND_TYPE_DUMMY then pret VDummy
   else if (t =? COND_TYPE_HYPERRECTANGLE_CSR) || (t =? COND_TYPE_HYPERRECTANGLE_UBR) then c <- rect_load (sh_x h) ;; pret (VRect c)
   else if t =? COND_TYPE_HYPERELLIPSOID then c <- ellip_load (sh_x h) ;; pret (VEllip c)
   else if t =? COND_TYPE_NEURAL then c <- net_load ;; pret (VNet c)
   else if t =? COND_TYPE_GP then c <- tree_load ;; pret (VGp c)
   else if t =? COND_TYPE_DGP then c <- graph_load ;; pret (VDgp c)
   else if t =? COND_TYPE_TERNARY then c <- tern_load ;; pret (VTern c)
   else if t =? RULE_TYPE_DGP then                    (* rule_dgp.c:145-152 *)
     g <- graph_load ;; n <- plift (lift (n_action_nodes (with_dims K h) log2)) ;; pret (VRuleDgp (mkRgraph g n))
   else if t =? RULE_TYPE_NEURAL then c <- net_load ;; pret (VRuleNet c)
   else pexit)%file.

Definition action_save (a : act_v) : outcome (list cell) :=
  match a with
  | AInt a => cat [one (int_ (a_action a)); fwrite dbl_ 1 (a_mu a)]   (* act_integer.c:212-220 *)
  | ANet a => net_save a                                                (* act_neural.c:200-206 *)
  | ARule => Ok []                                 (* rule_dgp.c:284-290, rule_neural.c:293-299 *)
  end.
(** action.c:34-49 action_set; condition_set (called after it) replaces the table for the rule
    types.  A type that action_set rejects exits even then. *)
Definition action_load (h : shape) : PL act_v :=
  (let t := sh_act h in
   if negb ((t =? ACT_TYPE_INTEGER) || (t =? ACT_TYPE_NEURAL)) then pexit
   else if (sh_cond h =? RULE_TYPE_DGP) || (sh_cond h =? RULE_TYPE_NEURAL) then pret ARule
   else if t =? ACT_TYPE_INTEGER                                       (* act_integer.c:230-240 *)
   then a <- get_int ;; mu <- fread get_dbl 1 (dbls_ 1) ;; pret (AInt (mkAct a mu))
   else a <- net_load ;; pret (ANet a))%file.

(** pred_nlms.c:223-234; n_weights is the length of the array of weights. *)
Definition nlms_save (p : nlms) : outcome (list cell) :=
  let nw := Z.of_nat (length (nl_weights p)) in
  cat [one (int_ (nl_n p)); one (int_ nw); fwrite dbl_ nw (nl_weights p); fwrite dbl_ 1 (nl_mu p); one (dbl_ (nl_eta p))].
(** pred_nlms.c:244-255: the weights are read into the array allocated by pred_nlms_init. *)
Definition nlms_load (h : shape) : PL nlms :=
  (p <- plift (nlms_init (with_dims K h) (sh_pred h)) ;;
   n <- get_int ;; nw <- get_int ;; w <- fread get_dbl nw (nl_weights p) ;; mu <- fread get_dbl 1 (nl_mu p) ;; e <- get_dbl ;;
   pret (mkNlms n w mu e (nl_tmp p)))%file.
(** pred_rls.c:235-246 *)
Definition rls_save (p : rls) : outcome (list cell) :=
  let nw := Z.of_nat (length (rl_weights p)) in
  cat [one (int_ (rl_n p)); one (int_ nw); fwrite dbl_ nw (rl_weights p);
       (nn <- cint (rl_n p * rl_n p) ;; fwrite dbl_ nn (rl_matrix p))%out].
(** pred_rls.c:256-267 *)
Definition rls_load (h : shape) : PL rls :=
  (p <- plift (lift (rls_init (with_dims K h) (sh_pred h))) ;;
   n <- get_int ;; nw <- get_int ;; w <- fread get_dbl nw (rl_weights p) ;;
   nn <- plift (lift (cint (n * n))) ;; m <- fread get_dbl nn (rl_matrix p) ;;
   pret (mkRls n w m (rl_tmp p) (rl_vec p) (rl_mat1 p) (rl_mat2 p)))%file.
Definition pred_save (p : pred_v) : outcome (list cell) :=
  match p with
  | PConst => Ok []                                   (* pred_constant.c:170-176 *)
  | PNlms p => nlms_save p
  | PRls p => rls_save p
  | PNet p => net_save p                              (* pred_neural.c:183-189 *)
  end.
(** prediction.c:35-56 prediction_set *)
Definition pred_load (h : shape) : PL pred_v :=
  (let t := pp_type (sh_pred h) in
   if t =? PRED_TYPE_CONSTANT then pret PConst
   else if (t =? PRED_TYPE_NLMS_LINEAR) || (t =? PRED_TYPE_NLMS_QUADRATIC) then p <- nlms_load h ;; pret (PNlms p)
   else if (t =? PRED_TYPE_RLS_LINEAR) || (t =? PRED_TYPE_RLS_QUADRATIC) then p <- rls_load h ;; pret (PRls p)
   else if t =? PRED_TYPE_NEURAL then p <- net_load ;; pret (PNet p)
   else pexit)%file.

(** cl.c:424-442 *)
Definition cl_save (h : shape) (c : cl body) : outcome (list cell) :=
  cat [one (dbl_ (c_err c)); one (dbl_ (c_fit c)); one (int_ (c_num c)); one (int_ (c_exp c)); one (dbl_ (c_size c));
       one (int_ (c_time c)); one (bool_ (c_m c)); one (int_ (c_age c)); one (int_ (c_mtotal c));
       fwrite dbl_ (sh_y h) (c_prediction c); one (int_ (c_action c));
       action_save (bd_act (c_body c)); pred_save (bd_pred (c_body c)); cond_save h (bd_cond (c_body c))].
(** cl.c:451-474; the types are checked before the parts are read. *)
Definition types_known (h : shape) : bool :=
  ((sh_act h =? ACT_TYPE_INTEGER) || (sh_act h =? ACT_TYPE_NEURAL)) &&
  existsb (Z.eqb (pp_type (sh_pred h))) [PRED_TYPE_CONSTANT; PRED_TYPE_NLMS_LINEAR; PRED_TYPE_NLMS_QUADRATIC;
     PRED_TYPE_RLS_LINEAR; PRED_TYPE_RLS_QUADRATIC; PRED_TYPE_NEURAL] &&
  existsb (Z.eqb (sh_cond h)) [COND_TYPE_DUMMY; COND_TYPE_HYPERRECTANGLE_CSR; COND_TYPE_HYPERRECTANGLE_UBR;
     COND_TYPE_HYPERELLIPSOID; COND_TYPE_NEURAL; COND_TYPE_GP; COND_TYPE_DGP; COND_TYPE_TERNARY; RULE_TYPE_DGP; RULE_TYPE_NEURAL].
Definition cl_load (h : shape) : PL (cl body) :=
  (er <- get_dbl ;; fi <- get_dbl ;; nu <- get_int ;; ex <- get_int ;; sz <- get_dbl ;; ti <- get_int ;; m <- get_bool ;;
   ag <- get_int ;; mt <- get_int ;; pr <- fread get_dbl (sh_y h) (dbls_ (sh_y h)) ;; ac <- get_int ;;
   if negb (types_known h) then pexit
   else a <- action_load h ;; p <- pred_load h ;; c <- cond_load h ;;
     pret (mkCl er fi nu ex sz ti m pr ac ag mt (mkBody a p c)))%file.
End Rules.

(** ** Parameters *)

(** neural_layer_args.h struct ArgsLayer with the field that only recurrent layers use. *)
Record fargs := mkFargs { fa_args : largs; fa_recurrent : Z }.

(** struct XCSF and the argument structures below it, without the population and the running
    statistics (struct [st] of Pop.v).  [y_constants]: the allocation of targs->constants.  The
    flag xcsf->explore is [s_explore]; the cell [b_EXPLORE] of [y_par] is not used here. *)
Record system := mkSystem {
  y_par : sys; y_constants : list f64;
  y_act_args : list fargs; y_cond_args : list fargs; y_pred_args : list fargs
}.

Inductive fld := FI (p : ipar) | FD (p : dpar) | FB (p : bpar).
Definition write_fld (x : sys) (f : fld) : cell :=
  match f with FI p => CI (ints x p) | FD p => CD (dbls x p) | FB p => CB (bools x p) end.
Definition set_i (x : sys) (p : ipar) (v : option Z) : sys :=
  mkSys (fun q => if ipar_eq q p then v else ints x q) (dbls x) (bools x) (file x) (loss_code x) (seed x).
Definition set_d (x : sys) (p : dpar) (v : option f64) : sys :=
  mkSys (ints x) (fun q => if dpar_eq q p then v else dbls x q) (bools x) (file x) (loss_code x) (seed x).
Definition set_b (x : sys) (p : bpar) (v : option bool) : sys :=
  mkSys (ints x) (dbls x) (fun q => if bpar_eq q p then v else bools x q) (file x) (loss_code x) (seed x).
Definition read_fld (x : sys) (f : fld) : PL sys :=
  (match f with
   | FI p => v <- get_i ;; pret (set_i x p v)
   | FD p => v <- get_d ;; pret (set_d x p v)
   | FB p => v <- get_b ;; pret (set_b x p v)
   end)%file.
Definition write_flds (x : sys) (fs : list fld) : outcome (list cell) := Ok (map (write_fld x) fs).
Fixpoint read_flds (x : sys) (fs : list fld) : PL sys :=
  match fs with
  | [] => pret x
  | f :: r => (y <- read_fld x f ;; read_flds y r)%file
  end.

(** neural_layer_args.c:589-626 *)
Definition args_save1 (f : fargs) : outcome (list cell) :=
  let a := fa_args f in
  cat [one (int_ (la_type a)); one (int_ (la_n_inputs a)); one (int_ (la_n_init a)); one (int_ (la_n_max a));
       one (int_ (la_grow a)); one (int_ (la_function a)); one (int_ (fa_recurrent f)); one (int_ (la_height a));
       one (int_ (la_width a)); one (int_ (la_channels a)); one (int_ (la_size a)); one (int_ (la_stride a)); one (int_ (la_pad a));
       one (dbl_ (la_eta a)); one (dbl_ (la_eta_min a)); one (dbl_ (la_momentum a)); one (dbl_ (la_decay a));
       one (dbl_ (la_probability a)); one (dbl_ (la_scale a)); one (bool_ (la_evolve_weights a)); one (bool_ (la_evolve_neurons a));
       one (bool_ (la_evolve_functions a)); one (bool_ (la_evolve_eta a)); one (bool_ (la_evolve_connect a)); one (bool_ (la_sgd_weights a))].
Definition args_save (l : list fargs) : outcome (list cell) :=
  cat (one (int_ (Z.of_nat (length l))) :: map args_save1 l).
(** neural_layer_args.c:634-678: the old list is freed, the new one is appended to in order. *)
Definition args_load1 : PL fargs :=
  (t <- get_int ;; ni <- get_int ;; n <- get_int ;; nm <- get_int ;; gr <- get_int ;; fn <- get_int ;; rf <- get_int ;;
   he <- get_int ;; wi <- get_int ;; ch <- get_int ;; sz <- get_int ;; str <- get_int ;; pad <- get_int ;;
   e <- get_dbl ;; em <- get_dbl ;; mo <- get_dbl ;; de <- get_dbl ;; p <- get_dbl ;; sc <- get_dbl ;;
   ew <- get_bool ;; en <- get_bool ;; ef <- get_bool ;; ee <- get_bool ;; ec <- get_bool ;; sg <- get_bool ;;
   pret (mkFargs (mkLargs t ni n nm gr fn he wi ch sz str pad e em mo de p sc ew en ef ee ec sg) rf))%file.
Definition args_load : PL (list fargs) := (n <- get_int ;; get_n args_load1 (Z.to_nat n))%file.

(** param.c:505-543 up to the calls, without the fields of the running system *)
Definition dims_saved : list fld := [FI i_X_DIM; FI i_Y_DIM; FI i_N_ACTIONS].
Definition main_saved : list fld :=
  [FI i_OMP_NUM_THREADS; FI i_RANDOM_STATE; FB b_POP_INIT; FI i_MAX_TRIALS; FI i_PERF_TRIALS; FI i_POP_SIZE;
   FI i_LOSS_FUNC; FD d_HUBER_DELTA; FD d_GAMMA; FI i_TELETRANSPORTATION; FD d_P_EXPLORE; FB b_SET_SUBSUMPTION;
   FI i_THETA_SUB; FD d_E0; FD d_ALPHA; FD d_NU; FD d_BETA; FD d_DELTA; FI i_THETA_DEL; FD d_INIT_FITNESS;
   FD d_INIT_ERROR; FI i_M_PROBATION; FB b_STATEFUL; FB b_COMPACTION].
(** param.c:567-602 *)
Definition dims_read : list fld := [FI i_X_DIM; FI i_Y_DIM; FI i_N_ACTIONS].
Definition main_read : list fld :=
  [FI i_OMP_NUM_THREADS; FI i_RANDOM_STATE; FB b_POP_INIT; FI i_MAX_TRIALS; FI i_PERF_TRIALS; FI i_POP_SIZE;
   FI i_LOSS_FUNC; FD d_HUBER_DELTA; FD d_GAMMA; FI i_TELETRANSPORTATION; FD d_P_EXPLORE; FB b_SET_SUBSUMPTION;
   FI i_THETA_SUB; FD d_E0; FD d_ALPHA; FD d_NU; FD d_BETA; FD d_DELTA; FI i_THETA_DEL; FD d_INIT_FITNESS;
   FD d_INIT_ERROR; FI i_M_PROBATION; FB b_STATEFUL; FB b_COMPACTION].
(** ea.c:333-346, 355-368 *)
Definition ea_saved : list fld :=
  [FI i_EA_SELECT_TYPE; FD d_EA_SELECT_SIZE; FD d_EA_THETA; FI i_EA_LAMBDA; FD d_EA_P_CROSSOVER; FD d_EA_ERR_REDUC;
   FD d_EA_FIT_REDUC; FB b_EA_SUBSUMPTION; FB b_EA_PRED_RESET].
Definition ea_read : list fld :=
  [FI i_EA_SELECT_TYPE; FD d_EA_SELECT_SIZE; FD d_EA_THETA; FI i_EA_LAMBDA; FD d_EA_P_CROSSOVER; FD d_EA_ERR_REDUC;
   FD d_EA_FIT_REDUC; FB b_EA_SUBSUMPTION; FB b_EA_PRED_RESET].
(** condition.c:319-335, 343-358 *)
Definition cond_saved : list fld :=
  [FI i_COND_TYPE; FD d_COND_ETA; FD d_COND_MIN; FD d_COND_MAX; FD d_COND_SPREAD_MIN; FD d_COND_P_DONTCARE; FI i_COND_BITS].
Definition cond_read : list fld :=
  [FI i_COND_TYPE; FD d_COND_ETA; FD d_COND_MIN; FD d_COND_MAX; FD d_COND_SPREAD_MIN; FD d_COND_P_DONTCARE; FI i_COND_BITS].
(** dgp.c:686-696, 704-714 *)
Definition dgp_saved : list fld := [FB b_DGP_EVOLVE_CYCLES; FI i_DGP_MAX_K; FI i_DGP_MAX_T; FI i_DGP_N; FI i_DGP_N_INPUTS].
Definition dgp_read : list fld := [FB b_DGP_EVOLVE_CYCLES; FI i_DGP_MAX_K; FI i_DGP_MAX_T; FI i_DGP_N; FI i_DGP_N_INPUTS].
(** gp.c:500-532 *)
Definition gp_saved : list fld := [FD d_GP_MAX; FD d_GP_MIN; FI i_GP_N_INPUTS; FI i_GP_N_CONSTANTS; FI i_GP_INIT_DEPTH; FI i_GP_MAX_LEN].
Definition gp_read : list fld := [FD d_GP_MAX; FD d_GP_MIN; FI i_GP_N_INPUTS; FI i_GP_N_CONSTANTS; FI i_GP_INIT_DEPTH; FI i_GP_MAX_LEN].
(** prediction.c:210-245 *)
Definition pred_saved : list fld :=
  [FI i_PRED_TYPE; FD d_PRED_ETA; FD d_PRED_ETA_MIN; FD d_PRED_LAMBDA; FD d_PRED_SCALE_FACTOR; FD d_PRED_X0; FB b_PRED_EVOLVE_ETA].
Definition pred_read : list fld :=
  [FI i_PRED_TYPE; FD d_PRED_ETA; FD d_PRED_ETA_MIN; FD d_PRED_LAMBDA; FD d_PRED_SCALE_FACTOR; FD d_PRED_X0; FB b_PRED_EVOLVE_ETA].

Definition need_i (x : sys) (p : ipar) : outcome Z := match ints x p with Some z => Ok z | None => UB Uninit end.
Definition need_d (x : sys) (p : dpar) : outcome f64 := match dbls x p with Some z => Ok z | None => UB Uninit end.
Definition need_b (x : sys) (p : bpar) : outcome bool := match bools x p with Some z => Ok z | None => UB Uninit end.

(** gp.c:500-511 *)
Definition tree_args_save (y : system) : outcome (list cell) :=
  cat [write_flds (y_par y) gp_saved; (n <- need_i (y_par y) i_GP_N_CONSTANTS ;; fwrite dbl_ n (y_constants y))%out].

Definition chr (a : ascii) : cell := CC (Z.of_N (N_of_ascii a)).
(** The elements that the running system contributes (param.c:505-510). *)
Section Running.
Context {B : Type}.
(** param.c:495-543 *)
Definition param_save (y : system) (s : st B) : outcome (list cell) :=
  let x := y_par y in
  (n <- strnlen (file x) MAX_LEN ;;
   let len := Z.of_nat n + 1 in
   cat [one (CN len); fwrite chr len (file x);
        one (int_ (s_time s)); one (dbl_ (s_error s)); one (dbl_ (s_mset_size s)); one (dbl_ (s_aset_size s));
        one (dbl_ (s_mfrac s)); one (bool_ (s_explore s));
        write_flds x dims_saved; write_flds x main_saved;
        write_flds x ea_saved;
        write_flds x [FI i_ACT_TYPE]; args_save (y_act_args y);                    (* action.c:154-161 *)
        write_flds x cond_saved; write_flds x dgp_saved; tree_args_save y; args_save (y_cond_args y);
        write_flds x pred_saved; args_save (y_pred_args y)])%out.

Definition get_ascii : PL ascii := (c <- get_char ;; pret (ascii_of_N (Z.to_N c)))%file.
Definition with_file (x : sys) (f : list ascii) : sys := mkSys (ints x) (dbls x) (bools x) f (loss_code x) (seed x).
(** param.c:552-603 *)
Definition param_load (y : system) (s : st B) : PL (system * st B) :=
  (len <- get_size ;;
   if len <? 1 then pexit
   else f <- fread get_ascii len (repeat Ascii.zero (Z.to_nat len)) ;;
   t <- get_int ;; e <- get_dbl ;; ms <- get_dbl ;; as_ <- get_dbl ;; mf <- get_dbl ;; ex <- get_bool ;;
   x <- read_flds (with_file (y_par y) f) dims_read ;;
   xd <- plift (lift (need_i x i_X_DIM)) ;; yd <- plift (lift (need_i x i_Y_DIM)) ;; na <- plift (lift (need_i x i_N_ACTIONS)) ;;
   if (xd <? 1) || (yd <? 1) || (na <? 1) then pexit
   else
   x <- read_flds x main_read ;;
   x <- read_flds x ea_read ;;
   x <- read_flds x [FI i_ACT_TYPE] ;; aa <- args_load ;;                          (* action.c:170-177 *)
   x <- read_flds x cond_read ;; x <- read_flds x dgp_read ;;
   x <- read_flds x gp_read ;; n <- plift (lift (need_i x i_GP_N_CONSTANTS)) ;;    (* gp.c:520-532 *)
   co <- fread get_dbl n (y_constants y) ;;
   ca <- args_load ;;
   x <- read_flds x pred_read ;; pa <- args_load ;;
   r <- plift (lift (loss_set_func x)) ;;
   pret (mkSystem (snd r) co aa ca pa, with_explore ex (with_stats e ms as_ mf (with_time t s))))%file.
End Running.

(** What the parameters tell the loader of rules. *)
Definition shape_of (x : sys) : outcome shape :=
  (xd <- need_i x i_X_DIM ;; yd <- need_i x i_Y_DIM ;; na <- need_i x i_N_ACTIONS ;;
   ct <- need_i x i_COND_TYPE ;; at_ <- need_i x i_ACT_TYPE ;; pt <- need_i x i_PRED_TYPE ;;
   ev <- need_b x b_PRED_EVOLVE_ETA ;; e <- need_d x d_PRED_ETA ;; em <- need_d x d_PRED_ETA_MIN ;;
   la <- need_d x d_PRED_LAMBDA ;; sc <- need_d x d_PRED_SCALE_FACTOR ;; x0 <- need_d x d_PRED_X0 ;;
   Ok (mkShape xd yd na ct at_ (mkPpar pt ev e em la sc x0)))%out.

(** ** The whole system *)

(** xcsf.h:38-40 *)
Definition VERSION_MAJOR : Z := 1.
Definition VERSION_MINOR : Z := 4.
Definition VERSION_BUILD : Z := 7.

Section Whole.
Context (K : cfg) (log2 : f64 -> f64).

(** clset.c:610-622 *)
Fixpoint pset_save_rules (h : shape) (s : st body) (ls : list loc) : outcome (list cell) :=
  match ls with
  | [] => Ok []
  | l :: r => match s_heap s l with
              | None => UB UseAfterFree
              | Some c => (a <- cl_save h c ;; b <- pset_save_rules h s r ;; Ok (a ++ b))%out
              end
  end.
Definition pset_save (h : shape) (s : st body) : outcome (list cell) :=
  cat [one (int_ (set_sz (s_pset s))); one (int_ (set_nm (s_pset s))); pset_save_rules h s (set_list (s_pset s))].
(** xcsf.c:90-105 *)
Definition xcsf_save (y : system) (s : st body) : outcome (list cell) :=
  (h <- shape_of (y_par y) ;;
   cat [one (int_ VERSION_MAJOR); one (int_ VERSION_MINOR); one (int_ VERSION_BUILD); param_save y s; pset_save h s])%out.

(** Running a reader in the population monad. *)
Definition mread {A} (m : PL A) (c : list cell) : M body (A * list cell) := mrand (m c).
(** clset.c:647-665; [n]: rules still to be read. *)
Fixpoint pset_load_loop (h : shape) (n : nat) (c : list cell) : M body (list cell) :=
  (match n with
   | O => mret c
   | S m => r <~ mread (cl_load K log2 h) c ;;
            l <~ alloc (fst r) ;;
            clset_add PSET l ;;;
            pset_load_loop h m (snd r)
   end)%m.
(** clset.c:628-640 *)
Definition pset_reverse : M body unit :=
  mmod (fun s => with_set PSET (mkSet (rev (set_list (s_pset s))) (set_sz (s_pset s)) (set_nm (s_pset s))) s).
Definition pset_load (h : shape) (c : list cell) : M body (list cell) :=
  (r <~ mread (size <- get_int ;; _ <- get_int ;; pret size)%file c ;;
   clset_init PSET ;;;
   c' <~ pset_load_loop h (Z.to_nat (fst r)) (snd r) ;;
   pset_reverse ;;;
   mret c')%m.
(** xcsf.c:114-143; the result is the system after loading and what is left of the file. *)
Definition xcsf_load (y : system) (c : list cell) : M body (system * list cell) :=
  (ps <~ mget s_pset ;;
   (if 0 <? set_sz ps then clset_kill PSET ;;; clset_init PSET else mret tt) ;;;
   r <~ mread (a <- get_int ;; b <- get_int ;; d <- get_int ;; pret (a, b))%file c ;;
   if negb (fst (fst r) =? VERSION_MAJOR) || negb (snd (fst r) =? VERSION_MINOR) then mexit
   else
   s <~ mget (fun s => s) ;;
   q <~ mread (param_load y s) (snd r) ;;
   mmod (fun s' => with_rng (s_rng s') (snd (fst q))) ;;;
   h <~ mlift (shape_of (y_par (fst (fst q)))) ;;
   c' <~ pset_load h (snd q) ;;
   mret (fst (fst q), c'))%m.
End Whole.
