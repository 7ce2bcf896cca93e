(** * Reading back what was written. *)
From Coq Require Import ZArith Bool List Ascii Lia.
From Verif Require Import Outcome F64 Rng Arr ArrFacts Sam SamFacts Pop Cond Blas Pred PredFacts Clock Gp Dgp Act Layer LayerFacts Net Names Param File.
Import ListNotations.
Open Scope Z_scope.

(** What [w] writes, [r] reads back as [a], leaving the rest of the file and asking nothing more of
    the generator than to move on. *)
Definition codec {A} (w : outcome (list cell)) (r : PL A) (a : A) : Prop :=
  exists cs, w = Ok cs /\ forall rest g, exists g', r (cs ++ rest) g = Ok (a, rest, g').

Lemma pbind_ok {A B} (m : PL A) (k : A -> PL B) c g a c' g' : m c g = Ok (a, c', g') -> pbind m k c g = k a c' g'.
Proof. intros E. unfold pbind, bind. rewrite E. reflexivity. Qed.
Lemma codec_nil {A} (a : A) : codec (cat []) (pret a) a.
Proof. exists []. split; [reflexivity|]. intros rest g. exists g. reflexivity. Qed.
Lemma codec_cons {A B} w ws (m : PL A) (k : A -> PL B) a b : codec w m a -> codec (cat ws) (k a) b -> codec (cat (w :: ws)) (pbind m k) b.
Proof.
  intros (c1 & E1 & R1) (c2 & E2 & R2). exists (c1 ++ c2). split; [cbn [cat]; rewrite E1; cbn [obind]; rewrite E2; reflexivity|].
  intros rest g. rewrite <- app_assoc. destruct (R1 (c2 ++ rest) g) as (g1 & X1). destruct (R2 rest g1) as (g2 & X2).
  exists g2. rewrite (pbind_ok _ _ _ _ _ _ _ X1). exact X2.
Qed.
Lemma codec_one {A} w (m : PL A) a : codec w m a -> codec (cat [w]) m a.
Proof. intros (c & E & R). exists c. split; [cbn [cat]; rewrite E; cbn; now rewrite app_nil_r|exact R]. Qed.
Lemma codec_plift {A B} w (m : RM A) (k : A -> PL B) a b : (forall g, exists g', m g = Ok (a, g')) -> codec w (k a) b -> codec w (pbind (plift m) k) b.
Proof.
  intros M (c & E & R). exists c. split; [exact E|]. intros rest g. destruct (M g) as (g1 & X). destruct (R rest g1) as (g2 & Y).
  exists g2. rewrite (pbind_ok _ _ _ _ a (c ++ rest) g1); [exact Y|]. unfold plift, bind. rewrite X. reflexivity.
Qed.
Lemma codec_draw {A B} cs (m : RM A) (k : A -> PL B) b (P : A -> Prop) : (forall g, exists a g', m g = Ok (a, g') /\ P a) ->
  (forall a, P a -> codec (Ok cs) (k a) b) -> codec (Ok cs) (pbind (plift m) k) b.
Proof.
  intros M C. exists cs. split; [reflexivity|]. intros rest g. destruct (M g) as (a & g1 & X & Pa). destruct (C a Pa) as (c & E & R).
  injection E as <-. destruct (R rest g1) as (g2 & Y). exists g2.
  rewrite (pbind_ok _ _ _ _ a (cs ++ rest) g1); [exact Y|]. unfold plift, bind. rewrite X. reflexivity.
Qed.
Lemma codec_lift {A B} w (o : outcome A) (k : A -> PL B) a b : o = Ok a -> codec w (k a) b -> codec w (pbind (plift (lift o)) k) b.
Proof. intros E. apply codec_plift. intros g. exists g. rewrite E. reflexivity. Qed.
Lemma codec_tail {A} (o : outcome A) a : o = Ok a -> codec (cat []) (plift (lift o)) a.
Proof. intros E. exists []. split; [reflexivity|]. intros rest g. exists g. unfold plift, bind, lift. rewrite E. reflexivity. Qed.
Lemma codec_ret {A B} w (m : PL A) (f : A -> B) a : codec w m a -> codec w (x <- m ;; pret (f x))%file (f a).
Proof.
  intros (c & E & R). exists c. split; [exact E|]. intros rest g. destruct (R rest g) as (g' & X). exists g'. rewrite (pbind_ok _ _ _ _ _ _ _ X). reflexivity.
Qed.
(** Nested writers. *)
Lemma cat_app l1 : forall l2, cat (l1 ++ l2) = (a <- cat l1 ;; b <- cat l2 ;; Ok (a ++ b))%out.
Proof.
  induction l1 as [|w l1 IH]; intros l2; cbn [app cat obind].
  - destruct (cat l2); reflexivity.
  - rewrite IH. destruct w as [a| | |]; cbn [obind]; [|reflexivity..]. destruct (cat l1) as [b| | |]; cbn [obind]; [|reflexivity..].
    destruct (cat l2) as [d| | |]; cbn [obind]; [|reflexivity..]. now rewrite app_assoc.
Qed.
Lemma codec_flat {A} l1 l2 (m : PL A) a : codec (cat (l1 ++ l2)) m a -> codec (cat (cat l1 :: l2)) m a.
Proof. intros (c & E & R). exists c. split; [rewrite cat_app in E; exact E|exact R]. Qed.

(** Single elements. *)
Lemma codec_int z : codec (one (int_ z)) get_int z.
Proof. exists [int_ z]. split; [reflexivity|]. intros rest g. exists g. reflexivity. Qed.
Lemma codec_dbl z : codec (one (dbl_ z)) get_dbl z.
Proof. exists [dbl_ z]. split; [reflexivity|]. intros rest g. exists g. reflexivity. Qed.
Lemma codec_bool z : codec (one (bool_ z)) get_bool z.
Proof. exists [bool_ z]. split; [reflexivity|]. intros rest g. exists g. reflexivity. Qed.
Lemma codec_u32 z : codec (one (CU z)) get_u32 z.
Proof. exists [CU z]. split; [reflexivity|]. intros rest g. exists g. reflexivity. Qed.
Lemma codec_size z : codec (one (CN z)) get_size z.
Proof. exists [CN z]. split; [reflexivity|]. intros rest g. exists g. reflexivity. Qed.
Lemma codec_i z : codec (one (CI z)) get_i z.
Proof. exists [CI z]. split; [reflexivity|]. intros rest g. exists g. reflexivity. Qed.

(** Arrays. *)
Lemma codec_get_n {A} (w : A -> outcome (list cell)) {B} (r : PL B) (f : A -> B) l :
  Forall (fun a => codec (w a) r (f a)) l -> codec (cat (map w l)) (get_n r (length l)) (map f l).
Proof.
  induction 1 as [|a l H _ IH]; cbn [map length get_n]; [apply codec_nil|].
  refine (codec_cons _ _ _ _ _ _ H _). exact (codec_ret _ _ (fun xs => f a :: xs) _ IH).
Qed.
Lemma cat_ones {A} (mk : A -> cell) l : cat (map (fun a => one (mk a)) l) = Ok (map mk l).
Proof. induction l as [|a l IH]; cbn [map cat one obind]; [reflexivity|]. rewrite IH. reflexivity. Qed.
Lemma codec_part {A B} (mk : A -> cell) (r : PL B) (f : A -> B) (n : Z) src dst : (forall a, codec (one (mk a)) r (f a)) ->
  0 <= n <= len src -> n <= len dst -> codec (fwrite mk n src) (fread r n dst) (map f (firstn (Z.to_nat n) src) ++ skipn (Z.to_nat n) dst).
Proof.
  intros H [N S] D. unfold len in *. assert (L : length (firstn (Z.to_nat n) src) = Z.to_nat n) by (rewrite firstn_length; lia).
  destruct (codec_get_n (fun a => one (mk a)) r f (firstn (Z.to_nat n) src)) as (c & E & R).
  { apply Forall_forall. intros a _. apply H. }
  rewrite cat_ones in E. injection E as <-. rewrite L in R.
  exists (map mk (firstn (Z.to_nat n) src)). unfold fwrite, fread.
  destruct (Z.ltb_spec n 0); [lia|]. destruct (Z.ltb_spec (Z.of_nat (length src)) n); [lia|]. destruct (Z.ltb_spec (Z.of_nat (length dst)) n); [lia|].
  cbn [orb]. split; [reflexivity|]. intros rest g. destruct (R rest g) as (g' & X). exists g'. rewrite (pbind_ok _ _ _ _ _ _ _ X). reflexivity.
Qed.
Lemma codec_arr {A B} (mk : A -> cell) (r : PL B) (f : A -> B) (n : Z) src dst : (forall a, codec (one (mk a)) r (f a)) ->
  len src = n -> len dst = n -> codec (fwrite mk n src) (fread r n dst) (map f src).
Proof.
  intros H S D. assert (N : 0 <= n) by (unfold len in S; lia). pose proof (codec_part mk r f n src dst H ltac:(lia) ltac:(lia)) as X.
  unfold len in *. rewrite firstn_all2, skipn_all2, app_nil_r in X by lia. exact X.
Qed.
Lemma len_dbls n : 0 <= n -> len (dbls_ n) = n.
Proof. intros H. apply len_repeat. lia. Qed.
Lemma len_ints n : 0 <= n -> len (ints_ n) = n.
Proof. intros H. apply len_repeat. lia. Qed.
Lemma arr_dbl n src dst : len src = n -> len dst = n -> codec (fwrite dbl_ n src) (fread get_dbl n dst) src.
Proof. intros S D. pose proof (codec_arr dbl_ get_dbl (fun x => x) n src dst codec_dbl S D) as X. rewrite map_id in X. exact X. Qed.
Lemma arr_int n src dst : len src = n -> len dst = n -> codec (fwrite int_ n src) (fread get_int n dst) src.
Proof. intros S D. pose proof (codec_arr int_ get_int (fun x => x) n src dst codec_int S D) as X. rewrite map_id in X. exact X. Qed.
Lemma arr_bool n src dst : len src = n -> len dst = n -> codec (fwrite bool_ n src) (fread get_bool n dst) src.
Proof. intros S D. pose proof (codec_arr bool_ get_bool (fun x => x) n src dst codec_bool S D) as X. rewrite map_id in X. exact X. Qed.
Lemma codec_char z : codec (one (CC z)) get_char z.
Proof. exists [CC z]. split; [reflexivity|]. intros rest g. exists g. reflexivity. Qed.
Lemma arr_char n src dst : len src = n -> len dst = n -> codec (fwrite CC n src) (fread get_char n dst) src.
Proof. intros S D. pose proof (codec_arr CC get_char (fun x => x) n src dst codec_char S D) as X. rewrite map_id in X. exact X. Qed.

(** One step of a chain of reads. *)
Ltac rd1 :=
  match goal with
  | |- codec (cat (one (int_ _) :: _)) _ _ => refine (codec_cons _ _ _ _ _ _ (codec_int _) _)
  | |- codec (cat (one (dbl_ _) :: _)) _ _ => refine (codec_cons _ _ _ _ _ _ (codec_dbl _) _)
  | |- codec (cat (one (bool_ _) :: _)) _ _ => refine (codec_cons _ _ _ _ _ _ (codec_bool _) _)
  | |- codec (cat (one (CU _) :: _)) _ _ => refine (codec_cons _ _ _ _ _ _ (codec_u32 _) _)
  | |- codec (cat (one (CN _) :: _)) _ _ => refine (codec_cons _ _ _ _ _ _ (codec_size _) _)
  | |- codec (cat (one (CI _) :: _)) _ _ => refine (codec_cons _ _ _ _ _ _ (codec_i _) _)
  end; cbv beta.

(** ** Conditions without networks *)
Lemma rect_codec xdim c : len (r_b1 c) = xdim -> len (r_b2 c) = xdim -> len (r_mu c) = 1 -> codec (rect_save xdim c) (rect_load xdim) c.
Proof.
  intros A B C. assert (X : 0 <= xdim) by (unfold len in A; lia). destruct c as [b1 b2 mu]. cbn in A, B, C. unfold rect_save, rect_load. cbn [r_b1 r_b2 r_mu].
  refine (codec_cons _ _ _ _ _ _ (arr_dbl _ _ _ A (len_dbls _ X)) _). cbv beta.
  refine (codec_cons _ _ _ _ _ _ (arr_dbl _ _ _ B (len_dbls _ X)) _). cbv beta.
  refine (codec_cons _ _ _ _ _ _ (arr_dbl _ _ _ C (len_dbls 1 ltac:(lia))) _). apply codec_nil.
Qed.
Lemma ellip_codec xdim c : len (e_center c) = xdim -> len (e_spread c) = xdim -> len (e_mu c) = 1 -> codec (ellip_save xdim c) (ellip_load xdim) c.
Proof.
  intros A B C. assert (X : 0 <= xdim) by (unfold len in A; lia). destruct c as [b1 b2 mu]. cbn in A, B, C. unfold ellip_save, ellip_load. cbn [e_center e_spread e_mu].
  refine (codec_cons _ _ _ _ _ _ (arr_dbl _ _ _ A (len_dbls _ X)) _). cbv beta.
  refine (codec_cons _ _ _ _ _ _ (arr_dbl _ _ _ B (len_dbls _ X)) _). cbv beta.
  refine (codec_cons _ _ _ _ _ _ (arr_dbl _ _ _ C (len_dbls 1 ltac:(lia))) _). apply codec_nil.
Qed.
Lemma tern_codec c : 1 <= len (t_string c) -> len (t_mu c) = 1 -> codec (tern_save c) tern_load c.
Proof.
  intros A C. destruct c as [s mu]. cbn [t_string t_mu] in A, C. unfold tern_save, tern_load. cbn [t_string t_mu]. cbv zeta. rd1.
  change (Z.of_nat (length s)) with (len s). destruct (Z.ltb_spec (len s) 1); [lia|].
  refine (codec_cons _ _ _ _ _ _ (arr_char (len s) s (ints_ (len s)) eq_refl (len_ints (len s) ltac:(lia))) _). cbv beta.
  refine (codec_cons _ _ _ _ _ _ (arr_dbl _ _ _ C (len_dbls 1 ltac:(lia))) _). apply codec_nil.
Qed.
Lemma tree_codec c : 1 <= gp_len c -> len (gp_tree c) = gp_len c -> len (gp_mu c) = 1 -> codec (tree_save c) tree_load c.
Proof.
  intros A B C. destruct c as [t n p mu]. cbn [gp_tree gp_len gp_pos gp_mu] in A, B, C. unfold tree_save, tree_load. cbn [gp_tree gp_len gp_pos gp_mu]. rd1. rd1.
  destruct (Z.ltb_spec n 1); [lia|].
  refine (codec_cons _ _ _ _ _ _ (arr_int _ _ _ B (len_ints n ltac:(lia))) _). cbv beta.
  refine (codec_cons _ _ _ _ _ _ (arr_dbl _ _ _ C (len_dbls 1 ltac:(lia))) _). apply codec_nil.
Qed.
Record graph_fits (g : graph) : Prop := {
  gf_n : 1 <= d_n g; gf_k : 1 <= d_klen g; gf_state : len (d_state g) = d_n g; gf_initial : len (d_initial g) = d_n g;
  gf_func : len (d_func g) = d_n g; gf_conn : len (d_conn g) = d_klen g; gf_mu : len (d_mu g) = 3
}.
Lemma graph_codec g : graph_fits g -> codec (graph_save g) graph_load g.
Proof.
  intros [A B C D E F G]. destruct g as [ev ini st co f klen mk mt n ni t mu]. cbn [d_evolve d_initial d_state d_conn d_func d_klen d_max_k d_max_t d_n d_n_inputs d_t d_mu] in A, B, C, D, E, F, G. unfold graph_save, graph_load.
  cbn [d_evolve d_initial d_state d_conn d_func d_klen d_max_k d_max_t d_n d_n_inputs d_t d_mu]. do 7 rd1.
  destruct (Z.ltb_spec n 1); [lia|]. destruct (Z.ltb_spec klen 1); [lia|]. cbn [orb].
  refine (codec_cons _ _ _ _ _ _ (arr_dbl _ _ _ C (len_dbls n ltac:(lia))) _). cbv beta.
  refine (codec_cons _ _ _ _ _ _ (arr_dbl _ _ _ D (len_dbls n ltac:(lia))) _). cbv beta.
  refine (codec_cons _ _ _ _ _ _ (arr_int _ _ _ E (len_ints n ltac:(lia))) _). cbv beta.
  refine (codec_cons _ _ _ _ _ _ (arr_int _ _ _ F (len_ints klen ltac:(lia))) _). cbv beta.
  refine (codec_cons _ _ _ _ _ _ (arr_dbl _ _ _ G (len_dbls 3 ltac:(lia))) _). apply codec_nil.
Qed.

(** ** Layers *)

(** The sizes of the arrays of a layer that is written are those its fields say, and the guards of
    the constructor hold. *)
Record conn_fits (l : layer f64) : Prop := {
  cf_out : 1 <= l_n_outputs l <= N_OUTPUTS_MAX; cf_w : 1 <= l_n_weights l <= N_WEIGHTS_MAX; cf_nb : l_n_biases l = l_n_outputs l;
  cf_weights : len (l_weights l) = l_n_weights l; cf_active : len (l_active l) = l_n_weights l;
  cf_biases : len (l_biases l) = l_n_biases l; cf_bu : len (l_bias_updates l) = l_n_biases l;
  cf_wu : len (l_weight_updates l) = l_n_weights l; cf_mu : len (l_mu l) = 6
}.
Record conv_fits (l : layer f64) : Prop := {
  vf_out : 1 <= l_n_outputs l <= N_OUTPUTS_MAX; vf_w : 1 <= l_n_weights l <= N_WEIGHTS_MAX; vf_b : 1 <= l_n_biases l <= N_OUTPUTS_MAX;
  vf_nf : l_n_filters l = l_n_biases l;
  vf_ws : 1 <= (l_out_h l * l_out_w l * l_size l * l_size l * l_channels l * 8) mod 2 ^ 64;
  vf_weights : len (l_weights l) = l_n_weights l; vf_active : len (l_active l) = l_n_weights l;
  vf_biases : len (l_biases l) = l_n_biases l; vf_bu : len (l_bias_updates l) = l_n_biases l;
  vf_wu : len (l_weight_updates l) = l_n_weights l; vf_mu : len (l_mu l) = 6
}.
Definition weightless (t : Z) : Prop := t = DROPOUT \/ t = NOISE \/ t = SOFTMAX \/ t = MAXPOOL \/ t = AVGPOOL \/ t = UPSAMPLE.
Definition layer_fits (l : layer f64) : Prop :=
  (l_type l = CONNECTED /\ conn_fits l) \/ (l_type l = CONVOLUTIONAL /\ conv_fits l) \/
  (weightless (l_type l) /\ 1 <= l_n_outputs l <= N_OUTPUTS_MAX).

(** What a layer is after it has been written and read back: the options, sizes, rates, weights,
    biases, pending updates and mutation rates are kept; state, outputs and errors are zero; what
    the type has no use for is as layer_defaults left it. *)
Definition conn_restored (l : layer f64) : layer f64 :=
  mkLayer CONNECTED (l_options l) (l_function l) (l_n_inputs l) (l_n_outputs l) (l_max_outputs l) (l_grow l)
    (l_n_weights l) (l_n_biases l) (l_n_active l) (l_eta l) (l_eta_max l) (l_eta_min l) (l_momentum l) (l_decay l)
    f0 f0 0 0 0 0 (l_n_outputs l) 1 1 0 0 0
    (zeros f0 (l_n_outputs l)) (zeros f0 (l_n_outputs l)) (l_weights l) (l_weight_updates l) (l_biases l) (l_bias_updates l)
    (zeros f0 (l_n_outputs l)) [] (l_active l) (l_mu l) [].
Definition conv_restored (l : layer f64) : layer f64 :=
  mkLayer CONVOLUTIONAL (l_options l) (l_function l) (l_n_inputs l) (l_n_outputs l) (l_max_outputs l) (l_grow l)
    (l_n_weights l) (l_n_biases l) (l_n_active l) (l_eta l) (l_eta_max l) (l_eta_min l) (l_momentum l) (l_decay l)
    f0 f0 (l_height l) (l_width l) (l_channels l) (l_pad l) (l_out_w l) (l_out_h l) (l_out_c l) (l_size l) (l_stride l) (l_n_filters l)
    (zeros f0 (l_n_outputs l)) (zeros f0 (l_n_outputs l)) (l_weights l) (l_weight_updates l) (l_biases l) (l_bias_updates l)
    (zeros f0 (l_n_outputs l))
    (zeros fnan ((l_out_h l * l_out_w l * l_size l * l_size l * l_channels l * 8) mod 2 ^ 64 / 8)) (l_active l) (l_mu l) [].
Definition plain_restored (l : layer f64) : layer f64 :=
  let t := l_type l in let n := l_n_outputs l in
  let image := (t =? MAXPOOL) || (t =? AVGPOOL) || (t =? UPSAMPLE) in
  let noisy := (t =? DROPOUT) || (t =? NOISE) in
  mkLayer t 0 0 (l_n_inputs l) n (l_max_outputs l) 0 0 0 0 f0 f0 f0 f0 f0
    (if noisy || (t =? SOFTMAX) then l_scale l else f0) (if noisy then l_probability l else f0)
    (if image then l_height l else 0) (if image then l_width l else 0) (if image then l_channels l else 0)
    (if t =? MAXPOOL then l_pad l else 0)
    (if t =? SOFTMAX then n else l_out_w l) (if t =? SOFTMAX then 1 else l_out_h l) (if t =? SOFTMAX then 1 else l_out_c l)
    (if t =? MAXPOOL then l_size l else 0) (if (t =? MAXPOOL) || (t =? UPSAMPLE) then l_stride l else 0) 0
    (if noisy then zeros f0 n else []) (zeros f0 n) [] [] [] [] (zeros f0 n) [] [] [] (if t =? MAXPOOL then zeros 0 n else []).
Definition restored (l : layer f64) : layer f64 :=
  if l_type l =? CONNECTED then conn_restored l else if l_type l =? CONVOLUTIONAL then conv_restored l else plain_restored l.

Lemma guard_ok n m : 1 <= n <= m -> guard n m = Ok tt.
Proof. intros H. unfold guard. destruct (Z.ltb_spec n 1), (Z.ltb_spec m n); try lia; reflexivity. Qed.
Lemma zeros_len {A} (x : A) n : 0 <= n -> len (zeros x n) = n.
Proof. intros H. apply len_repeat. lia. Qed.

Lemma conn_codec l : conn_fits l -> codec (connected_save l) (connected_load (set_type CONNECTED layer_defaults)) (conn_restored l).
Proof.
  intros [A B C D E F G H I]. unfold connected_save, connected_load. do 14 rd1.
  eapply codec_lift.
  { unfold connected_malloc, layer_guard_outputs, layer_guard_weights. cbn [l_n_outputs l_n_weights set_n_inputs set_n_outputs set_n_biases set_max_outputs set_n_weights set_options set_function set_grow set_eta set_eta_max set_eta_min set_momentum set_decay set_n_active set_out_w set_out_c set_out_h set_type layer_defaults].
    rewrite !guard_ok by assumption. cbn [obind]. reflexivity. }
  cbv beta. cbn [l_weights l_active l_biases l_bias_updates l_weight_updates l_mu set_state set_output set_biases set_bias_updates set_delta set_weight_updates set_active set_weights set_mu].
  refine (codec_cons _ _ _ _ _ _ (arr_dbl _ _ _ D (zeros_len _ (l_n_weights l) ltac:(lia))) _). cbv beta.
  refine (codec_cons _ _ _ _ _ _ (arr_bool _ _ _ E (zeros_len _ (l_n_weights l) ltac:(lia))) _). cbv beta.
  refine (codec_cons _ _ _ _ _ _ (arr_dbl _ _ _ F (eq_trans (zeros_len _ (l_n_outputs l) ltac:(lia)) (eq_sym C))) _). cbv beta.
  refine (codec_cons _ _ _ _ _ _ (arr_dbl _ _ _ G (eq_trans (zeros_len _ (l_n_outputs l) ltac:(lia)) (eq_sym C))) _). cbv beta.
  refine (codec_cons _ _ _ _ _ _ (arr_dbl _ _ _ H (zeros_len _ (l_n_weights l) ltac:(lia))) _). cbv beta.
  refine (codec_cons _ _ _ _ _ _ (arr_dbl _ _ _ I (zeros_len _ (6) ltac:(lia))) _). cbv beta. apply codec_nil.
Qed.
Lemma conv_codec l : conv_fits l -> codec (conv_save l) (conv_load (set_type CONVOLUTIONAL layer_defaults)) (conv_restored l).
Proof.
  intros [A B B' N W D E F G H I]. unfold conv_save, conv_load. do 24 rd1.
  eapply codec_lift.
  { unfold conv_malloc, conv_guard, layer_guard_biases, layer_guard_outputs, layer_guard_weights, workspace_len.
    cbn [l_n_outputs l_n_weights l_n_biases l_out_h l_out_w l_size l_channels set_n_inputs set_n_outputs set_n_biases set_max_outputs set_n_weights set_options set_function set_grow set_eta set_eta_max set_eta_min set_momentum set_decay set_n_active set_out_w set_out_c set_out_h set_type set_height set_width set_channels set_n_filters set_stride set_size set_pad layer_defaults].
    rewrite !guard_ok by assumption. cbn [obind].
    destruct (Z.ltb_spec ((l_out_h l * l_out_w l * l_size l * l_size l * l_channels l * 8) mod 2 ^ 64) 1); [lia|]. cbn [obind]. reflexivity. }
  cbv beta. cbn [l_weights l_active l_biases l_bias_updates l_weight_updates l_mu set_state set_output set_biases set_bias_updates set_delta set_weight_updates set_active set_weights set_mu set_temp].
  refine (codec_cons _ _ _ _ _ _ (arr_dbl _ _ _ D (zeros_len _ (l_n_weights l) ltac:(lia))) _). cbv beta.
  refine (codec_cons _ _ _ _ _ _ (arr_dbl _ _ _ H (zeros_len _ (l_n_weights l) ltac:(lia))) _). cbv beta.
  refine (codec_cons _ _ _ _ _ _ (arr_bool _ _ _ E (zeros_len _ (l_n_weights l) ltac:(lia))) _). cbv beta.
  refine (codec_cons _ _ _ _ _ _ (arr_dbl _ _ _ F (zeros_len _ (l_n_biases l) ltac:(lia))) _). cbv beta.
  assert (Y : codec (fwrite dbl_ (l_n_filters l) (l_bias_updates l)) (fread get_dbl (l_n_biases l) (zeros f0 (l_n_biases l))) (l_bias_updates l)).
  { rewrite N. exact (arr_dbl _ _ _ G (zeros_len _ (l_n_biases l) ltac:(lia))). }
  refine (codec_cons _ _ _ _ _ _ Y _). cbv beta.
  refine (codec_cons _ _ _ _ _ _ (arr_dbl _ _ _ I (zeros_len _ (6) ltac:(lia))) _). cbv beta. apply codec_nil.
Qed.

(** The layers without weights. *)
Ltac plain_read :=
  repeat match goal with |- codec (cat (one _ :: _)) _ _ => rd1 end; apply codec_tail;
  unfold plain_malloc, layer_guard_outputs;
  cbn [l_n_outputs l_type set_n_inputs set_n_outputs set_max_outputs set_probability set_scale set_out_w set_out_c set_out_h set_type set_height set_width set_channels set_stride set_size set_pad layer_defaults];
  rewrite guard_ok by assumption; cbn [obind].
Section Plain.
Context (l : layer f64) (B : 1 <= l_n_outputs l <= N_OUTPUTS_MAX).
Lemma dropout_codec : l_type l = DROPOUT -> codec (noise_save l) (noise_load (set_type DROPOUT layer_defaults)) (plain_restored l).
Proof. intros T. unfold plain_restored, noise_save, noise_load. rewrite T. plain_read. reflexivity. Qed.
Lemma noise_codec : l_type l = NOISE -> codec (noise_save l) (noise_load (set_type NOISE layer_defaults)) (plain_restored l).
Proof. intros T. unfold plain_restored, noise_save, noise_load. rewrite T. plain_read. reflexivity. Qed.
Lemma softmax_codec : l_type l = SOFTMAX -> codec (softmax_save l) (softmax_load (set_type SOFTMAX layer_defaults)) (plain_restored l).
Proof. intros T. unfold plain_restored, softmax_save, softmax_load. rewrite T. plain_read. reflexivity. Qed.
Lemma maxpool_codec : l_type l = MAXPOOL -> codec (maxpool_save l) (maxpool_load (set_type MAXPOOL layer_defaults)) (plain_restored l).
Proof. intros T. unfold plain_restored, maxpool_save, maxpool_load. rewrite T. plain_read. reflexivity. Qed.
Lemma avgpool_codec : l_type l = AVGPOOL -> codec (avgpool_save l) (avgpool_load (set_type AVGPOOL layer_defaults)) (plain_restored l).
Proof. intros T. unfold plain_restored, avgpool_save, avgpool_load. rewrite T. plain_read. reflexivity. Qed.
Lemma upsample_codec : l_type l = UPSAMPLE -> codec (upsample_save l) (upsample_load (set_type UPSAMPLE layer_defaults)) (plain_restored l).
Proof. intros T. unfold plain_restored, upsample_save, upsample_load. rewrite T. plain_read. reflexivity. Qed.
End Plain.
Lemma layer_codec l : layer_fits l -> codec (layer_save l) layer_load (restored l).
Proof.
  intros [[T F]|[[T F]|[W B]]]; unfold layer_save, layer_load, restored; cbv zeta.
  - rewrite T. rd1. apply codec_one. exact (conn_codec l F).
  - rewrite T. rd1. apply codec_one. exact (conv_codec l F).
  - destruct W as [T|[T|[T|[T|[T|T]]]]]; rewrite T; rd1; apply codec_one.
    + exact (dropout_codec l B T).
    + exact (noise_codec l B T).
    + exact (softmax_codec l B T).
    + exact (maxpool_codec l B T).
    + exact (avgpool_codec l B T).
    + exact (upsample_codec l B T).
Qed.

(** ** Networks *)
Definition net_fits (n : nn f64) : Prop := Forall layer_fits (nn_layers n).
Definition net_restored (n : nn f64) : nn f64 := of_layers (map restored (nn_layers n)).
Lemma net_codec n : net_fits n -> codec (net_save n) net_load (net_restored n).
Proof.
  intros F. unfold net_save, net_load. cbn [app]. do 3 rd1. rewrite Nat2Z.id.
  refine (codec_ret _ _ (fun ls => of_layers ls) _ _). apply codec_get_n.
  apply Forall_forall. intros l I. apply layer_codec. exact (proj1 (Forall_forall _ _) F l I).
Qed.

(** ** Rules *)
Section Rules.
Context (K : cfg) (log2 : f64 -> f64).

(** A condition of the type the system is configured for, with arrays as long as their fields say. *)
Definition cond_fits (h : shape) (c : cond_v) : Prop :=
  match c with
  | VDummy => sh_cond h = COND_TYPE_DUMMY
  | VRect c => (sh_cond h = COND_TYPE_HYPERRECTANGLE_CSR \/ sh_cond h = COND_TYPE_HYPERRECTANGLE_UBR) /\
      len (r_b1 c) = sh_x h /\ len (r_b2 c) = sh_x h /\ len (r_mu c) = 1
  | VEllip c => sh_cond h = COND_TYPE_HYPERELLIPSOID /\ len (e_center c) = sh_x h /\ len (e_spread c) = sh_x h /\ len (e_mu c) = 1
  | VTern c => sh_cond h = COND_TYPE_TERNARY /\ 1 <= len (t_string c) /\ len (t_mu c) = 1
  | VGp c => sh_cond h = COND_TYPE_GP /\ 1 <= gp_len c /\ len (gp_tree c) = gp_len c /\ len (gp_mu c) = 1
  | VDgp c => sh_cond h = COND_TYPE_DGP /\ graph_fits c
  | VNet c => sh_cond h = COND_TYPE_NEURAL /\ net_fits c
  | VRuleDgp c => sh_cond h = RULE_TYPE_DGP /\ graph_fits (rg_graph c) /\ n_action_nodes (with_dims K h) log2 = Ok (rg_outputs c)
  | VRuleNet c => sh_cond h = RULE_TYPE_NEURAL /\ net_fits c
  end.
Definition cond_restored (c : cond_v) : cond_v :=
  match c with VNet n => VNet (net_restored n) | VRuleNet n => VRuleNet (net_restored n) | _ => c end.
Lemma cond_codec h c : cond_fits h c -> codec (cond_save h c) (cond_load K log2 h) (cond_restored c).
Proof.
  destruct c as [|c|c|c|c|c|c|c|c]; cbn [cond_fits cond_save cond_restored]; unfold cond_load; cbv zeta.
  - intros ->. exact (codec_nil VDummy).
  - intros ([E|E] & A & B & C); rewrite E; exact (codec_ret _ _ VRect _ (rect_codec _ _ A B C)).
  - intros (E & A & B & C); rewrite E; exact (codec_ret _ _ VEllip _ (ellip_codec _ _ A B C)).
  - intros (E & A & C); rewrite E; exact (codec_ret _ _ VTern _ (tern_codec _ A C)).
  - intros (E & A & B & C); rewrite E; exact (codec_ret _ _ VGp _ (tree_codec _ A B C)).
  - intros (E & A); rewrite E; exact (codec_ret _ _ VDgp _ (graph_codec _ A)).
  - intros (E & A); rewrite E; exact (codec_ret _ _ VNet _ (net_codec _ A)).
  - intros (E & A & B); rewrite E. destruct c as [g n]. cbn [rg_graph rg_outputs] in *. rewrite B.
    destruct (graph_codec _ A) as (cs & X & R). exists cs. split; [exact X|]. intros rest r. destruct (R rest r) as (r' & Y).
    exists r'. change ((x <- graph_load ;; n0 <- plift (lift (Ok n)) ;; pret (VRuleDgp (mkRgraph x n0)))%file (cs ++ rest) r = Ok (VRuleDgp (mkRgraph g n), rest, r')).
    rewrite (pbind_ok _ _ _ _ _ _ _ Y). reflexivity.
  - intros (E & A); rewrite E; exact (codec_ret _ _ VRuleNet _ (net_codec _ A)).
Qed.

Definition act_fits (h : shape) (a : act_v) : Prop :=
  let rule := sh_cond h = RULE_TYPE_DGP \/ sh_cond h = RULE_TYPE_NEURAL in
  match a with
  | AInt a => ~ rule /\ sh_act h = ACT_TYPE_INTEGER /\ len (a_mu a) = 1
  | ANet n => ~ rule /\ sh_act h = ACT_TYPE_NEURAL /\ net_fits n
  | ARule => rule /\ (sh_act h = ACT_TYPE_INTEGER \/ sh_act h = ACT_TYPE_NEURAL)
  end.
Definition act_restored (a : act_v) : act_v := match a with ANet n => ANet (net_restored n) | _ => a end.
Lemma no_rule h : ~ (sh_cond h = RULE_TYPE_DGP \/ sh_cond h = RULE_TYPE_NEURAL) -> (sh_cond h =? RULE_TYPE_DGP) || (sh_cond h =? RULE_TYPE_NEURAL) = false.
Proof. intros N. destruct (Z.eqb_spec (sh_cond h) RULE_TYPE_DGP); [tauto|]. destruct (Z.eqb_spec (sh_cond h) RULE_TYPE_NEURAL); [tauto|reflexivity]. Qed.
Lemma action_codec h a : act_fits h a -> codec (action_save a) (action_load h) (act_restored a).
Proof.
  destruct a as [a|n|]; cbn [act_fits action_save act_restored]; unfold action_load; cbv zeta.
  - intros (N & E & M). rewrite E, (no_rule _ N). destruct a as [a mu]. cbn [a_action a_mu] in *.
    change (codec (cat [one (int_ a); fwrite dbl_ 1 mu]) (a <- get_int ;; mu <- fread get_dbl 1 (dbls_ 1) ;; pret (AInt (mkAct a mu)))%file (AInt (mkAct a mu))).
    rd1. apply codec_one. exact (codec_ret _ _ (fun m => AInt (mkAct a m)) _ (arr_dbl _ _ _ M (len_dbls 1 ltac:(lia)))).
  - intros (N & E & F). rewrite E, (no_rule _ N). exact (codec_ret _ _ ANet _ (net_codec _ F)).
  - intros (R & A). assert (X : (sh_cond h =? RULE_TYPE_DGP) || (sh_cond h =? RULE_TYPE_NEURAL) = true) by (destruct R as [->| ->]; reflexivity).
    rewrite X. destruct A as [->| ->]; exact (codec_nil ARule).
Qed.

(** Numbers of inputs of the linear predictions. *)
Definition nlms_features (h : shape) : Z := n_features (sh_x h) (pp_type (sh_pred h) =? PRED_TYPE_NLMS_QUADRATIC).
Definition rls_features (h : shape) : Z := n_features (sh_x h) (pp_type (sh_pred h) =? PRED_TYPE_RLS_QUADRATIC).
Definition pred_fits (h : shape) (p : pred_v) : Prop :=
  let t := pp_type (sh_pred h) in
  match p with
  | PConst => t = PRED_TYPE_CONSTANT
  | PNlms p => (t = PRED_TYPE_NLMS_LINEAR \/ t = PRED_TYPE_NLMS_QUADRATIC) /\
      nl_n p = nlms_features h /\ len (nl_weights p) = nlms_features h * sh_y h /\ len (nl_mu p) = 1
  | PRls p => (t = PRED_TYPE_RLS_LINEAR \/ t = PRED_TYPE_RLS_QUADRATIC) /\
      rl_n p = rls_features h /\ len (rl_weights p) = rls_features h * sh_y h /\
      len (rl_matrix p) = rls_features h * rls_features h /\ rls_features h * rls_features h < 2 ^ 31
  | PNet n => t = PRED_TYPE_NEURAL /\ net_fits n
  end.
(** The scratch arrays of the linear predictions are fresh. *)
Definition pred_restored (p : pred_v) : pred_v :=
  match p with
  | PConst => PConst
  | PNlms p => PNlms (mkNlms (nl_n p) (nl_weights p) (nl_mu p) (nl_eta p) (dbls_ (nl_n p)))
  | PRls p => PRls (mkRls (rl_n p) (rl_weights p) (rl_matrix p) (dbls_ (rl_n p)) (zeros f0 (rl_n p))
                     (zeros f0 (rl_n p * rl_n p)) (zeros f0 (rl_n p * rl_n p)))
  | PNet n => PNet (net_restored n)
  end.
Lemma features_pos x q : 1 <= x -> 0 < n_features x q.
Proof. intros H. unfold n_features. destruct q; [|lia]. pose proof (Z.quot_pos (x * (x - 1)) 2 ltac:(nia) ltac:(lia)). lia. Qed.
Lemma nlms_init_any h n : 1 <= sh_x h -> 1 <= sh_y h -> n = nlms_features h -> forall g, exists p g', nlms_init (with_dims K h) (sh_pred h) g = Ok (p, g') /\
  len (nl_weights p) = n * sh_y h /\ len (nl_mu p) = 1 /\ nl_tmp p = dbls_ n.
Proof.
  intros X Y -> g. unfold nlms_init. cbv zeta. change (x_dim (with_dims K h)) with (sh_x h). change (y_dim (with_dims K h)) with (sh_y h).
  fold (nlms_features h). destruct (init_weights_ok f64_num (sh_y h) (nlms_features h) (pp_x0 (sh_pred h)) ltac:(lia) (features_pos _ _ X)) as (w & E & L & _).
  unfold bind at 1. unfold lift at 1. rewrite E. destruct (pp_evolve_eta (sh_pred h)).
  - assert (S1 : Forall scheme_ok nlms_mu_type) by (repeat constructor; left; reflexivity).
    destruct (sam_init_len _ _ _ (src_any (lm K)) nlms_mu_type S1 g Logic.I) as (mu & g1 & E1 & _ & L1).
    destruct (rt_uniform _ _ _ (src_any (lm K)) (pp_eta_min (sh_pred h)) (pp_eta (sh_pred h)) g1 Logic.I) as (e & g2 & E2 & _ & _).
    exists (mkNlms (nlms_features h) w mu e (alloc_tmp (nlms_features h))), g2. unfold bind at 1. rewrite E1. unfold bind. rewrite E2.
    cbn [nl_weights nl_mu nl_tmp]. split; [reflexivity|]. split; [exact L|]. split; [unfold len; rewrite L1; reflexivity|reflexivity].
  - exists (mkNlms (nlms_features h) w [f0] (pp_eta (sh_pred h)) (alloc_tmp (nlms_features h))), g. cbn [nl_weights nl_mu nl_tmp].
    split; [reflexivity|]. split; [exact L|]. split; reflexivity.
Qed.
Lemma pred_codec h p : 1 <= sh_x h -> 1 <= sh_y h -> pred_fits h p -> codec (pred_save p) (pred_load K h) (pred_restored p).
Proof.
  intros X Y. destruct p as [|p|p|n]; cbn [pred_fits pred_save pred_restored]; unfold pred_load; cbv zeta.
  - intros ->. exact (codec_nil PConst).
  - intros (T & N & W & M). assert (C : codec (nlms_save p) (nlms_load K h) (mkNlms (nl_n p) (nl_weights p) (nl_mu p) (nl_eta p) (dbls_ (nl_n p)))).
    { assert (F : exists cs, nlms_save p = Ok cs /\ codec (nlms_save p)
        (n <- get_int ;; nw <- get_int ;; w <- fread get_dbl nw (dbls_ (nlms_features h * sh_y h)) ;; mu <- fread get_dbl 1 (dbls_ 1) ;; e <- get_dbl ;;
         pret tt)%file tt).
      { assert (G : codec (nlms_save p) (n <- get_int ;; nw <- get_int ;; w <- fread get_dbl nw (dbls_ (nlms_features h * sh_y h)) ;; mu <- fread get_dbl 1 (dbls_ 1) ;; e <- get_dbl ;;
         pret tt)%file tt).
        { unfold nlms_save. cbv zeta. change (Z.of_nat (length (nl_weights p))) with (len (nl_weights p)). do 2 rd1. rewrite W.
          assert (0 <= nlms_features h * sh_y h) by (rewrite <- W; unfold len; lia).
          refine (codec_cons _ _ _ _ _ _ (arr_dbl _ _ _ W (len_dbls (nlms_features h * sh_y h) ltac:(lia))) _). cbv beta.
          refine (codec_cons _ _ _ _ _ _ (arr_dbl _ _ _ M (len_dbls 1 ltac:(lia))) _). cbv beta. rd1. apply codec_nil. }
        destruct G as (cs & E & R). exists cs. split; [exact E|]. exists cs. split; [exact E|exact R]. }
      destruct F as (cs & E & _). rewrite E. unfold nlms_load.
      refine (codec_draw _ _ _ _ _ (nlms_init_any h (nlms_features h) X Y eq_refl) _). intros q (L & Lm & Q). rewrite <- E.
      unfold nlms_save. cbv zeta. change (Z.of_nat (length (nl_weights p))) with (len (nl_weights p)). do 2 rd1. rewrite W.
      refine (codec_cons _ _ _ _ _ _ (arr_dbl _ _ _ W L) _). cbv beta.
      refine (codec_cons _ _ _ _ _ _ (arr_dbl _ _ _ M Lm) _). cbv beta. rd1. rewrite Q, <- N. apply codec_nil. }
    destruct T as [-> | ->]; exact (codec_ret _ _ PNlms _ C).
  - intros (T & N & W & M & I). assert (C : codec (rls_save p) (rls_load K h) (mkRls (rl_n p) (rl_weights p) (rl_matrix p) (dbls_ (rl_n p)) (zeros f0 (rl_n p))
                     (zeros f0 (rl_n p * rl_n p)) (zeros f0 (rl_n p * rl_n p)))).
    { unfold rls_save, rls_load. cbv zeta. change (Z.of_nat (length (rl_weights p))) with (len (rl_weights p)).
      assert (F : 0 < rls_features h) by (apply features_pos; exact X).
      destruct (init_weights_ok f64_num (sh_y h) (rls_features h) (pp_x0 (sh_pred h)) ltac:(lia) F) as (w & E & L & _).
      destruct (init_matrix_ok f64_num (rls_features h) (pp_scale_factor (sh_pred h)) ltac:(lia)) as (m & E2 & L2 & _).
      refine (codec_lift _ _ _ (mkRls (rls_features h) w m (dbls_ (rls_features h)) (zeros f0 (rls_features h))
                     (zeros f0 (rls_features h * rls_features h)) (zeros f0 (rls_features h * rls_features h))) _ _ _).
      { unfold rls_init. cbv zeta. change (x_dim (with_dims K h)) with (sh_x h). change (y_dim (with_dims K h)) with (sh_y h).
        fold (rls_features h). rewrite E. cbn [obind]. rewrite E2. reflexivity. }
      cbv beta. cbn [rl_weights rl_matrix rl_tmp rl_vec rl_mat1 rl_mat2]. do 2 rd1. rewrite W.
      refine (codec_cons _ _ _ _ _ _ (arr_dbl _ _ _ W L) _). cbv beta.
      assert (J : cint (rl_n p * rl_n p) = Ok (rls_features h * rls_features h)).
      { rewrite N. unfold cint. change (2 ^ 31) with 2147483648 in *. destruct (Z.leb_spec (- (2147483648)) (rls_features h * rls_features h)), (Z.ltb_spec (rls_features h * rls_features h) 2147483648); try nia; reflexivity. }
      refine (codec_lift _ _ _ _ _ J _). cbv beta. rewrite J. cbn [obind].
      refine (codec_cons _ _ _ _ _ _ (arr_dbl _ _ _ M L2) _). cbv beta. rewrite N. apply codec_nil. }
    destruct T as [-> | ->]; exact (codec_ret _ _ PRls _ C).
  - intros (-> & F). exact (codec_ret _ _ PNet _ (net_codec _ F)).
Qed.

(** *** A rule *)
Definition rule_fits (h : shape) (c : cl body) : Prop :=
  len (c_prediction c) = sh_y h /\ act_fits h (bd_act (c_body c)) /\ pred_fits h (bd_pred (c_body c)) /\ cond_fits h (bd_cond (c_body c)).
Definition body_restored (b : body) : body := mkBody (act_restored (bd_act b)) (pred_restored (bd_pred b)) (cond_restored (bd_cond b)).
Definition rule_restored (c : cl body) : cl body :=
  mkCl (c_err c) (c_fit c) (c_num c) (c_exp c) (c_size c) (c_time c) (c_m c) (c_prediction c) (c_action c) (c_age c) (c_mtotal c) (body_restored (c_body c)).
Lemma fits_known h c : rule_fits h c -> types_known h = true.
Proof.
  intros (_ & A & P & C). unfold types_known. rewrite !andb_true_iff. split; [split|].
  - destruct (bd_act (c_body c)) as [a|a|]; cbn in A.
    + destruct A as (_ & -> & _). reflexivity.
    + destruct A as (_ & -> & _). reflexivity.
    + destruct A as (_ & [-> | ->]); reflexivity.
  - destruct (bd_pred (c_body c)) as [|a|a|a]; cbn in P.
    + rewrite P. reflexivity.
    + destruct P as ([-> | ->] & _); reflexivity.
    + destruct P as ([-> | ->] & _); reflexivity.
    + destruct P as (-> & _); reflexivity.
  - destruct (bd_cond (c_body c)) as [|a|a|a|a|a|a|a|a]; cbn in C.
    + rewrite C. reflexivity.
    + destruct C as ([-> | ->] & _); reflexivity.
    + destruct C as (-> & _); reflexivity.
    + destruct C as (-> & _); reflexivity.
    + destruct C as (-> & _); reflexivity.
    + destruct C as (-> & _); reflexivity.
    + destruct C as (-> & _); reflexivity.
    + destruct C as (-> & _); reflexivity.
    + destruct C as (-> & _); reflexivity.
Qed.
Lemma rule_codec h c : 1 <= sh_x h -> 1 <= sh_y h -> rule_fits h c -> codec (cl_save h c) (cl_load K log2 h) (rule_restored c).
Proof.
  intros X Y F. pose proof (fits_known h c F) as T. destruct F as (L & A & P & C). unfold cl_save, cl_load. do 9 rd1.
  refine (codec_cons _ _ _ _ _ _ (arr_dbl _ _ _ L (len_dbls (sh_y h) ltac:(lia))) _). cbv beta. rd1. rewrite T. cbn [negb].
  refine (codec_cons _ _ _ _ _ _ (action_codec _ _ A) _). cbv beta.
  refine (codec_cons _ _ _ _ _ _ (pred_codec _ _ X Y P) _). cbv beta.
  refine (codec_cons _ _ _ _ _ _ (cond_codec _ _ C) _). cbv beta. apply codec_nil.
Qed.
End Rules.
