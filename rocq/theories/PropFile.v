(** * Saving and loading a system (C34). *)
From Coq Require Import ZArith Bool List Ascii Lia.
From Verif Require Import Outcome F64 Rng Arr ArrFacts Pop PopSpec PopInv PopTrial Pred Layer LayerFacts Net Names Param File FileFacts.
Import ListNotations.
Open Scope Z_scope.

(** ** Parameters *)
Definition copy_fld (x : sys) (a : sys) (f : fld) : sys :=
  match f with FI p => set_i a p (ints x p) | FD p => set_d a p (dbls x p) | FB p => set_b a p (bools x p) end.
Definition merge (x : sys) (fs : list fld) (x0 : sys) : sys := fold_left (copy_fld x) fs x0.
Lemma flds_codec x fs : forall x0, codec (write_flds x fs) (read_flds x0 fs) (merge x fs x0).
Proof.
  induction fs as [|f fs IH]; intros x0.
  - exact (codec_nil x0).
  - destruct (IH (copy_fld x x0 f)) as (cs & E & R). injection E as <-. exists (write_fld x f :: map (write_fld x) fs). split; [reflexivity|].
    intros rest g. destruct (R rest g) as (g' & X). exists g'. cbn [read_flds app].
    rewrite (pbind_ok _ _ _ _ (copy_fld x x0 f) (map (write_fld x) fs ++ rest) g); [exact X|]. destruct f; reflexivity.
Qed.
Lemma args1_codec f : codec (args_save1 f) args_load1 f.
Proof. destruct f as [[t ni n nm gr fn he wi ch sz str pad e em mo de p sc ew en ef ee ec sg] rf]. unfold args_save1, args_load1. cbv zeta. do 25 rd1. apply codec_nil. Qed.
Lemma args_codec l : codec (args_save l) args_load l.
Proof.
  unfold args_save, args_load. rd1. rewrite Nat2Z.id. pose proof (codec_get_n args_save1 args_load1 (fun x => x) l) as X. rewrite map_id in X.
  apply X. apply Forall_forall. intros f _. apply args1_codec.
Qed.
Lemma codec_ascii a : codec (one (chr a)) get_ascii a.
Proof.
  exists [chr a]. split; [reflexivity|]. intros rest g. exists g.
  change (get_ascii ([chr a] ++ rest) g) with (Ok (ascii_of_N (Z.to_N (Z.of_N (N_of_ascii a))), rest, g)). rewrite N2Z.id, ascii_N_embedding. reflexivity.
Qed.

(** The parameters after loading, given the terminated name in the file. *)
Definition loaded_fields (x x0 : sys) (f : list ascii) : sys :=
  merge x pred_read (merge x gp_read (merge x dgp_read (merge x cond_read (merge x [FI i_ACT_TYPE] (merge x ea_read
    (merge x main_read (merge x dims_read (with_file x0 f)))))))).
Definition loaded_par (x x0 : sys) (f : list ascii) : sys :=
  match loss_set_func (loaded_fields x x0 f) with Ok r => snd r | _ => x0 end.

(** A system whose parameters can be written: the name of the population file is terminated, the
    dimensions are positive, the loss function and the number of GP constants are set and the
    constants are there. *)
Record savable (y : system) : Prop := {
  sv_name : exists n, strnlen (file (y_par y)) MAX_LEN = Ok n /\ (n < length (file (y_par y)))%nat;
  sv_x : exists n, ints (y_par y) i_X_DIM = Some n /\ 1 <= n;
  sv_y : exists n, ints (y_par y) i_Y_DIM = Some n /\ 1 <= n;
  sv_n : exists n, ints (y_par y) i_N_ACTIONS = Some n /\ 1 <= n;
  sv_loss : exists n, ints (y_par y) i_LOSS_FUNC = Some n;
  sv_const : exists n, ints (y_par y) i_GP_N_CONSTANTS = Some n /\ 0 <= n <= len (y_constants y)
}.
(** What has been loaded over the system [y0]. *)
Definition params_restored (y y0 y1 : system) : Prop :=
  (forall p, ints (y_par y1) p = ints (y_par y) p) /\
  (forall p, dbls (y_par y1) p = dbls (y_par y) p) /\
  (forall p, p <> b_EXPLORE -> bools (y_par y1) p = bools (y_par y) p) /\
  (exists n, strnlen (file (y_par y)) MAX_LEN = Ok n /\ file (y_par y1) = firstn (n + 1) (file (y_par y))) /\
  (forall l, ints (y_par y) i_LOSS_FUNC = Some l -> 0 <= l < 7 -> loss_code (y_par y1) = Some l) /\
  seed (y_par y1) = seed (y_par y0) /\
  (exists n, ints (y_par y) i_GP_N_CONSTANTS = Some n /\
     y_constants y1 = firstn (Z.to_nat n) (y_constants y) ++ skipn (Z.to_nat n) (y_constants y0)) /\
  y_act_args y1 = y_act_args y /\ y_cond_args y1 = y_cond_args y /\ y_pred_args y1 = y_pred_args y.

Lemma fields_ints x x0 f p : ints (loaded_fields x x0 f) p = ints x p.
Proof. destruct p; reflexivity. Qed.
Lemma fields_dbls x x0 f p : dbls (loaded_fields x x0 f) p = dbls x p.
Proof. destruct p; reflexivity. Qed.
Lemma fields_bools x x0 f p : p <> b_EXPLORE -> bools (loaded_fields x x0 f) p = bools x p.
Proof. destruct p; intros N; try reflexivity. now destruct N. Qed.
Lemma loss_ok x : (exists n, ints x i_LOSS_FUNC = Some n) -> exists r, loss_set_func x = Ok r /\
  ints (snd r) = ints x /\ dbls (snd r) = dbls x /\ bools (snd r) = bools x /\ file (snd r) = file x /\ seed (snd r) = seed x /\
  forall l, ints x i_LOSS_FUNC = Some l -> 0 <= l < 7 -> loss_code (snd r) = Some l.
Proof.
  intros (n & E). unfold loss_set_func. rewrite E. eexists. split; [reflexivity|]. destruct (Z.leb_spec 0 n), (Z.ltb_spec n 7); cbn [andb snd ints dbls bools file seed loss_code];
    repeat (split; [reflexivity|]); intros l L R; injection L as <-; try lia; reflexivity.
Qed.

Section Param.
Context {B : Type} (y y0 : system) (s s0 : st B) (SV : savable y).
Context (FIT : forall n, ints (y_par y) i_GP_N_CONSTANTS = Some n -> n <= len (y_constants y0)).

Lemma param_codec : exists y1, params_restored y y0 y1 /\
  codec (param_save y s) (param_load y0 s0)
    (y1, with_explore (s_explore s) (with_stats (s_error s) (s_mset_size s) (s_aset_size s) (s_mfrac s) (with_time (s_time s) s0))).
Proof.
  destruct SV as [(n & EN & LN) (xd & EX & PX) (yd & EY & PY) (na & EA & PA) EL (nc & EC & PC)]. specialize (FIT _ EC).
  set (f := firstn (n + 1) (file (y_par y))).
  destruct (loss_ok (loaded_fields (y_par y) (y_par y0) f)) as (r & ER & R1 & R2 & R3 & R4 & R5 & R6).
  { destruct EL as (l & EL). exists l. rewrite fields_ints. exact EL. }
  exists (mkSystem (snd r) (firstn (Z.to_nat nc) (y_constants y) ++ skipn (Z.to_nat nc) (y_constants y0)) (y_act_args y) (y_cond_args y) (y_pred_args y)).
  split.
  - unfold params_restored. cbn [y_par y_constants y_act_args y_cond_args y_pred_args]. rewrite R1, R2, R3, R4, R5.
    split; [intros p; apply fields_ints|]. split; [intros p; apply fields_dbls|]. split; [intros p; apply fields_bools|].
    split; [exists n; split; [exact EN|reflexivity]|]. split; [intros l E; apply R6; rewrite fields_ints; exact E|].
    split; [reflexivity|]. split; [exists nc; split; [exact EC|reflexivity]|]. auto.
  - unfold param_save, param_load. cbv zeta. rewrite EN. cbn [obind]. rd1.
    destruct (Z.ltb_spec (Z.of_nat n + 1) 1); [lia|].
    assert (F : codec (fwrite chr (Z.of_nat n + 1) (file (y_par y))) (fread get_ascii (Z.of_nat n + 1) (repeat Ascii.zero (Z.to_nat (Z.of_nat n + 1)))) f).
    { pose proof (codec_part chr get_ascii (fun a => a) (Z.of_nat n + 1) (file (y_par y)) (repeat Ascii.zero (Z.to_nat (Z.of_nat n + 1))) codec_ascii) as X.
      rewrite map_id, (skipn_all2 (repeat _ _)), app_nil_r in X by (rewrite repeat_length; lia).
      unfold f. replace (n + 1)%nat with (Z.to_nat (Z.of_nat n + 1)) by lia. apply X; unfold len; [|rewrite repeat_length]; lia. }
    refine (codec_cons _ _ _ _ _ _ F _). cbv beta. do 6 rd1.
    refine (codec_cons _ _ _ _ _ _ (flds_codec _ _ _) _). cbv beta.
    refine (codec_lift _ _ _ xd _ _ _); [change (need_i (y_par y) i_X_DIM = Ok xd); unfold need_i; rewrite EX; reflexivity|]. cbv beta.
    refine (codec_lift _ _ _ yd _ _ _); [change (need_i (y_par y) i_Y_DIM = Ok yd); unfold need_i; rewrite EY; reflexivity|]. cbv beta.
    refine (codec_lift _ _ _ na _ _ _); [change (need_i (y_par y) i_N_ACTIONS = Ok na); unfold need_i; rewrite EA; reflexivity|]. cbv beta.
    destruct (Z.ltb_spec xd 1); [lia|]. destruct (Z.ltb_spec yd 1); [lia|]. destruct (Z.ltb_spec na 1); [lia|]. cbn [orb].
    refine (codec_cons _ _ _ _ _ _ (flds_codec _ _ _) _). cbv beta.
    refine (codec_cons _ _ _ _ _ _ (flds_codec _ _ _) _). cbv beta.
    refine (codec_cons _ _ _ _ _ _ (flds_codec _ _ _) _). cbv beta.
    refine (codec_cons _ _ _ _ _ _ (args_codec _) _). cbv beta.
    refine (codec_cons _ _ _ _ _ _ (flds_codec _ _ _) _). cbv beta.
    refine (codec_cons _ _ _ _ _ _ (flds_codec _ _ _) _). cbv beta.
    unfold tree_args_save. apply codec_flat. cbn [app].
    refine (codec_cons _ _ _ _ _ _ (flds_codec _ _ _) _). cbv beta.
    refine (codec_lift _ _ _ nc _ _ _).
    { change (need_i (y_par y) i_GP_N_CONSTANTS = Ok nc). unfold need_i. rewrite EC. reflexivity. }
    cbv beta. assert (W : codec (n0 <- need_i (y_par y) i_GP_N_CONSTANTS ;; fwrite dbl_ n0 (y_constants y))%out (fread get_dbl nc (y_constants y0))
      (firstn (Z.to_nat nc) (y_constants y) ++ skipn (Z.to_nat nc) (y_constants y0))).
    { unfold need_i. rewrite EC. cbn [obind]. pose proof (codec_part dbl_ get_dbl (fun a => a) nc (y_constants y) (y_constants y0) codec_dbl PC FIT) as X. rewrite map_id in X. exact X. }
    refine (codec_cons _ _ _ _ _ _ W _). cbv beta.
    refine (codec_cons _ _ _ _ _ _ (args_codec _) _). cbv beta.
    refine (codec_cons _ _ _ _ _ _ (flds_codec _ _ _) _). cbv beta.
    refine (codec_cons _ _ _ _ _ _ (args_codec _) _). cbv beta.
    refine (codec_lift _ _ _ r _ _ _).
    { rewrite <- ER. reflexivity. }
    apply codec_nil.
Qed.
End Param.

(** ** The population *)
Section Rules.
Context (K : cfg) (log2 : f64 -> f64).

(** The rules [rs] put into the cells from [n] on. *)
Fixpoint put_rules (h : loc -> option (cl body)) (n : loc) (rs : list (cl body)) : loc -> option (cl body) :=
  match rs with [] => h | r :: rest => put_rules (upd h n (Some r)) (S n) rest end.
Lemma put_below rs : forall h n l, (l < n)%nat -> put_rules h n rs l = h l.
Proof. induction rs as [|r rs IH]; intros h n l L; [reflexivity|]. cbn [put_rules]. rewrite IH by lia. apply upd_ne. lia. Qed.
Lemma put_above rs : forall h n l, (n + length rs <= l)%nat -> put_rules h n rs l = h l.
Proof. induction rs as [|r rs IH]; intros h n l L; [reflexivity|]. cbn [put_rules length] in *. rewrite IH by lia. apply upd_ne. lia. Qed.
Lemma put_seq rs : forall h n, map (put_rules h n rs) (seq n (length rs)) = map Some rs.
Proof.
  induction rs as [|r rs IH]; intros h n; [reflexivity|]. cbn [put_rules length seq map]. rewrite IH, put_below, upd_eq by lia. reflexivity.
Qed.
Definition nums (rs : list (cl body)) : Z := fold_right (fun r a => c_num r + a) 0 rs.

Lemma absorb g g1 q q1 hp hp1 n n1 (s : st body) : with_rng g (with_set PSET q (with_heap hp n (with_set PSET q1 (with_heap hp1 n1 (with_rng g1 s))))) =
  with_rng g (with_set PSET q (with_heap hp n s)).
Proof. reflexivity. Qed.
Lemma load_loop h rs cs : Forall (fun rc => codec (Ok (snd rc)) (cl_load K log2 h) (fst rc)) (combine rs cs) -> length cs = length rs ->
  forall rest s, exists g',
  pset_load_loop K log2 h (length rs) (concat cs ++ rest) s =
  Ok (rest, with_rng g' (with_set PSET (mkSet (rev (seq (s_next s) (length rs)) ++ set_list (s_pset s)) (set_sz (s_pset s) + len rs) (set_nm (s_pset s) + nums rs))
              (with_heap (put_rules (s_heap s) (s_next s) rs) (s_next s + length rs)%nat s))).
Proof.
  revert cs. induction rs as [|r rs IH]; intros [|c cs] F L rest s; try discriminate L.
  - exists (s_rng s). cbn [pset_load_loop length seq rev app concat put_rules nums fold_right]. unfold len. cbn [length]. rewrite Nat.add_0_r, !Z.add_0_r.
    destruct s as [a1 a2 [q1 q2 q3] a4 a5 a6 a7 a8 a9 a10 a11 a12 a13 a14 a15 a16 a17 a18 a19 a20]. reflexivity.
  - cbn [combine] in F. inversion F as [|? ? (cs' & E & R) F' X]; subst. cbn [fst snd] in *. injection E as <-.
    cbn [concat length pset_load_loop]. rewrite <- app_assoc. destruct (R (concat cs ++ rest) (s_rng s)) as (g1 & E1).
    unfold mbind at 1. unfold mread, mrand. rewrite E1. unfold mbind at 1. unfold alloc. cbn [fst snd].
    unfold mbind at 1. unfold clset_add, mbind at 1, get. cbn [s_heap with_heap]. change (s_next (with_rng g1 s)) with (s_next s).
    rewrite upd_eq. unfold mbind, mget, mmod.
    edestruct (IH cs F' ltac:(cbn in L; lia) rest) as (g2 & E2). exists g2. rewrite E2. rewrite absorb.
    assert (Q : forall q q' (n n' : nat) (t : st body) hp, q = q' -> n = n' ->
      @Ok (list cell * st body) (rest, with_rng g2 (with_set PSET q (with_heap hp n t))) = Ok (rest, with_rng g2 (with_set PSET q' (with_heap hp n' t)))) by (intros; now subst).
    apply Q; [|cbn [s_next with_set with_heap length]; lia].
    cbn [s_next s_pset with_set with_heap with_rng get_set set_list set_sz set_nm nums fold_right seq rev length]. unfold len. cbn [length].
    rewrite <- app_assoc. cbn [app]. change (fold_right (fun r0 a => c_num r0 + a) 0 rs) with (nums rs).
    replace (set_sz (s_pset s) + 1 + Z.of_nat (length rs)) with (set_sz (s_pset s) + Z.of_nat (S (length rs))) by lia.
    replace (set_nm (s_pset s) + c_num r + nums rs) with (set_nm (s_pset s) + (c_num r + nums rs)) by lia. reflexivity.
Qed.

(** Writing the rules. *)
Lemma save_rules h s ls rs : 1 <= sh_x h -> 1 <= sh_y h -> map (s_heap s) ls = map Some rs -> Forall (rule_fits K log2 h) rs ->
  exists cs, pset_save_rules h s ls = Ok (concat cs) /\ length cs = length (map rule_restored rs) /\
    Forall (fun rc => codec (Ok (snd rc)) (cl_load K log2 h) (fst rc)) (combine (map rule_restored rs) cs).
Proof.
  intros X Y. revert rs. induction ls as [|l ls IH]; intros [|r rs] E F; try discriminate E.
  - exists []. cbn. auto.
  - cbn [map] in E. injection E as E1 E2. inversion F as [|? ? F1 F2]; subst. destruct (IH rs E2 F2) as (cs & W & L & C).
    destruct (rule_codec K log2 h r X Y F1) as (c & W1 & R1). exists (c :: cs). cbn [pset_save_rules]. rewrite E1, W1. cbn [obind]. rewrite W. cbn [obind concat].
    split; [reflexivity|]. split; [cbn [map length]; now rewrite L|]. cbn [map combine]. constructor; [|exact C]. cbn [fst snd]. exists c. split; [reflexivity|exact R1].
Qed.

(** ** The whole system *)
Lemma shape_same x x1 : (forall p, ints x1 p = ints x p) -> (forall p, dbls x1 p = dbls x p) -> (forall p, p <> b_EXPLORE -> bools x1 p = bools x p) -> shape_of x1 = shape_of x.
Proof. intros I D B. unfold shape_of, need_i, need_d, need_b. rewrite !I, !D, B by discriminate. reflexivity. Qed.

(** The rules of a population in order. *)
Definition population (s : st body) (rs : list (cl body)) : Prop :=
  map (s_heap s) (set_list (s_pset s)) = map Some rs /\ set_sz (s_pset s) = len rs /\ set_nm (s_pset s) = nums rs.
(** The old population can be freed. *)
Definition disposable (s : st body) : Prop :=
  NoDup (set_list (s_pset s)) /\ (forall l, In l (set_list (s_pset s)) -> s_heap s l <> None) /\
  set_sz (s_pset s) = len (set_list (s_pset s)) /\ (forall l, (s_next s <= l)%nat -> s_heap s l = None).
(** What loading leaves alone. *)
Definition untouched (s s1 : st body) : Prop :=
  s_prev_pset s1 = s_prev_pset s /\ s_mset s1 = s_mset s /\ s_aset s1 = s_aset s /\ s_kset s1 = s_kset s /\ s_prev_aset s1 = s_prev_aset s /\
  s_prev_reward s1 = s_prev_reward s /\ s_prev_pred s1 = s_prev_pred s /\ s_pa s1 = s_pa s /\ s_nr s1 = s_nr s /\ s_prev_state s1 = s_prev_state s.
(** The running statistics. *)
Definition stats (s : st body) := (s_time s, s_error s, s_mset_size s, s_aset_size s, s_mfrac s, s_explore s).

Lemma C34_lemma y y0 s s0 h rs : savable y -> (forall n, ints (y_par y) i_GP_N_CONSTANTS = Some n -> n <= len (y_constants y0)) ->
  shape_of (y_par y) = Ok h -> population s rs -> Forall (rule_fits K log2 h) rs -> disposable s0 ->
  exists cells, xcsf_save y s = Ok cells /\ forall rest, exists y1 s1,
    xcsf_load K log2 y0 (cells ++ rest) s0 = Ok ((y1, rest), s1) /\
    params_restored y y0 y1 /\ stats s1 = stats s /\ population s1 (map rule_restored rs) /\ untouched s0 s1 /\
    NoDup (set_list (s_pset s1)) /\ (forall l, In l (set_list (s_pset s1)) -> s_heap s0 l = None) /\
    (forall l, In l (set_list (s_pset s0)) -> s_heap s1 l = None) /\
    (forall l, ~ In l (set_list (s_pset s1)) -> ~ In l (set_list (s_pset s0)) -> s_heap s1 l = s_heap s0 l) /\
    (forall l, (s_next s1 <= l)%nat -> s_heap s1 l = None).
Proof.
  intros SV FIT EH (P1 & P2 & P3) RF (ND & LIVE & SZ & BELOW).
  assert (HX : 1 <= sh_x h /\ 1 <= sh_y h).
  { destruct SV as [_ (xd & EX & PX) (yd & EY & PY) (na & EA & PA) _ _]. revert EH. unfold shape_of, need_i, need_d, need_b. rewrite EX, EY, EA. cbn [obind].
    destruct (ints (y_par y) i_COND_TYPE); [|discriminate]. cbn [obind]. destruct (ints (y_par y) i_ACT_TYPE); [|discriminate]. cbn [obind].
    destruct (ints (y_par y) i_PRED_TYPE); [|discriminate]. cbn [obind]. destruct (bools (y_par y) b_PRED_EVOLVE_ETA); [|discriminate]. cbn [obind].
    destruct (dbls (y_par y) d_PRED_ETA); [|discriminate]. cbn [obind]. destruct (dbls (y_par y) d_PRED_ETA_MIN); [|discriminate]. cbn [obind].
    destruct (dbls (y_par y) d_PRED_LAMBDA); [|discriminate]. cbn [obind]. destruct (dbls (y_par y) d_PRED_SCALE_FACTOR); [|discriminate]. cbn [obind].
    destruct (dbls (y_par y) d_PRED_X0); [|discriminate]. cbn [obind]. intros E. injection E as <-. cbn [sh_x sh_y]. auto. }
  destruct HX as (HX & HY). destruct (save_rules h s (set_list (s_pset s)) rs HX HY P1 RF) as (cs & WR & LC & RC).
  (* the old population *)
  assert (KILL : exists h0, (if 0 <? set_sz (s_pset s0) then clset_kill PSET ;;; clset_init PSET else mret tt)%m s0 =
      Ok (tt, with_set PSET (if 0 <? set_sz (s_pset s0) then empty_set else s_pset s0) (with_heap h0 (s_next s0) s0)) /\
      (forall l, In l (set_list (s_pset s0)) -> h0 l = None) /\ (forall l, ~ In l (set_list (s_pset s0)) -> h0 l = s_heap s0 l)).
  { destruct (Z.ltb_spec 0 (set_sz (s_pset s0))).
    - destruct (kill_spec PSET s0 ND LIVE) as (h0 & E & F). exists h0. unfold mbind at 1. rewrite E. split; [reflexivity|].
      split; intros l Hl; [exact (freed_in _ _ _ _ F Hl)|exact (freed_out _ _ _ _ F Hl)].
    - exists (s_heap s0). assert (Z0 : set_list (s_pset s0) = []) by (destruct (set_list (s_pset s0)); [reflexivity|unfold len in SZ; cbn [length] in SZ; lia]).
      rewrite Z0. split; [destruct s0; reflexivity|]. split; [intros l []|reflexivity]. }
  destruct KILL as (h0 & KE & K1 & K2). set (sk := with_set PSET _ _) in KE.
  (* parameters *)
  destruct (param_codec y y0 s sk SV FIT) as (y1 & PR & PC). destruct PC as (pc & WP & RP).
  exists ([int_ VERSION_MAJOR; int_ VERSION_MINOR; int_ VERSION_BUILD] ++ pc ++ [int_ (set_sz (s_pset s)); int_ (set_nm (s_pset s))] ++ concat cs). split.
  { unfold xcsf_save. rewrite EH. cbn [obind]. cbn [cat one obind]. rewrite WP. cbn [obind]. unfold pset_save. cbn [cat one obind]. rewrite WR. cbn [obind app]. rewrite !app_nil_r. reflexivity. }
  intros rest. rewrite <- !app_assoc. cbn [app].
  destruct (RP (int_ (set_sz (s_pset s)) :: int_ (set_nm (s_pset s)) :: concat cs ++ rest) (s_rng s0)) as (g1 & E1).
  set (s2 := with_rng g1 (with_explore (s_explore s) (with_stats (s_error s) (s_mset_size s) (s_aset_size s) (s_mfrac s) (with_time (s_time s) sk)))) in *.
  destruct (load_loop h (map rule_restored rs) cs RC LC rest (with_set PSET empty_set s2)) as (g2 & E2).
  rewrite map_length in E2. eexists y1, _. split.
  - unfold xcsf_load. unfold mbind at 1, mget at 1. unfold mbind at 1. rewrite KE. unfold mbind at 1.
    change (mread (a <- get_int ;; b <- get_int ;; d <- get_int ;; pret (a, b))%file
      (int_ VERSION_MAJOR :: int_ VERSION_MINOR :: int_ VERSION_BUILD :: pc ++ int_ (set_sz (s_pset s)) :: int_ (set_nm (s_pset s)) :: concat cs ++ rest) sk)
      with (@Ok (Z * Z * list cell * st body) ((VERSION_MAJOR, VERSION_MINOR, pc ++ int_ (set_sz (s_pset s)) :: int_ (set_nm (s_pset s)) :: concat cs ++ rest), with_rng (s_rng sk) sk)).
    cbn [fst snd]. rewrite !Z.eqb_refl. cbn [negb orb]. replace (with_rng (s_rng sk) sk) with sk by (unfold sk; destruct s0; reflexivity).
    unfold mbind at 1, mget. unfold mbind at 1, mread at 1, mrand at 1. change (s_rng sk) with (s_rng s0). rewrite E1. cbn [fst snd].
    unfold mbind at 1, mmod at 1. change (s_rng (with_rng g1 sk)) with g1. fold s2. unfold mbind at 1, mlift.
    rewrite (shape_same (y_par y) (y_par y1)) by apply PR. rewrite EH. unfold mbind at 1, pset_load at 1. unfold mbind at 1.
    change (mread (size <- get_int ;; _ <- get_int ;; pret size)%file (int_ (set_sz (s_pset s)) :: int_ (set_nm (s_pset s)) :: concat cs ++ rest) s2)
      with (@Ok (Z * list cell * st body) ((set_sz (s_pset s), concat cs ++ rest), with_rng (s_rng s2) s2)).
    cbn [fst snd]. replace (with_rng (s_rng s2) s2) with s2 by reflexivity. unfold mbind at 1, clset_init, mmod at 1. unfold mbind at 1. rewrite P2. unfold len. rewrite Nat2Z.id, E2.
    unfold mbind, pset_reverse, mmod, mret. reflexivity.
  - cbn [s_pset with_set with_rng with_heap s_heap set_list set_sz set_nm s_next]. rewrite !app_nil_r, rev_involutive.
    change (s_next s2) with (s_next s0). change (s_heap s2) with h0. unfold population.
    cbn [s_pset with_set with_rng with_heap s_heap set_list set_sz set_nm s_next].
    assert (IN : forall l, In l (seq (s_next s0) (length rs)) <-> (s_next s0 <= l < s_next s0 + length rs)%nat) by (intros; apply in_seq).
    assert (OLD : forall l, In l (set_list (s_pset s0)) -> (l < s_next s0)%nat).
    { intros l Hl. destruct (Nat.lt_ge_cases l (s_next s0)) as [|G]; [assumption|]. destruct (LIVE l Hl). exact (BELOW l G). }
    split; [exact PR|]. split; [reflexivity|]. split.
    { split; [|split; reflexivity]. rewrite <- (map_length rule_restored rs). apply put_seq. }
    split; [repeat split|]. split; [apply seq_NoDup|].
    split; [intros l Hl; apply IN in Hl; apply BELOW; lia|].
    split; [intros l Hl; rewrite put_below by (apply OLD; exact Hl); apply K1; exact Hl|].
    split.
    + intros l N1 N2. destruct (Nat.lt_ge_cases l (s_next s0)); [rewrite put_below by assumption; apply K2; exact N2|].
      rewrite put_above; [apply K2; exact N2|]. rewrite map_length. destruct (Nat.lt_ge_cases l (s_next s0 + length rs)); [|assumption]. destruct N1. apply IN. lia.
    + intros l Hl. rewrite put_above by (rewrite map_length; lia). rewrite K2; [apply BELOW; lia|]. intros Hl'. apply OLD in Hl'. lia.
Qed.
End Rules.
