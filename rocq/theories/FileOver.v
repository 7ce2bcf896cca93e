(** * Loading a file with more GP constants than the existing system has room for; a small system. *)
From Coq Require Import ZArith Bool List Lia Ascii.
From Verif Require Import Outcome F64 Rng Loss Pop PopTrial Cond Pred Demo Arr ArrFacts Layer Net Param File FileFacts PropFile.
Import ListNotations.
Open Scope Z_scope.

(** What [w] writes makes the reader [r] fail. *)
Definition breaks {A} (w : outcome (list cell)) (r : PL A) (k : ub_kind) : Prop :=
  exists cs, w = Ok cs /\ forall rest g, r (cs ++ rest) g = UB k.
Lemma breaks_cons {A B} w ws (m : PL A) (k : A -> PL B) a u : codec w m a -> breaks (cat ws) (k a) u -> breaks (cat (w :: ws)) (pbind m k) u.
Proof.
  intros (c1 & E1 & R1) (c2 & E2 & R2). exists (c1 ++ c2). split; [cbn [cat]; rewrite E1; cbn [obind]; rewrite E2; reflexivity|].
  intros rest g. rewrite <- app_assoc. destruct (R1 (c2 ++ rest) g) as (g1 & X1).
  rewrite (pbind_ok _ _ _ _ _ _ _ X1). apply R2.
Qed.
Lemma breaks_lift {A B} w (o : outcome A) (k : A -> PL B) a u : o = Ok a -> breaks w (k a) u -> breaks w (pbind (plift (lift o)) k) u.
Proof.
  intros E (c & W & R). exists c. split; [exact W|]. intros rest g. rewrite (pbind_ok _ _ _ _ a (c ++ rest) g); [apply R|].
  rewrite E. reflexivity.
Qed.
Lemma breaks_flat {A} l1 l2 (m : PL A) u : breaks (cat (l1 ++ l2)) m u -> breaks (cat (cat l1 :: l2)) m u.
Proof. intros (c & E & R). exists c. split; [rewrite cat_app in E; exact E|exact R]. Qed.
Ltac br1 :=
  match goal with
  | |- breaks (cat (one (int_ _) :: _)) _ _ => refine (breaks_cons _ _ _ _ _ _ (codec_int _) _)
  | |- breaks (cat (one (dbl_ _) :: _)) _ _ => refine (breaks_cons _ _ _ _ _ _ (codec_dbl _) _)
  | |- breaks (cat (one (bool_ _) :: _)) _ _ => refine (breaks_cons _ _ _ _ _ _ (codec_bool _) _)
  | |- breaks (cat (one (CN _) :: _)) _ _ => refine (breaks_cons _ _ _ _ _ _ (codec_size _) _)
  end; cbv beta.
(** The writer is defined, the first step of the reader fails. *)
Lemma breaks_now {A B} ws cs (m : PL A) (k : A -> PL B) u : ws = Ok cs -> (forall c g, m c g = UB u) -> breaks ws (pbind m k) u.
Proof. intros W M. exists cs. split; [exact W|]. intros rest g. unfold pbind, bind. now rewrite M. Qed.

Section Param.
Context {B : Type} (y y0 : system) (s s0 : st B) (SV : savable y).
Lemma param_breaks n : ints (y_par y) i_GP_N_CONSTANTS = Some n -> len (y_constants y0) < n ->
  breaks (param_save y s) (param_load y0 s0) OutOfBounds.
Proof.
  intros EC OV. destruct SV as [(k & EN & LN) (xd & EX & PX) (yd & EY & PY) (na & EA & PA) _ (nc & EC' & PC)].
  rewrite EC in EC'. injection EC' as <-.
  set (f := firstn (k + 1) (file (y_par y))).
  unfold param_save, param_load. cbv zeta. rewrite EN. cbn [obind]. br1.
  destruct (Z.ltb_spec (Z.of_nat k + 1) 1); [lia|].
  assert (F : codec (fwrite chr (Z.of_nat k + 1) (file (y_par y))) (fread get_ascii (Z.of_nat k + 1) (repeat Ascii.zero (Z.to_nat (Z.of_nat k + 1)))) f).
  { pose proof (codec_part chr get_ascii (fun a => a) (Z.of_nat k + 1) (file (y_par y)) (repeat Ascii.zero (Z.to_nat (Z.of_nat k + 1))) codec_ascii) as X.
    rewrite map_id, (skipn_all2 (repeat _ _)), app_nil_r in X by (rewrite repeat_length; lia).
    unfold f. replace (k + 1)%nat with (Z.to_nat (Z.of_nat k + 1)) by lia. apply X; unfold len; [|rewrite repeat_length]; lia. }
  refine (breaks_cons _ _ _ _ _ _ F _). cbv beta. do 6 br1.
  refine (breaks_cons _ _ _ _ _ _ (flds_codec _ _ _) _). cbv beta.
  refine (breaks_lift _ _ _ xd _ _ _); [change (need_i (y_par y) i_X_DIM = Ok xd); unfold need_i; rewrite EX; reflexivity|]. cbv beta.
  refine (breaks_lift _ _ _ yd _ _ _); [change (need_i (y_par y) i_Y_DIM = Ok yd); unfold need_i; rewrite EY; reflexivity|]. cbv beta.
  refine (breaks_lift _ _ _ na _ _ _); [change (need_i (y_par y) i_N_ACTIONS = Ok na); unfold need_i; rewrite EA; reflexivity|]. cbv beta.
  destruct (Z.ltb_spec xd 1); [lia|]. destruct (Z.ltb_spec yd 1); [lia|]. destruct (Z.ltb_spec na 1); [lia|]. cbn [orb].
  refine (breaks_cons _ _ _ _ _ _ (flds_codec _ _ _) _). cbv beta.
  refine (breaks_cons _ _ _ _ _ _ (flds_codec _ _ _) _). cbv beta.
  refine (breaks_cons _ _ _ _ _ _ (flds_codec _ _ _) _). cbv beta.
  refine (breaks_cons _ _ _ _ _ _ (args_codec _) _). cbv beta.
  refine (breaks_cons _ _ _ _ _ _ (flds_codec _ _ _) _). cbv beta.
  refine (breaks_cons _ _ _ _ _ _ (flds_codec _ _ _) _). cbv beta.
  unfold tree_args_save. apply breaks_flat. cbn [app].
  refine (breaks_cons _ _ _ _ _ _ (flds_codec _ _ _) _). cbv beta.
  refine (breaks_lift _ _ _ n _ _ _).
  { change (need_i (y_par y) i_GP_N_CONSTANTS = Ok n). unfold need_i. rewrite EC. reflexivity. }
  cbv beta.
  assert (W1 : exists c1, (n0 <- need_i (y_par y) i_GP_N_CONSTANTS ;; fwrite dbl_ n0 (y_constants y))%out = Ok c1).
  { unfold need_i. rewrite EC. cbn [obind]. destruct (codec_part dbl_ get_dbl (fun a => a) n (y_constants y) (y_constants y) codec_dbl PC ltac:(lia)) as (c & E & _). exists c. exact E. }
  destruct W1 as (c1 & W1). destruct (args_codec (y_cond_args y)) as (c2 & W2 & _). destruct (args_codec (y_pred_args y)) as (c4 & W4 & _).
  destruct (flds_codec (y_par y) pred_saved (y_par y)) as (c3 & W3 & _).
  refine (breaks_now _ (c1 ++ c2 ++ c3 ++ c4) _ _ _ _ _).
  - cbn [cat]. rewrite W1. cbn [obind]. rewrite W2. cbn [obind]. rewrite W3. cbn [obind]. rewrite W4. cbn [obind]. now rewrite app_nil_r.
  - intros c g. unfold fread. destruct (Z.ltb_spec n 0); [lia|]. destruct (Z.ltb_spec (Z.of_nat (length (y_constants y0))) n) as [|G]; [reflexivity|unfold len in OV; lia].
Qed.
End Param.

Section Whole.
Context (K : cfg) (log2 : f64 -> f64).
Lemma C34_overflow_lemma y y0 s s0 h rs n : savable y -> ints (y_par y) i_GP_N_CONSTANTS = Some n -> len (y_constants y0) < n ->
  shape_of (y_par y) = Ok h -> population s rs -> Forall (rule_fits K log2 h) rs -> disposable s0 ->
  exists cells, xcsf_save y s = Ok cells /\ forall rest, xcsf_load K log2 y0 (cells ++ rest) s0 = UB OutOfBounds.
Proof.
  intros SV EC OV EH PO RF DI. destruct (C34_lemma K log2 y y s s0 h rs SV) as (cells & E & _); try assumption.
  { intros m Em. destruct SV as [_ _ _ _ _ (m' & Em' & ?)]. rewrite Em in Em'. injection Em' as <-. lia. }
  exists cells. split; [exact E|]. intros rest.
  destruct DI as (ND & LIVE & SZ & BELOW).
  assert (KILL : exists sk, (if 0 <? set_sz (s_pset s0) then clset_kill PSET ;;; clset_init PSET else mret tt)%m s0 = Ok (tt, sk)).
  { destruct (Z.ltb_spec 0 (set_sz (s_pset s0))); [|exists s0; reflexivity].
    destruct (kill_spec PSET s0 ND LIVE) as (h0 & KE & _). unfold mbind at 1. rewrite KE. eexists. reflexivity. }
  destruct KILL as (sk & KE). destruct (param_breaks y y0 s sk SV n EC OV) as (pc & WP & RP).
  revert E. unfold xcsf_save. rewrite EH. cbn [obind]. cbn [cat one obind]. rewrite WP. cbn [obind].
  destruct (pset_save h s) as [tl| | |]; cbn [obind]; try discriminate. intros E. injection E as <-. cbn [app].
  unfold xcsf_load. unfold mbind at 1, mget at 1. unfold mbind at 1. rewrite KE. unfold mbind at 1.
  change (mread (a <- get_int ;; b <- get_int ;; d <- get_int ;; pret (a, b))%file
      (int_ VERSION_MAJOR :: int_ VERSION_MINOR :: int_ VERSION_BUILD :: (pc ++ tl ++ []) ++ rest) sk)
      with (@Ok (Z * Z * list cell * st body) ((VERSION_MAJOR, VERSION_MINOR, (pc ++ tl ++ []) ++ rest), with_rng (s_rng sk) sk)).
  cbn [fst snd]. rewrite !Z.eqb_refl. cbn [negb orb]. replace (with_rng (s_rng sk) sk) with sk by (destruct sk; reflexivity).
  unfold mbind at 1, mget. unfold mbind at 1, mread at 1, mrand at 1. rewrite <- app_assoc, RP. reflexivity.
Qed.
End Whole.

(** ** A small system: two inputs, one output, two actions, hyperrectangles and linear predictions.
    [nc]: number of GP constants. *)
Definition small_par (nc xd yd : Z) : sys :=
  mkSys (fun p => Some (match p with
                        | i_X_DIM => xd | i_Y_DIM => yd | i_N_ACTIONS => 2 | i_GP_N_CONSTANTS => nc
                        | i_COND_TYPE => COND_TYPE_HYPERRECTANGLE_CSR | i_ACT_TYPE => 0 | i_PRED_TYPE => PRED_TYPE_NLMS_LINEAR
                        | i_LOSS_FUNC => 2 | i_POP_SIZE => 200 | i_THETA_DEL => 20 | _ => 7
                        end))
        (fun p => Some (match p with d_ALPHA => lit 1 10 | d_BETA => lit 1 5 | _ => f1 end))
        (fun p => Some (match p with b_COMPACTION => false | _ => true end))
        ["o"; "u"; "t"; Ascii.zero; "x"]%char (Some 2) (Some 5).
Definition small_sys (nc xd yd : Z) : system := mkSystem (small_par nc xd yd) (repeat fhalf (Z.to_nat nc)) [] [] [].
(** One of two rules. *)
Definition small_rule (num act : Z) (c : f64) : cl body :=
  mkCl (lit 1 10) (lit 3 10) num 12 (of_Z 3) 40 true [fhalf] act 4 2
    (mkBody (AInt (mkAct act [fhalf])) (PNlms (mkNlms 3 [f1; c; f0] [lit 1 4] (lit 1 10) [f1; f1; f1])) (VRect (mkRect [c; f1] [f1; fhalf] [f1]))).
Definition small_state (rs : list (cl body)) (ls : list loc) : st body :=
  mkSt (fun l => nth l (map Some rs) None) (length rs) (mkSet ls (len ls) (nums rs)) empty_set empty_set empty_set empty_set empty_set
    17 (lit 1 8) (of_Z 2) f1 fhalf f0 f0 [f0; f0] [f0; f0] [f0; f0] true (demo_rng 3).
Definition rule_a := small_rule 3 1 (lit 1 4).
Definition rule_b := small_rule 2 0 (lit 3 4).
Definition small_log2 (x : f64) : f64 := x.
Definition K0 := demo_cfg 2 1 200 true false false false.

Definition small_shape := mkShape 2 1 2 COND_TYPE_HYPERRECTANGLE_CSR 0 (mkPpar PRED_TYPE_NLMS_LINEAR true f1 f1 f1 f1 f1).
Lemma small_savable nc : 0 <= nc -> savable (small_sys nc 2 1).
Proof.
  intros N. constructor; try (eexists; split; [reflexivity|]; lia); try (eexists; reflexivity).
  - exists 3%nat. split; [reflexivity|]. cbn. lia.
  - exists nc. split; [reflexivity|]. unfold small_sys. cbn [y_constants]. unfold len. rewrite repeat_length. lia.
Qed.
Lemma small_shape_of nc : shape_of (small_par nc 2 1) = Ok small_shape.
Proof. reflexivity. Qed.
Lemma small_fits num act c : rule_fits K0 small_log2 small_shape (small_rule num act c).
Proof.
  assert (R : ~ (sh_cond small_shape = RULE_TYPE_DGP \/ sh_cond small_shape = RULE_TYPE_NEURAL)) by (intros [X|X]; discriminate X).
  split; [reflexivity|]. split; [split; [exact R|split; reflexivity]|]. split.
  - split; [left; reflexivity|]. repeat split.
  - split; [left; reflexivity|]. repeat split.
Qed.
Lemma small_population : population (small_state [rule_a; rule_b] [1; 0]%nat) [rule_b; rule_a].
Proof. split; [reflexivity|]. split; reflexivity. Qed.
Lemma small_disposable : disposable (small_state [rule_b] [0]%nat).
Proof.
  split; [repeat constructor; intros []|]. split; [intros l [<-|[]]; discriminate|]. split; [reflexivity|].
  intros l L. cbn in L. unfold small_state. cbn [s_heap]. apply nth_overflow. exact L.
Qed.
(** A system with one GP constant cannot load a file with three. *)
Lemma C34_refuted_lemma : exists K log2 y y0 s s0 h rs cells,
  savable y /\ savable y0 /\ shape_of (y_par y) = Ok h /\ population s rs /\ Forall (rule_fits K log2 h) rs /\ disposable s0 /\
  xcsf_save y s = Ok cells /\ xcsf_load K log2 y0 cells s0 = UB OutOfBounds.
Proof.
  destruct (C34_overflow_lemma K0 small_log2 (small_sys 3 2 1) (small_sys 1 2 1) (small_state [rule_a; rule_b] [1; 0]%nat) (small_state [rule_b] [0]%nat)
    small_shape [rule_b; rule_a] 3) as (cells & E & L).
  - apply small_savable. lia.
  - reflexivity.
  - vm_compute. reflexivity.
  - apply small_shape_of.
  - exact small_population.
  - apply Forall_cons; [apply small_fits|]. apply Forall_cons; [apply small_fits|apply Forall_nil].
  - exact small_disposable.
  - exists K0, small_log2, (small_sys 3 2 1), (small_sys 1 2 1), (small_state [rule_a; rule_b] [1; 0]%nat), (small_state [rule_b] [0]%nat), small_shape, [rule_b; rule_a], cells.
    specialize (L []). rewrite app_nil_r in L.
    split; [apply small_savable; lia|]. split; [apply small_savable; lia|]. split; [apply small_shape_of|]. split; [exact small_population|].
    split; [apply Forall_cons; [apply small_fits|]; apply Forall_cons; [apply small_fits|apply Forall_nil]|]. split; [exact small_disposable|]. split; assumption.
Qed.
