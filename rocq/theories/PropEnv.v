(** * Loading mazes; trials of the multiplexer. *)
From Coq Require Import ZArith Bool List Reals Lia Lra.
From Flocq Require Import Core BinarySingleNaN.
From Verif Require Import Outcome F64 F64Facts F64Bounds Rng RngFacts RandInt Pop PopSpec PopInv PopSel Arr ArrFacts CompFacts
  PopTrial PopFit PopRL PopOps PopSeq Env EnvFacts PropMulti Cond Blas Pred Loss Comp SamFacts TernFacts RectFacts EllipFacts PredFacts Demo DemoEx.
Import ListNotations.
Open Scope Z_scope.

(** A line of a file, without its newline. *)
Definition line (l : list Z) : Prop := len l <= 50 /\ ~ In ch_nl l.
(** The lines, each followed by a newline. *)
Definition text (rows : list (list Z)) : list Z := concat (map (fun l => l ++ [ch_nl]) rows).

Definition square (g : grid) : Prop := len g = 50 /\ Forall (fun r : list (option Z) => len r = 50) g.
Definition raw (g : grid) (x y : Z) : option Z := at_ None (at_ [] g y) x.
Lemma blank_square : square blank_grid.
Proof. split; [reflexivity|]. unfold blank_grid. apply Forall_forall. intros r Hr. apply repeat_spec in Hr. subst r. reflexivity. Qed.
Lemma cell_raw g x y : square g -> 0 <= x < 50 -> 0 <= y < 50 -> cell g x y = match raw g x y with Some c => Ok c | None => UB Uninit end.
Proof.
  intros (L & F) Hx Hy. unfold cell, rdi, raw. rewrite (rd_ok []) by lia. cbn [obind]. rewrite (rd_ok None).
  - reflexivity.
  - pose proof (proj1 (Forall_at _ [] g) F y ltac:(lia)) as H. cbv beta in H. lia.
Qed.
Lemma put_ok g x y c : square g -> 0 <= x < 50 -> 0 <= y < 50 -> exists g', put g x y c = Ok g' /\ square g' /\ raw g' x y = Some c /\
  forall x' y', 0 <= x' -> 0 <= y' -> (x', y') <> (x, y) -> raw g' x' y' = raw g x' y'.
Proof.
  intros (L & F) Hx Hy. unfold put. rewrite (rd_ok []) by lia. cbn [obind].
  pose proof (proj1 (Forall_at _ [] g) F y ltac:(lia)) as LR. cbv beta in LR.
  destruct (wr_ok (at_ [] g y) x (Some c)) as (r' & -> & R1 & R2 & R3 & _); [lia|]. cbn [obind].
  destruct (wr_ok g y r') as (g' & -> & G1 & G2 & G3 & G4); [lia|]. exists g'. split; [reflexivity|].
  split; [split; [congruence|apply G4; [exact F|lia]]|]. unfold raw. split; [rewrite G2; apply R2|].
  intros x' y' Hx' Hy' D. destruct (Z.eq_dec y' y) as [-> |NY].
  - rewrite G2. apply R3; [assumption|congruence].
  - rewrite G3 by assumption. reflexivity.
Qed.
Lemma put_out g x y c : square g -> ~ (0 <= x < 50 /\ 0 <= y < 50) -> put g x y c = UB OutOfBounds.
Proof.
  intros (L & F) H. unfold put. destruct (Z_lt_ge_dec y 0) as [?|?]; [rewrite rd_out by lia; reflexivity|].
  destruct (Z_lt_ge_dec y 50) as [?|?]; [|rewrite rd_out by lia; reflexivity].
  rewrite (rd_ok []) by lia. cbn [obind]. pose proof (proj1 (Forall_at _ [] g) F y ltac:(lia)) as LR. cbv beta in LR.
  rewrite wr_out by lia. reflexivity.
Qed.

Lemma read_row row : forall rest g w x y, square g -> ~ In ch_nl row -> 0 <= x -> x + len row <= 50 -> 0 <= y -> (row = [] \/ y < 50) ->
  exists g', maze_read (row ++ rest) g w x y = maze_read rest g' w (x + len row) y /\ square g' /\
    (forall i, 0 <= i < len row -> raw g' (x + i) y = Some (at_ 0 row i)) /\
    (forall x' y', 0 <= x' -> 0 <= y' -> (y' <> y \/ x' < x) -> raw g' x' y' = raw g x' y').
Proof.
  induction row as [|c row IH]; intros rest g w x y S N X0 X1 Y0 Y1.
  - exists g. replace (x + len []) with x by (unfold len; cbn; lia). split; [reflexivity|]. split; [exact S|]. split; [unfold len; cbn; lia|auto].
  - assert (LC : len (c :: row) = 1 + len row) by (unfold len; cbn [length]; lia). pose proof (len_nonneg row) as LN.
    destruct Y1 as [E|Y1]; [discriminate E|]. cbn [app maze_read].
    destruct (Z.eqb_spec c ch_nl) as [-> |D]; [exfalso; apply N; left; reflexivity|].
    destruct (put_ok g x y c S ltac:(lia) ltac:(lia)) as (g1 & -> & S1 & P1 & P2). cbn [obind]. rewrite !Z.gtb_ltb. unfold max_size.
    destruct (Z.ltb_spec 50 (x + 1)); [lia|]. destruct (Z.ltb_spec 50 y); [lia|]. cbn [orb].
    destruct (IH rest g1 w (x + 1) y S1 ltac:(intros H'; apply N; right; exact H') ltac:(lia) ltac:(lia) Y0 ltac:(auto)) as (g' & E & S' & R1 & R2).
    exists g'. split; [rewrite E; f_equal; lia|]. split; [exact S'|]. split.
    + intros i Hi. destruct (Z.eq_dec i 0) as [-> |NI].
      * rewrite Z.add_0_r, R2 by lia. exact P1.
      * replace (x + i) with (x + 1 + (i - 1)) by lia. rewrite R1 by lia. f_equal. unfold at_.
        replace (Z.to_nat i) with (Datatypes.S (Z.to_nat (i - 1))) by lia. reflexivity.
    + intros x' y' Hx' Hy' H'. rewrite R2 by lia. apply P2; [lia|lia|]. intros Q. injection Q as -> ->. lia.
Qed.
Lemma last_cons {A} (a d : A) l : last (a :: l) d = last l a.
Proof. revert a d. induction l as [|b l IH]; intros a d; [reflexivity|]. change (last (a :: b :: l) d) with (last (b :: l) d). rewrite !IH. reflexivity. Qed.

Lemma read_rows rows : forall rest g w y, square g -> Forall line rows -> 0 <= y -> y + len rows <= 50 ->
  exists g', maze_read (text rows ++ rest) g w 0 y =
      maze_read rest g' (match rows with [] => w | r :: rs => Some (len (last rs r)) end) 0 (y + len rows) /\ square g' /\
    (forall j i r c, nth_error rows j = Some r -> nth_error r i = Some c -> raw g' (Z.of_nat i) (y + Z.of_nat j) = Some c) /\
    (forall x' y', 0 <= x' -> 0 <= y' < y -> raw g' x' y' = raw g x' y').
Proof.
  induction rows as [|r rows IH]; intros rest g w y S F Y0 Y1.
  - exists g. replace (y + len []) with y by (unfold len; cbn; lia). split; [reflexivity|]. split; [exact S|]. split; [intros [|j]; discriminate|auto].
  - apply Forall_cons_iff in F. destruct F as ((L & N) & F).
    assert (LC : len (r :: rows) = 1 + len rows) by (unfold len; cbn [length]; lia). pose proof (len_nonneg rows) as LN.
    unfold text. cbn [map concat]. fold (text rows). rewrite <- !app_assoc.
    destruct (read_row r ([ch_nl] ++ text rows ++ rest) g w 0 y S N ltac:(lia) ltac:(lia) Y0 ltac:(right; lia)) as (g1 & E1 & S1 & R1 & R2).
    rewrite E1. cbn [app maze_read]. rewrite Z.eqb_refl. rewrite !Z.gtb_ltb. unfold max_size. destruct (Z.ltb_spec 50 0); [lia|].
    destruct (Z.ltb_spec 50 (y + 1)); [lia|]. cbn [orb]. rewrite Z.add_0_l.
    destruct (IH rest g1 (Some (len r)) (y + 1) S1 F ltac:(lia) ltac:(lia)) as (g' & E & S' & Q1 & Q2). exists g'.
    split; [rewrite E; f_equal; [destruct rows as [|r' rs]; [reflexivity|rewrite last_cons; reflexivity]|lia]|]. split; [exact S'|]. split.
    + intros [|j] i r0 c Hj Hi; cbn [nth_error] in Hj.
      * injection Hj as <-. rewrite Q2 by lia. replace (y + Z.of_nat 0) with y by lia. replace (Z.of_nat i) with (0 + Z.of_nat i) by lia. rewrite R1.
        -- f_equal. unfold at_. rewrite Nat2Z.id. apply nth_error_nth, Hi.
        -- unfold len. assert (i < length r)%nat by (apply nth_error_Some; congruence). lia.
      * replace (y + Z.of_nat (Datatypes.S j)) with (y + 1 + Z.of_nat j) by lia. apply (Q1 j i r0 c Hj Hi).
    + intros x' y' Hx' Hy'. rewrite Q2 by lia. apply R2; lia.
Qed.

Lemma load_ok r rows tail jx jy jd : Forall line (r :: rows) -> len (r :: rows) <= 50 -> line tail -> (tail = [] \/ len (r :: rows) < 50) ->
  exists g, maze_init (text (r :: rows) ++ tail) jx jy jd = Ok (mkMaze g jx jy (len (last rows r)) (len (r :: rows)) jd) /\
    forall j i l c, nth_error (r :: rows) j = Some l -> nth_error l i = Some c -> cell g (Z.of_nat i) (Z.of_nat j) = Ok c.
Proof.
  intros F L (T1 & T2) T3. pose proof (len_nonneg (r :: rows)) as LN. pose proof (len_nonneg tail) as LT.
  destruct (read_rows (r :: rows) tail blank_grid None 0 blank_square F ltac:(lia) ltac:(lia)) as (g1 & E1 & S1 & R1 & R2).
  destruct (read_row tail [] g1 (Some (len (last rows r))) 0 (0 + len (r :: rows)) S1 T2 ltac:(lia) ltac:(lia) ltac:(lia)
     ltac:(destruct T3 as [T3|T3]; [left; exact T3|right; lia])) as (g2 & E2 & S2 & Q1 & Q2).
  exists g2. unfold maze_init. rewrite E1. rewrite app_nil_r in E2. rewrite E2. cbn [maze_read obind]. rewrite Z.add_0_l. split; [reflexivity|].
  intros j i l c Hj Hi. assert (j < length (r :: rows))%nat by (apply nth_error_Some; congruence).
  assert (i < length l)%nat by (apply nth_error_Some; congruence).
  assert (line l) as (LL & _) by (rewrite Forall_forall in F; apply F; eapply nth_error_In, Hj). unfold len in *.
  rewrite cell_raw; [|exact S2|lia|lia]. rewrite Q2 by lia. pose proof (R1 j i l c Hj Hi) as H'. rewrite Z.add_0_l in H'. rewrite H'. reflexivity.
Qed.
Lemma C52_load_lemma rows tail jx jy jd : rows <> [] -> Forall line rows -> len rows <= 50 -> line tail -> (tail = [] \/ len rows < 50) ->
  exists e, maze_init (text rows ++ tail) jx jy jd = Ok e /\ mz_h e = len rows /\ mz_w e = len (last rows []) /\
    forall j i l c, nth_error rows j = Some l -> nth_error l i = Some c -> cell (mz_grid e) (Z.of_nat i) (Z.of_nat j) = Ok c.
Proof.
  intros NE. destruct rows as [|r rows]; [congruence|]. intros F L T1 T2.
  destruct (load_ok r rows tail jx jy jd F L T1 T2) as (g & E & C). eexists. split; [exact E|]. cbn [mz_h mz_w mz_grid]. rewrite last_cons. auto.
Qed.

(** Only such files load. *)
Lemma read_inv file : forall g w x y q, square g -> 0 <= x <= 50 -> 0 <= y <= 50 -> maze_read file g w x y = Ok q ->
  exists rows tail, file = text rows ++ tail /\ Forall (fun l => ~ In ch_nl l) rows /\ ~ In ch_nl tail /\
    match rows with
    | [] => x + len tail <= 50 /\ (tail = [] \/ y < 50) /\ snd (fst q) = w
    | r :: rs => x + len r <= 50 /\ Forall (fun l => len l <= 50) rs /\ len tail <= 50 /\ y + len rows <= 50 /\ (tail = [] \/ y + len rows < 50)
    end.
Proof.
  induction file as [|c file IH]; intros g w x y q S X Y E.
  - injection E as <-. exists [], []. cbn. repeat split; auto. unfold len. cbn. lia.
  - cbn [maze_read] in E. destruct (Z.eqb_spec c ch_nl) as [-> |D].
    + rewrite !Z.gtb_ltb in E. unfold max_size in E. destruct (Z.ltb_spec 50 0); [lia|]. destruct (Z.ltb_spec 50 (y + 1)); [discriminate E|]. cbn [orb] in E.
      destruct (IH g (Some x) 0 (y + 1) q S ltac:(lia) ltac:(lia) E) as (rows & tail & EF & N1 & N2 & B).
      exists ([] :: rows), tail. split; [unfold text; cbn [map concat app]; fold (text rows); rewrite EF; reflexivity|].
      split; [constructor; [intros []|exact N1]|]. split; [exact N2|].
      assert (LC : len ([] :: rows) = 1 + len rows) by (unfold len; cbn [length]; lia). rewrite LC.
      split; [unfold len; cbn; lia|]. destruct rows as [|r rs].
      * destruct B as (B1 & B2 & _). assert (len (A := list Z) [] = 0) as -> by reflexivity. split; [constructor|]. split; [lia|]. split; [lia|]. destruct B2 as [B2|B2]; [auto|right; lia].
      * destruct B as (B1 & B2 & B3 & B4 & B5). split; [constructor; [lia|exact B2]|]. split; [exact B3|]. split; [lia|]. destruct B5 as [B5|B5]; [auto|right; lia].
    + destruct (Z_lt_dec x 50) as [X1|X1]; [destruct (Z_lt_dec y 50) as [Y1|Y1]|].
      2, 3: rewrite put_out in E by (assumption || lia); discriminate E.
      destruct (put_ok g x y c S ltac:(lia) ltac:(lia)) as (g1 & P & S1 & _). rewrite P in E. cbn [obind] in E. rewrite !Z.gtb_ltb in E. unfold max_size in E.
      destruct (Z.ltb_spec 50 (x + 1)); [discriminate E|]. destruct (Z.ltb_spec 50 y); [discriminate E|]. cbn [orb] in E.
      destruct (IH g1 w (x + 1) y q S1 ltac:(lia) ltac:(lia) E) as (rows & tail & EF & N1 & N2 & B).
      destruct rows as [|r rs].
      * exists [], (c :: tail). cbn in EF. subst file. split; [reflexivity|]. split; [constructor|].
        split; [intros [H'|H']; [congruence|contradiction]|]. destruct B as (B1 & B2 & B3). unfold len in *. cbn [length]. split; [lia|]. auto.
      * exists ((c :: r) :: rs), tail. subst file. split; [reflexivity|]. apply Forall_cons_iff in N1. destruct N1 as (N1 & N1').
        split; [constructor; [intros [H'|H']; [congruence|contradiction]|exact N1']|]. split; [exact N2|].
        destruct B as (B1 & B2 & B3 & B4 & B5). unfold len in *. cbn [length] in *. split; [lia|]. auto.
Qed.
Lemma C52_load_only_lemma file jx jy jd e : maze_init file jx jy jd = Ok e ->
  exists rows tail, file = text rows ++ tail /\ rows <> [] /\ Forall line rows /\ len rows <= 50 /\ line tail /\ (tail = [] \/ len rows < 50).
Proof.
  unfold maze_init. intros E. destruct (maze_read file blank_grid None 0 0) as [[[g [w|]] h]| | |] eqn:ER; try discriminate E.
  destruct (read_inv file blank_grid None 0 0 _ blank_square ltac:(lia) ltac:(lia) ER) as (rows & tail & EF & N1 & N2 & B).
  exists rows, tail. destruct rows as [|r rs]; [destruct B as (_ & _ & B); discriminate B|].
  destruct B as (B1 & B2 & B3 & B4 & B5). apply Forall_cons_iff in N1. destruct N1 as (N0 & N1). rewrite Z.add_0_l in *.
  split; [exact EF|]. split; [discriminate|]. split.
  - constructor; [split; assumption|]. rewrite Forall_forall in *. intros l Hl. split; [apply B2|apply N1]; exact Hl.
  - split; [exact B4|]. split; [split; assumption|exact B5].
Qed.
(** A rectangle of legal characters is a well-formed maze. *)
Lemma C52_rectangle_lemma rows w jx jy jd : 1 <= len rows <= 50 -> 1 <= w <= 50 ->
  Forall (fun l => len l = w /\ Forall (fun c => In c alphabet) l) rows ->
  exists e, maze_init (text rows) jx jy jd = Ok e /\ mz_w e = w /\ mz_h e = len rows /\ wf_maze e /\
    forall x y, 0 <= x < w -> 0 <= y < len rows -> cell (mz_grid e) x y = Ok (at_ 0 (at_ [] rows y) x).
Proof.
  intros L W F. assert (NE : rows <> []) by (intros ->; unfold len in L; cbn in L; lia).
  assert (FL : Forall line rows).
  { eapply Forall_impl; [|exact F]. intros l (L1 & A). split; [lia|]. intros H. rewrite Forall_forall in A. specialize (A _ H). cbn in A. unfold ch_nl, ch_star, ch_O, ch_G, ch_F, ch_Q in A. lia. }
  destruct (C52_load_lemma rows [] jx jy jd NE FL ltac:(lia)) as (e & E & H1 & H2 & H3).
  - split; [unfold len; cbn; lia|intros []].
  - auto.
  - rewrite app_nil_r in E. exists e. split; [exact E|].
    assert (EW : mz_w e = w).
    { rewrite H2. rewrite Forall_forall in F. assert (HI : In (last rows []) rows) by (destruct (exists_last NE) as (l & a & ->); rewrite last_last; apply in_or_app; right; left; reflexivity).
      apply (F _ HI). }
    assert (C : forall x y, 0 <= x < w -> 0 <= y < len rows -> cell (mz_grid e) x y = Ok (at_ 0 (at_ [] rows y) x) /\ In (at_ 0 (at_ [] rows y) x) alphabet).
    { intros x y Hx Hy. pose proof (proj1 (Forall_at _ [] rows) F y Hy) as (LR & AR). split; [|apply (proj1 (Forall_at _ 0 _) AR); lia].
      unfold at_, len in *. replace x with (Z.of_nat (Z.to_nat x)) at 1 by lia. replace y with (Z.of_nat (Z.to_nat y)) at 1 by lia.
      apply (H3 (Z.to_nat y) (Z.to_nat x) (nth (Z.to_nat y) rows [])); apply nth_error_nth'; lia. }
    split; [exact EW|]. split; [exact H1|]. split; [|intros x y Hx Hy; apply C; assumption].
    constructor; [lia|lia|]. intros x y Hx Hy. rewrite EW in Hx. rewrite H1 in Hy. eexists. apply (C x y Hx Hy).
Qed.
(** Files that are written outside of the grid. *)
Lemma C52_load_refuted_lemma :
  maze_init (repeat ch_star 51) 0 0 false = UB OutOfBounds /\
  maze_init (repeat ch_nl 50 ++ [ch_star]) 0 0 false = UB OutOfBounds.
Proof. split; vm_compute; reflexivity. Qed.

(** ** Trials of the multiplexer. *)
Section MuxTrial.
Context (FO : Prop) {B : Type} (V : vtab B) (K : cfg) (kf : Z) (wf : B -> Prop) (mt : B -> list f64 -> Prop) {dom : list f64 -> Prop}.
Hypothesis CO : cfg_ok K kf.
Hypothesis VO : vt_ok (dom := dom) FO V K wf mt.
Hypothesis HT : ea_tournament K = true -> FO.
Hypothesis Y1 : y_dim K = 1.
Hypothesis VL : vla0_is_ub K = false.
Context (lm : libm) (p : Z).
Hypothesis HP : pow2_exact lm.
Hypothesis Hp : 0 <= p <= 30.
Hypothesis HX : x_dim K = p + 2 ^ p.
Hypothesis HD : forall x, len x = x_dim K -> Forall (fin_in 0 1) x -> dom x.

Lemma mux_step_rel e s e' r done err s' : mux_idle p e -> step_rel V K wf mt (mux_env lm (x_dim K)) e s e' r done err s' ->
  done = true /\ exists x a g s1, len x = x_dim K /\ Forall (fin_in 0 1) x /\ 0 <= a < n_actions K /\
    decides V K wf mt x a (with_rng g (with_set ASET empty_set (with_set MSET empty_set s))) s1 /\
    r = (if a =? mux_answer p x then f1 else f0).
Proof.
  intros (E1 & E2) (e0 & x & g0 & a & s1 & s2 & g & (h & h' & G) & DE & Ha & (k & k' & X) & -> & _). split; [reflexivity|].
  cbn [env_get_state mux_env] in G.
  destruct (mux_state_spec (x_dim K) e ltac:(pose proof (pow2_in p Hp); lia) ltac:(lia) h I) as (q & h2 & G' & _ & (x' & -> & LX & FX)).
  rewrite G in G'. injection G' as -> -> <-.
  exists x', a, g0, s1. split; [exact LX|]. split; [eapply Forall_impl; [|exact FX]; intros v (F1 & F2); split; [exact F1|lra]|].
  split; [exact Ha|]. split; [exact DE|]. cbn [env_execute mux_env] in X. unfold bind, lift in X. rewrite E1 in X.
  destruct (mux_execute_spec lm HP p x' a Hp ltac:(lia)) as (_ & EX). rewrite EX in X. injection X as _ <- _. reflexivity.
Qed.
Lemma C51_trial_lemma N e explore s : FO -> mux_idle p e -> 0 <= N -> 1 <= TELETRANSPORTATION K -> N + 2 * TELETRANSPORTATION K <= 2 ^ 53 -> Good K kf N wf s ->
  hpost FO (rl_trial V K (mux_env lm (x_dim K)) e explore s) (fun q s' => let '(e', perf, err) := q in
    exists x a g g' s1, len x = x_dim K /\ Forall (fin_in 0 1) x /\ 0 <= a < n_actions K /\
      decides V K wf mt x a (with_rng g (with_set ASET empty_set (with_set MSET empty_set (begun K (with_explore explore (with_rng g' s)))))) s1 /\
      perf = (if a =? mux_answer p x then f1 else f0) /\ mux_idle p e' /\ Good K kf (N + 2 * TELETRANSPORTATION K) wf s').
Proof.
  intros HF He N0 T1 N1 G.
  assert (EO := mux_env_ok lm HP FO K dom p Hp HX HD).
  eapply hp_mono; [apply (rl_trial_spec FO V K kf wf mt CO VO HT Y1 VL (mux_env lm (x_dim K)) (mux_idle p) EO N e explore s); (assumption || lia)|].
  intros ((e', perf), err) s' ((e1 & g & s2 & r & errs & (h & h' & R0) & RU & ED & EE & EP) & He' & G').
  cbn [env_reset mux_env ret] in R0. injection R0 as <- <-. cbn [env_multistep mux_env] in EP.
  destruct (Z.to_nat (TELETRANSPORTATION K)) as [|n] eqn:ET; [lia|]. inversion RU as [|n' a1 a2 a3 a4 a5 a6 a7 ST|n' a1 a2 a3 a4 a5 a6 a7 a8 a9 a10 a11 ST R']; subst.
  - destruct (mux_step_rel _ _ _ _ _ _ _ He ST) as (_ & x & a & g0 & s1 & LX & FX & Ha & DE & ->).
    exists x, a, g0, g, s1. split; [exact LX|]. split; [exact FX|]. split; [exact Ha|]. split; [exact DE|].
    split; [|auto]. destruct (a =? mux_answer p x); [|reflexivity]. 
    assert (fgt f1 f0 = true) as -> by reflexivity. reflexivity.
  - destruct (mux_step_rel _ _ _ _ _ _ _ He ST) as (X & _). discriminate X.
Qed.
End MuxTrial.

(** ** Concrete systems. *)
Definition Kenv (x n : Z) : cfg := mkCfg n x 1 8 20 10000 1 50
  (lit 1 10) (lit 1 5) (lit 1 10) (lit 1 2) f0 (lit 1 100) (of_Z 5) (lit 95 100) (lit 9 10)
  false true true false (lit 2 5) (of_Z 2) 2 true false f1 (lit 1 10)
  (loss_fun demo_lm 1 f1 LOSS_MSE) demo_lm 100 false.
Lemma Kenv_ok x n : 1 <= x <= int_max -> 1 <= n <= int_max -> cfg_ok (Kenv x n) 0.
Proof.
  intros Hx Hn. unfold int_max in *. constructor; cbn; try lia; try reflexivity; try (apply fle_01_in; reflexivity).
  - assert (fin_in 0 1 (lit 1 100)) as (F & H) by (apply fle_01_in; reflexivity). split; [reflexivity|split; [reflexivity|apply H]].
  - assert (fin_in 0 1 (lit 1 10)) as (F & H) by (apply fle_01_in; reflexivity). split; [reflexivity|split; [reflexivity|apply H]].
  - exact demo_pow_ok.
Qed.
Lemma Venv_ok FO x n : 1 <= x <= int_max -> 1 <= n <= int_max -> vt_ok (dom := any_x) FO (rect_tab (Kenv x n)) (Kenv x n) (rect_wf (Kenv x n)) (rect_mt (Kenv x n)).
Proof. intros Hx Hn. apply rect_tab_ok; cbn; unfold int_max in *; lia. Qed.
(** An exact power of two. *)
Definition pow_lm : libm := mkLibm (fun _ => f1) (fun _ => fneg f1) (fun _ => fhalf) (fun _ => fhalf)
  (fun _ => f0) (fun _ y => match to_int y with Some k => of_Z (2 ^ k) | None => f1 end) (fun _ => f1) (fun _ => f1).
Lemma pow_lm_ok : pow2_exact pow_lm.
Proof. intros k Hk. cbn [m_pow pow_lm]. rewrite to_int_of_Z by (apply in_int_iff; lia). reflexivity. Qed.
(** A new system, and what a run from it shows. *)
Lemma look_new x n seed {A R} (m : M body A) (f : A -> st body -> R) v : 1 <= x <= int_max -> 1 <= n <= int_max ->
  match xcsf_init (rect_tab (Kenv x n)) (Kenv x n) (blank_state seed) with
  | Ok (_, s) => run m s f
  | _ => None
  end = Some v -> exists s, Good (Kenv x n) 0 0 (rect_wf (Kenv x n)) s /\ run m s f = Some v.
Proof.
  intros Hx Hn E.
  pose proof (init_spec (dom := any_x) False (rect_tab (Kenv x n)) (Kenv x n) 0 (rect_wf (Kenv x n)) (rect_mt (Kenv x n)) (Kenv_ok x n Hx Hn)
    (Venv_ok False x n Hx Hn) (blank_state seed) (fun l => eq_refl)) as H.
  destruct (xcsf_init (rect_tab (Kenv x n)) (Kenv x n) (blank_state seed)) as [[[] s]| | |]; try discriminate E.
  exists s. cbn [hpost] in H. split; [apply H|exact E].
Qed.
(** The smallest interesting multiplexer, and a small maze. *)
Definition mux3 : mux := mkMux [None; None; None] 1.
Definition small : list (list Z) := [[ch_O; ch_star; ch_Q]; [ch_star; ch_star; ch_F]].
Definition small_maze : maze := mkMaze
  (match maze_init (text small) 0 0 false with Ok e => mz_grid e | _ => [] end) 1 0 3 2 false.
Lemma small_wf : wf_maze small_maze.
Proof.
  destruct (C52_rectangle_lemma small 3 1 0 false) as (e & E & W & H & WF & _).
  - unfold len. cbn. lia.
  - lia.
  - repeat (apply Forall_cons; [split; [reflexivity|]; repeat (apply Forall_cons; [cbn; tauto|]); apply Forall_nil|]). apply Forall_nil.
  - assert (EE : maze_init (text small) 1 0 false = Ok small_maze) by (vm_compute; reflexivity). rewrite EE in E. injection E as ->. exact WF.
Qed.
