(** * Lemmas for C76: parameters written as JSON and read again. *)
From Coq Require Import ZArith Bool List String Ascii Reals Relations Lra Lia.
From Flocq Require Import Core BinarySingleNaN.
From Verif Require Import Outcome F64 F64Facts EnvFacts Rng Arr Names Param Json Clock Dgp Layer Net Recur ParJson PropNames PropParam.
Import ListNotations.
Open Scope Z_scope.

(** ** What is written *)
Definition ival (x : sys) (q : ipar) : Z := match ints x q with Some v => v | None => 0 end.
Definition among (v : Z) (l : list Z) : bool := existsb (Z.eqb v) l.
(** The parameters that the document contains, as a function of the number of actions and of the
    selected functions and types. *)
Definition written_i (x : sys) (q : ipar) : bool :=
  match q with
  | i_TELETRANSPORTATION => 1 <? ival x i_N_ACTIONS
  | i_ACT_TYPE => (1 <? ival x i_N_ACTIONS) && negb (among (ival x i_COND_TYPE) [11; 12; 13])
  | i_COND_BITS => among (ival x i_COND_TYPE) [7]
  | i_DGP_MAX_K | i_DGP_MAX_T | i_DGP_N => among (ival x i_COND_TYPE) [6; 11]
  | i_GP_N_CONSTANTS | i_GP_INIT_DEPTH | i_GP_MAX_LEN => among (ival x i_COND_TYPE) [5]
  | i_DGP_N_INPUTS | i_GP_N_INPUTS => false
  | _ => true
  end.
Definition written_d (x : sys) (q : dpar) : bool :=
  match q with
  | d_HUBER_DELTA => ival x i_LOSS_FUNC =? 6
  | d_GAMMA | d_P_EXPLORE => 1 <? ival x i_N_ACTIONS
  | d_EA_SELECT_SIZE => ival x i_EA_SELECT_TYPE =? 1
  | d_COND_ETA | d_COND_MIN | d_COND_MAX | d_COND_SPREAD_MIN => among (ival x i_COND_TYPE) [1; 2; 3]
  | d_COND_P_DONTCARE => among (ival x i_COND_TYPE) [7]
  | d_GP_MIN | d_GP_MAX => among (ival x i_COND_TYPE) [5]
  | d_PRED_X0 => among (ival x i_PRED_TYPE) [1; 2; 3; 4]
  | d_PRED_ETA => among (ival x i_PRED_TYPE) [1; 2]
  | d_PRED_ETA_MIN =>
    among (ival x i_PRED_TYPE) [1; 2] && match bools x b_PRED_EVOLVE_ETA with Some b => b | None => false end
  | d_PRED_LAMBDA | d_PRED_SCALE_FACTOR => among (ival x i_PRED_TYPE) [3; 4]
  | _ => true
  end.
Definition written_b (x : sys) (q : bpar) : bool :=
  match q with
  | b_EXPLORE => false
  | b_PRED_EVOLVE_ETA => among (ival x i_PRED_TYPE) [1; 2]
  | b_DGP_EVOLVE_CYCLES => among (ival x i_COND_TYPE) [6; 11]
  | _ => true
  end.

(** Parameters in their ranges, with types that have names, doubles that are finite where they are
    written, and the name of a file [s]. *)
Record savable (x : sys) (s : string) : Prop := {
  sv_range : in_range x;
  sv_seed : int_min <= ival x i_RANDOM_STATE;
  sv_fin : forall d v, written_d x d = true -> dbls x d = Some v -> is_finite v = true;
  sv_cond : In (ival x i_COND_TYPE) (map fst cond_names);
  sv_pred : In (ival x i_PRED_TYPE) (map fst pred_names);
  sv_act : written_i x i_ACT_TYPE = true -> In (ival x i_ACT_TYPE) (map fst act_names);
  sv_file : exists rest, file x = arr s rest;
  sv_plain : plain s;
  sv_len : (String.length s <= 512)%nat
}.

(** ** Reading: [z] is [y] with some parameters replaced by those of [x]. *)
Record what := mkW { wi : ipar -> bool; wd : dpar -> bool; wb : bpar -> bool; wf : bool }.
Definition copies (x : sys) (s : string) (w : what) (y z : sys) : Prop :=
  (forall q, ints z q = if wi w q then ints x q else ints y q) /\
  (forall q, dbls z q = if wd w q then dbls x q else dbls y q) /\
  (forall q, bools z q = if wb w q then bools x q else bools y q) /\
  loss_code z = (if wi w i_LOSS_FUNC then ints x i_LOSS_FUNC else loss_code y) /\
  seed z = (if wi w i_RANDOM_STATE then (if ival x i_RANDOM_STATE <? 0 then None else ints x i_RANDOM_STATE) else seed y) /\
  file z = (if wf w then chars s ++ [nul] else file y).
Definition none : what := mkW (fun _ => false) (fun _ => false) (fun _ => false) false.
Definition both (a b : what) : what :=
  mkW (fun q => wi a q || wi b q) (fun q => wd a q || wd b q) (fun q => wb a q || wb b q) (wf a || wf b).
Definition only (c : bool) (a : what) : what :=
  mkW (fun q => c && wi a q) (fun q => c && wd a q) (fun q => c && wb a q) (c && wf a).
Definition wI (p : ipar) : what := mkW (fun q => if ipar_eq q p then true else false) (fun _ => false) (fun _ => false) false.
Definition wD (p : dpar) : what := mkW (fun _ => false) (fun q => if dpar_eq q p then true else false) (fun _ => false) false.
Definition wB (p : bpar) : what := mkW (fun _ => false) (fun _ => false) (fun q => if bpar_eq q p then true else false) false.
Definition wF : what := mkW (fun _ => false) (fun _ => false) (fun _ => false) true.

Definition entries (l : list member) : list (option string * json) := map (fun p => (Some (fst p), snd p)) l.

Lemma entries_app a b : entries (a ++ b) = entries a ++ entries b.
Proof. apply map_app. Qed.
Lemma over_app {X} (f : X -> string -> json -> outcome X) a : forall b y z,
  over f y a = Ok z -> over f y (a ++ b) = over f z b.
Proof.
  induction a as [|e a IH]; intros b y z H; cbn [over app] in *; [apply Ok_inj in H; subst; reflexivity|].
  destruct (key e) as [s'| | |]; try discriminate H. cbn [obind] in *.
  destruct (f y s' (snd e)) as [y'| | |]; try discriminate H. cbn [obind] in *. exact (IH b y' z H).
Qed.
Lemma import_list_app a : forall b p q h h', import_list p a h = Ok (q, h') -> import_list p (a ++ b) h = import_list q b h'.
Proof.
  induction a as [|e a IH]; intros b p q h h' H; cbn [import_list app] in *.
  - apply Ok_inj in H. injection H as <- <-. reflexivity.
  - unfold bind in *. destruct (import_one p e h) as [(p', h1)| | |]; try discriminate H. exact (IH b p' q h1 h' H).
Qed.

Lemma copies_none x s y : copies x s none y y.
Proof. repeat split. Qed.
Lemma copies_trans x s v w a b c : copies x s v a b -> copies x s w b c -> copies x s (both v w) a c.
Proof.
  intros (A1 & A2 & A3 & A4 & A5 & A6) (B1 & B2 & B3 & B4 & B5 & B6). unfold copies, both. cbn [wi wd wb wf].
  split; [|split; [|split; [|split; [|split]]]]; [intros q; rewrite B1, A1|intros q; rewrite B2, A2|intros q; rewrite B3, A3|rewrite B4, A4|rewrite B5, A5|rewrite B6, A6].
  - destruct (wi v q), (wi w q); reflexivity.
  - destruct (wd v q), (wd w q); reflexivity.
  - destruct (wb v q), (wb w q); reflexivity.
  - destruct (wi v i_LOSS_FUNC), (wi w i_LOSS_FUNC); reflexivity.
  - destruct (wi v i_RANDOM_STATE), (wi w i_RANDOM_STATE); reflexivity.
  - destruct (wf v), (wf w); reflexivity.
Qed.
Lemma copies_ext x s v w a b : copies x s v a b ->
  (forall q, wi v q = wi w q) -> (forall q, wd v q = wd w q) -> (forall q, wb v q = wb w q) -> wf v = wf w -> copies x s w a b.
Proof.
  intros (A1 & A2 & A3 & A4 & A5 & A6) H1 H2 H3 H4. unfold copies. rewrite <- !H1, <- H4.
  split; [|split; [|split; [|split; [|split]]]]; try assumption; intros q; rewrite <- ?H1, <- ?H2, <- ?H3; auto.
Qed.

Lemma num_int v : int_min <= v <= int_max -> num (of_Z v) = JNum (of_Z v) v.
Proof.
  intros H. unfold num. destruct (of_Z_fin v) as (F & R); [unfold int_min, int_max in H; lia|]. rewrite F. f_equal.
  unfold saturated. destruct (of_Z_fin int_max) as (F1 & R1); [unfold int_max; lia|]. destruct (of_Z_fin int_min) as (F2 & R2); [unfold int_min; lia|].
  destruct (fle (of_Z int_max) (of_Z v)) eqn:E1.
  - apply fle_X in E1; [|apply nn_of_Z|apply nn_of_Z]. rewrite !X_finite, R, R1 in E1 by assumption. apply le_IZR in E1. lia.
  - destruct (fle (of_Z v) (of_Z int_min)) eqn:E2.
    + apply fle_X in E2; [|apply nn_of_Z|apply nn_of_Z]. rewrite !X_finite, R, R2 in E2 by assumption. apply le_IZR in E2. lia.
    + rewrite to_int_of_Z; [reflexivity|]. unfold in_int. apply andb_true_iff. split; apply Z.leb_le; lia.
Qed.
Lemma num_fin v : is_finite v = true -> num v = JNum v (saturated v).
Proof. intros H. unfold num. rewrite H. reflexivity. Qed.
Lemma fin_nn (v : f64) : is_finite v = true -> is_nan v = false.
Proof. destruct v; try reflexivity; discriminate. Qed.

Lemma cstring_arr s rest : plain s -> cstring (arr s rest) = Ok s.
Proof.
  unfold arr. induction s as [|c s IH]; intros H; cbn -[nul Ascii.eqb]; [rewrite Ascii.eqb_refl; reflexivity|].
  destruct (Ascii.eqb_spec c nul) as [->|E]; [exfalso; apply H; left; reflexivity|].
  cbn [chars list_ascii_of_string] in *. unfold chars in IH. rewrite IH; [reflexivity|]. intro I; apply H; right; exact I.
Qed.

(** Setting. *)
Lemma copy_i x s y p v : ints x p = Some v -> p <> i_LOSS_FUNC -> p <> i_RANDOM_STATE -> copies x s (wI p) y (put_i y p v).
Proof.
  intros H N1 N2. unfold copies, wI, put_i. cbn [ints dbls bools loss_code seed file wi wd wb wf].
  split; [intros q; destruct (ipar_eq q p) as [->|]; [auto|reflexivity]|].
  destruct (ipar_eq i_LOSS_FUNC p) as [<-|]; [contradiction|]. destruct (ipar_eq i_RANDOM_STATE p) as [<-|]; [contradiction|]. repeat split.
Qed.
Lemma copy_d x s y p v : dbls x p = Some v -> copies x s (wD p) y (put_d y p v).
Proof.
  intros H. unfold copies, wD, put_d. cbn [ints dbls bools loss_code seed file wi wd wb wf].
  split; [reflexivity|]. split; [intros q; destruct (dpar_eq q p) as [->|]; [auto|reflexivity]|]. repeat split.
Qed.
Lemma copy_b x s y p v : bools x p = Some v -> copies x s (wB p) y (put_b y p v).
Proof.
  intros H. unfold copies, wB, put_b. cbn [ints dbls bools loss_code seed file wi wd wb wf].
  split; [reflexivity|]. split; [reflexivity|]. split; [intros q; destruct (bpar_eq q p) as [->|]; [auto|reflexivity]|]. repeat split.
Qed.

(** ** Parts of a document *)
Section Parts.
Variables (x : sys) (s : string).
Hypothesis G : savable x s.

Lemma ix q : ints x q = Some (ival x q) /\ range_i q (ival x q).
Proof. destruct (sv_range _ _ G) as (H & _). destruct (H q) as (v & E & R). unfold ival. rewrite E. auto. Qed.
Lemma gi q : geti x q = Ok (ival x q).
Proof. unfold geti. rewrite (proj1 (ix q)). reflexivity. Qed.
Lemma dx q : exists v, dbls x q = Some v /\ range_d q v /\ (written_d x q = true -> is_finite v = true).
Proof. destruct (sv_range _ _ G) as (_ & H & _). destruct (H q) as (v & E & R). exists v. split; [exact E|split; [exact R|]]. intros W. exact (sv_fin _ _ G q v W E). Qed.
Lemma bx q : q <> b_EXPLORE -> exists v, bools x q = Some v.
Proof. destruct (sv_range _ _ G) as (_ & _ & H & _). apply H. Qed.

(** [o] yields members that the loop over [f] reads into any parameters. *)
Definition reads (f : sys -> string -> json -> outcome sys) (o : outcome (list member)) (w : what) : Prop :=
  exists l, o = Ok l /\ forall y, exists z, over f y (entries l) = Ok z /\ copies x s w y z.
(** The same for the members of the document. *)
Definition loads (o : outcome (list member)) (w : what) : Prop :=
  exists l, o = Ok l /\ forall p h, exists z, import_list p (entries l) h = Ok (with_sys p z, h) /\ copies x s w (p_sys p) z.

Lemma reads_cat f os : forall ws, Forall2 (reads f) os ws -> reads f (cat os) (fold_right both none ws).
Proof.
  induction os as [|o os IH]; intros ws H; inversion H; subst.
  - exists []. split; [reflexivity|]. intros y'. exists y'. split; [reflexivity|apply copies_none].
  - destruct (IH _ H4) as (l2 & E2 & R2). destruct H2 as (l1 & E1 & R1). exists (l1 ++ l2). cbn [cat obind]. rewrite E1, E2. split; [reflexivity|].
    intros y'. destruct (R1 y') as (z & Z1 & C1). destruct (R2 z) as (z' & Z2 & C2). exists z'. rewrite entries_app, (over_app _ _ _ _ _ Z1). split; [exact Z2|].
    exact (copies_trans _ _ _ _ _ _ _ C1 C2).
Qed.
Lemma reads_when f b o w : (b = true -> reads f o w) -> reads f (when b o) (only b w).
Proof.
  intros H. destruct b; [destruct (H eq_refl) as (l & E & R)|].
  - exists l. split; [exact E|]. intros y. destruct (R y) as (z & Z & C). exists z. split; [exact Z|]. apply (copies_ext _ _ w); auto.
  - exists []. split; [reflexivity|]. intros y. exists y. split; [reflexivity|]. apply (copies_ext _ _ none); auto using copies_none.
Qed.
Lemma reads_i f name q : q <> i_LOSS_FUNC -> q <> i_RANDOM_STATE ->
  (forall y v, ints x q = Some v -> range_i q v -> int_min <= v -> f y name (JNum (of_Z v) v) = Ok (put_i y q v)) -> reads f (fi name x q) (wI q).
Proof.
  intros N1 N2 H. destruct (ix q) as (E & R). exists [(name, num (of_Z (ival x q)))]. unfold fi. rewrite gi. split; [reflexivity|].
  assert (B : int_min <= ival x q) by (unfold int_min; destruct R as (_ & R); destruct q; try contradiction; lia).
  intros y. exists (put_i y q (ival x q)). split; [|apply copy_i; assumption].
  cbn [entries map over key fst snd obind]. rewrite num_int by (split; [exact B|exact (proj1 R)]). rewrite (H y _ E R B). reflexivity.
Qed.
Lemma reads_d f name q : written_d x q = true ->
  (forall y v, dbls x q = Some v -> range_d q v -> is_finite v = true -> f y name (JNum v (saturated v)) = Ok (put_d y q v)) -> reads f (fd name x q) (wD q).
Proof.
  intros W H. destruct (dx q) as (v & E & R & F). exists [(name, num v)]. unfold fd, getd. rewrite E. split; [reflexivity|].
  intros y. exists (put_d y q v). split; [|apply copy_d; assumption].
  cbn [entries map over key fst snd obind]. rewrite num_fin by auto. rewrite (H y v E R (F W)). reflexivity.
Qed.
Lemma reads_b f name q : q <> b_EXPLORE ->
  (forall y v, f y name (JBool v) = Ok (put_b y q v)) -> reads f (fb name x q) (wB q).
Proof.
  intros W H. destruct (bx q W) as (v & E). exists [(name, JBool v)]. unfold fb, getb. rewrite E. split; [reflexivity|].
  intros y. exists (put_b y q v). split; [|apply copy_b; assumption].
  cbn [entries map over key fst snd obind]. rewrite H. reflexivity.
Qed.

Lemma loads_cat os : forall ws, Forall2 loads os ws -> loads (cat os) (fold_right both none ws).
Proof.
  induction os as [|o os IH]; intros ws H; inversion H; subst.
  - exists []. split; [reflexivity|]. intros p h. exists (p_sys p). split; [destruct p; reflexivity|apply copies_none].
  - destruct (IH _ H4) as (l2 & E2 & R2). destruct H2 as (l1 & E1 & R1). exists (l1 ++ l2). cbn [cat obind]. rewrite E1, E2. split; [reflexivity|].
    intros p h. destruct (R1 p h) as (z & Z1 & C1). destruct (R2 (with_sys p z) h) as (z' & Z2 & C2). exists z'. rewrite entries_app, (import_list_app _ _ _ _ _ _ Z1).
    split; [exact Z2|]. exact (copies_trans _ _ _ _ _ _ _ C1 C2).
Qed.
Lemma loads_when b o w : (b = true -> loads o w) -> loads (when b o) (only b w).
Proof.
  intros H. destruct b; [destruct (H eq_refl) as (l & E & R)|].
  - exists l. split; [exact E|]. intros p h. destruct (R p h) as (z & Z & C). exists z. split; [exact Z|]. apply (copies_ext _ _ w); auto.
  - exists []. split; [reflexivity|]. intros p h. exists (p_sys p). split; [destruct p; reflexivity|]. apply (copies_ext _ _ none); auto using copies_none.
Qed.
Lemma loads_i name q : q <> i_LOSS_FUNC -> q <> i_RANDOM_STATE ->
  (forall p h v, ints x q = Some v -> range_i q v -> int_min <= v ->
     import_one p (Some name, JNum (of_Z v) v) h = Ok (with_sys p (put_i (p_sys p) q v), h)) -> loads (fi name x q) (wI q).
Proof.
  intros N1 N2 H. destruct (ix q) as (E & R). exists [(name, num (of_Z (ival x q)))]. unfold fi. rewrite gi. split; [reflexivity|].
  assert (B : int_min <= ival x q) by (unfold int_min; destruct R as (_ & R); destruct q; try contradiction; lia).
  intros p h. exists (put_i (p_sys p) q (ival x q)). split; [|apply copy_i; assumption].
  cbn [entries map import_list fst snd]. unfold bind. rewrite num_int by (split; [exact B|exact (proj1 R)]). rewrite (H p h _ E R B). reflexivity.
Qed.
Lemma loads_d name q : written_d x q = true ->
  (forall p h v, dbls x q = Some v -> range_d q v -> is_finite v = true ->
     import_one p (Some name, JNum v (saturated v)) h = Ok (with_sys p (put_d (p_sys p) q v), h)) -> loads (fd name x q) (wD q).
Proof.
  intros W H. destruct (dx q) as (v & E & R & F). exists [(name, num v)]. unfold fd, getd. rewrite E. split; [reflexivity|].
  intros p h. exists (put_d (p_sys p) q v). split; [|apply copy_d; assumption].
  cbn [entries map import_list fst snd]. unfold bind. rewrite num_fin by auto. rewrite (H p h v E R (F W)). reflexivity.
Qed.
Lemma loads_b name q : q <> b_EXPLORE ->
  (forall p h v, import_one p (Some name, JBool v) h = Ok (with_sys p (put_b (p_sys p) q v), h)) -> loads (fb name x q) (wB q).
Proof.
  intros W H. destruct (bx q W) as (v & E). exists [(name, JBool v)]. unfold fb, getb. rewrite E. split; [reflexivity|].
  intros p h. exists (put_b (p_sys p) q v). split; [|apply copy_b; assumption].
  cbn [entries map import_list fst snd]. unfold bind. rewrite H. reflexivity.
Qed.
End Parts.

Ltac keys :=
  repeat match goal with |- context [same ?a ?b ?n] => let v := eval vm_compute in (same a b n) in change (same a b n) with v end;
  cbn [andb is_num is_bool is_str valueint valuedouble is_true need_found obind catch_error found].
Ltac zif := repeat match goal with |- context [?a <? ?b] => rewrite (proj2 (Z.ltb_ge a b)) by lia end; cbn [orb].
Ltac dif F R :=
  first [rewrite (proj2 (cmp01 _ (fin_nn _ F)) R)
        |rewrite (proj2 (cmp0 _ (fin_nn _ F)) R)
        |(let A := fresh in let B := fresh in destruct (proj1 (orb_false_iff _ _) (proj2 (cmp01 _ (fin_nn _ F)) R)) as (A & B); rewrite A, B)
        |idtac].
Ltac ri S := apply reads_i; [assumption|discriminate|discriminate|
  let R := fresh "R" in intros ? ? ? (? & R) ?; cbv beta iota in R; unfold S; keys;
  unfold ea_param_set_lambda, cond_param_set_bits, graph_param_set_max_k, graph_param_set_max_t, graph_param_set_n,
    tree_param_set_n_constants, tree_param_set_init_depth, tree_param_set_max_len; zif; reflexivity].
Ltac rd_ S W := apply reads_d; [assumption|W|
  let R := fresh "R" in let F := fresh "F" in intros ? ? ? R F; cbv beta iota delta [range_d] in R; unfold S; keys;
  unfold ea_param_set_select_size, ea_param_set_theta, ea_param_set_p_crossover, ea_param_set_err_reduc, ea_param_set_fit_reduc,
    cond_param_set_eta, cond_param_set_min, cond_param_set_max, cond_param_set_spread_min, cond_param_set_p_dontcare,
    tree_param_set_min, tree_param_set_max, pred_param_set_x0, pred_param_set_eta, pred_param_set_eta_min, pred_param_set_lambda, pred_param_set_scale_factor;
  dif F R; reflexivity].
Ltac rb S := apply reads_b; [assumption|discriminate|intros ? ?; unfold S; keys; reflexivity].
Ltac li := apply loads_i; [assumption|discriminate|discriminate|
  let R := fresh "R" in intros ? ? ? ? (? & R) ?; cbv beta iota in R; unfold import_one; cbn [fst snd key]; unfold bind, lift; unfold import_general; keys;
  try (unfold import_multi; keys); try (unfold import_subsump; keys); try (unfold import_cl_general; keys);
  unfold param_set_x_dim, param_set_y_dim, param_set_n_actions, param_set_omp_num_threads, param_set_pop_size, param_set_max_trials, param_set_perf_trials,
    param_set_teletransportation, param_set_theta_sub, param_set_theta_del, param_set_m_probation; zif; reflexivity].
Ltac ld W := apply loads_d; [assumption|W|
  let R := fresh "R" in let F := fresh "F" in intros ? ? ? ? R F; cbv beta iota delta [range_d] in R; unfold import_one; cbn [fst snd key]; unfold bind, lift; unfold import_general; keys;
  try (unfold import_multi; keys); try (unfold import_subsump; keys); try (unfold import_cl_general; keys);
  unfold param_set_huber_delta, param_set_gamma, param_set_p_explore, param_set_alpha, param_set_beta, param_set_delta, param_set_e0, param_set_init_error,
    param_set_init_fitness, param_set_nu; dif F R; reflexivity].
Ltac lb := apply loads_b; [assumption|discriminate|intros ? ? ?; unfold import_one; cbn [fst snd key]; unfold bind, lift; unfold import_general; keys;
  try (unfold import_multi; keys); try (unfold import_subsump; keys); try (unfold import_cl_general; keys); reflexivity].

Lemma named (as_string : Z -> outcome (list ascii)) as_int T acc rej c : names_ok T as_string as_int acc rej -> In c (map fst T) ->
  Forall (fun e => has_nul (snd e) = false /\ as_int (chars (snd e) ++ [nul]) = Ok (fst e)) T ->
  exists nm, as_int (chars nm ++ [nul]) = Ok c /\ (forall n, fs n (as_string c) = Ok [(n, JStr nm)]).
Proof.
  intros (_ & _ & H1 & _) I P. specialize (H1 c). destruct (as_string c) as [m| | |] eqn:E; try contradiction.
  destruct H1 as (nm & rest & In1 & ->). rewrite Forall_forall in P. destruct (P _ In1) as (P1 & P2). cbn [fst snd] in P1, P2.
  exists nm. split; [exact P2|]. intros n; unfold fs; cbn [obind]; rewrite cstring_arr by (apply plain_dec, P1); reflexivity.
Qed.
Section Parts2.
Variables (x : sys) (s : string).
Hypothesis G : savable x s.

Lemma csr_reads : among (ival x i_COND_TYPE) [1; 2; 3] = true ->
  reads x s csr_import (csr_json x) (fold_right both none [wD d_COND_ETA; wD d_COND_MIN; wD d_COND_MAX; wD d_COND_SPREAD_MIN]).
Proof. intros W. apply reads_cat. repeat constructor; rd_ csr_import ltac:(exact W). Qed.
Lemma ternary_reads : among (ival x i_COND_TYPE) [7] = true ->
  reads x s ternary_import (ternary_json x) (fold_right both none [wD d_COND_P_DONTCARE; wI i_COND_BITS]).
Proof. intros W. apply reads_cat. constructor; [rd_ ternary_import ltac:(exact W)|]. constructor; [ri ternary_import|]. constructor. Qed.
Lemma gp_reads : among (ival x i_COND_TYPE) [5] = true ->
  reads x s gp_import (gp_json x) (fold_right both none [wD d_GP_MIN; wD d_GP_MAX; wI i_GP_N_CONSTANTS; wI i_GP_INIT_DEPTH; wI i_GP_MAX_LEN]).
Proof.
  intros W. apply reads_cat. repeat (constructor; [first [rd_ gp_import ltac:(exact W)|ri gp_import]|]). constructor.
Qed.
Lemma dgp_reads :
  reads x s dgp_import (dgp_json x) (fold_right both none [wI i_DGP_MAX_K; wI i_DGP_MAX_T; wI i_DGP_N; wB b_DGP_EVOLVE_CYCLES]).
Proof. apply reads_cat. repeat (constructor; [first [rb dgp_import|ri dgp_import]|]). constructor. Qed.
Lemma rls_reads : among (ival x i_PRED_TYPE) [3; 4] = true ->
  reads x s rls_args_import (rls_json x) (fold_right both none [wD d_PRED_X0; wD d_PRED_LAMBDA; wD d_PRED_SCALE_FACTOR]).
Proof.
  intros W. assert (W' : among (ival x i_PRED_TYPE) [1; 2; 3; 4] = true).
  { unfold among in *. cbn [existsb] in *. rewrite W, !orb_true_r. reflexivity. }
  apply reads_cat. repeat (constructor; [rd_ rls_args_import ltac:(first [exact W|exact W'])|]). constructor.
Qed.
Definition evolves : bool := match bools x b_PRED_EVOLVE_ETA with Some b => b | None => false end.
Lemma nlms_reads : among (ival x i_PRED_TYPE) [1; 2] = true ->
  reads x s nlms_args_import (nlms_json x) (fold_right both none [wD d_PRED_X0; wD d_PRED_ETA; wB b_PRED_EVOLVE_ETA; only evolves (wD d_PRED_ETA_MIN)]).
Proof.
  intros W. assert (W' : among (ival x i_PRED_TYPE) [1; 2; 3; 4] = true).
  { unfold among in *. cbn [existsb] in *. apply orb_true_iff in W as [W|W]; [rewrite W; reflexivity|]. rewrite orb_false_r in W. rewrite W, !orb_true_r. reflexivity. }
  destruct (bx x s G b_PRED_EVOLVE_ETA) as (e & E); [discriminate|]. unfold nlms_json, getb, evolves. rewrite E. cbn [obind].
  apply reads_cat. constructor; [rd_ nlms_args_import ltac:(first [exact W|exact W'])|]. constructor; [rd_ nlms_args_import ltac:(first [exact W|exact W'])|].
  constructor; [rb nlms_args_import|]. constructor; [|constructor]. apply reads_when. intros ->.
  rd_ nlms_args_import ltac:(unfold written_d; rewrite W, E; reflexivity).
Qed.

(** Names. *)
Ltac table := repeat constructor; vm_compute; reflexivity.
Lemma cond_named : exists nm, condition_type_as_int (chars nm ++ [nul]) = Ok (ival x i_COND_TYPE) /\
  (forall n, fs n (condition_type_as_string (ival x i_COND_TYPE)) = Ok [(n, JStr nm)]).
Proof. apply (named _ _ _ _ _ _ cond_names_ok (sv_cond _ _ G)). table. Qed.
Lemma pred_named : exists nm, prediction_type_as_int (chars nm ++ [nul]) = Ok (ival x i_PRED_TYPE) /\
  (forall n, fs n (prediction_type_as_string (ival x i_PRED_TYPE)) = Ok [(n, JStr nm)]).
Proof. apply (named _ _ _ _ _ _ pred_names_ok (sv_pred _ _ G)). table. Qed.
Lemma act_named : written_i x i_ACT_TYPE = true -> exists nm, action_type_as_int (chars nm ++ [nul]) = Ok (ival x i_ACT_TYPE) /\
  (forall n, fs n (action_type_as_string (ival x i_ACT_TYPE)) = Ok [(n, JStr nm)]).
Proof. intros W. apply (named _ _ _ _ _ _ act_names_ok (sv_act _ _ G W)). table. Qed.
Lemma loss_named : exists nm, loss_type_as_int (chars nm ++ [nul]) = Ok (ival x i_LOSS_FUNC) /\
  (forall n, fs n (loss_type_as_string (ival x i_LOSS_FUNC)) = Ok [(n, JStr nm)]).
Proof.
  apply (named _ _ _ _ _ _ loss_names_ok); [|table]. destruct (ix x s G i_LOSS_FUNC) as (_ & _ & R). cbv beta iota in R. cbn. lia.
Qed.
Lemma ea_named : exists nm, ea_type_as_int (chars nm ++ [nul]) = Ok (ival x i_EA_SELECT_TYPE) /\
  (forall n, fs n (ea_type_as_string (ival x i_EA_SELECT_TYPE)) = Ok [(n, JStr nm)]).
Proof.
  apply (named _ _ _ _ _ _ ea_names_ok); [|table]. destruct (ix x s G i_EA_SELECT_TYPE) as (_ & _ & R). cbv beta iota in R. cbn. lia.
Qed.

Lemma ea_reads : reads x s ea_import (ea_json x)
  (fold_right both none [wI i_EA_SELECT_TYPE; only (ival x i_EA_SELECT_TYPE =? 1) (wD d_EA_SELECT_SIZE); wD d_EA_THETA; wI i_EA_LAMBDA;
     wD d_EA_P_CROSSOVER; wD d_EA_ERR_REDUC; wD d_EA_FIT_REDUC; wB b_EA_SUBSUMPTION; wB b_EA_PRED_RESET]).
Proof.
  unfold ea_json. rewrite (gi x s G). cbn [obind]. apply reads_cat.
  constructor.
  { destruct ea_named as (nm & N1 & N2). exists [("select_type"%string, JStr nm)]. split; [apply N2|].
    destruct (ix x s G i_EA_SELECT_TYPE) as (E & _ & R). cbv beta iota in R.
    intros y. exists (put_i y i_EA_SELECT_TYPE (ival x i_EA_SELECT_TYPE)). split; [|apply copy_i; [exact E|discriminate|discriminate]].
    cbn [entries map over key fst snd obind]. unfold ea_import. keys. unfold ea_param_set_type_string, valuestring. rewrite N1. cbn [obind fst snd].
    rewrite (proj2 (Z.eqb_neq (ival x i_EA_SELECT_TYPE) (-1))) by lia. reflexivity. }
  constructor; [apply reads_when; intros W; rd_ ea_import ltac:(exact W)|].
  repeat (constructor; [first [rb ea_import|ri ea_import|rd_ ea_import ltac:(reflexivity)]|]). constructor.
Qed.

Lemma string_len (a : string) : List.length (chars a) = String.length a.
Proof. unfold chars. induction a; cbn; [reflexivity|rewrite IHa; reflexivity]. Qed.
Lemma strnlen_s : forall (a : string) n, plain a -> (String.length a <= n)%nat -> strnlen (chars a ++ [nul]) n = Ok (String.length a).
Proof.
  induction a as [|c a IH]; intros n P L; destruct n; cbn -[nul Ascii.eqb] in *; try reflexivity; try lia.
  destruct (Ascii.eqb_spec c nul) as [->|E]; [exfalso; apply P; left; reflexivity|].
  change (list_ascii_of_string a) with (chars a). rewrite IH; [reflexivity| |lia]. intro I; apply P; right; exact I.
Qed.
Lemma strncpy_s : forall (a : string), plain a -> strncpy (chars a ++ [nul]) (S (String.length a)) = Ok (chars a ++ [nul]).
Proof.
  induction a as [|c a IH]; intros P; [reflexivity|]. cbn -[nul Ascii.eqb].
  destruct (Ascii.eqb_spec c nul) as [->|E]; [exfalso; apply P; left; reflexivity|].
  change (list_ascii_of_string a) with (chars a). cbn -[nul Ascii.eqb] in IH. rewrite IH; [reflexivity|]. intro I; apply P; right; exact I.
Qed.

Definition general_what : what :=
  fold_right both none [none; wI i_X_DIM; wI i_Y_DIM; wI i_N_ACTIONS; wI i_OMP_NUM_THREADS; wI i_RANDOM_STATE; wF; wB b_POP_INIT;
    wI i_MAX_TRIALS; wI i_PERF_TRIALS; wI i_POP_SIZE; wI i_LOSS_FUNC; only (ival x i_LOSS_FUNC =? 6) (wD d_HUBER_DELTA);
    only (1 <? ival x i_N_ACTIONS) (fold_right both none [wD d_GAMMA; wI i_TELETRANSPORTATION; wD d_P_EXPLORE]);
    wB b_SET_SUBSUMPTION; wI i_THETA_SUB; wD d_E0; wD d_ALPHA; wD d_NU; wD d_BETA; wD d_DELTA; wI i_THETA_DEL; wD d_INIT_FITNESS;
    wD d_INIT_ERROR; wI i_M_PROBATION; wB b_STATEFUL; wB b_COMPACTION].
Lemma general_loads : loads x s (general_json x) general_what.
Proof.
  unfold general_json. rewrite !(gi x s G). cbn [obind]. apply loads_cat.
  constructor. { exists [("version"%string, JStr "1.4.7")]. split; [reflexivity|]. intros p h. exists (p_sys p). split; [destruct p; reflexivity|apply copies_none]. }
  do 4 (constructor; [li|]).
  constructor.
  { destruct (ix x s G i_RANDOM_STATE) as (E & R & _). exists [("random_state"%string, num (of_Z (ival x i_RANDOM_STATE)))].
    unfold fi. rewrite (gi x s G). split; [reflexivity|]. intros p h. exists (snd (param_set_random_state (p_sys p) (ival x i_RANDOM_STATE))).
    rewrite num_int by (split; [exact (sv_seed _ _ G)|exact R]).
    split; [reflexivity|]. unfold copies, wI, param_set_random_state, put_i, done. cbn [ints dbls bools loss_code seed file wi wd wb wf snd].
    split; [intros q; destruct (ipar_eq q i_RANDOM_STATE) as [->|]; [auto|reflexivity]|]. rewrite E. repeat split. }
  constructor.
  { destruct (sv_file _ _ G) as (rest & E). exists [("population_file"%string, JStr s)]. rewrite E. unfold fs. cbn [obind]. rewrite cstring_arr by exact (sv_plain _ _ G).
    split; [reflexivity|]. intros p h. set (y := p_sys p). exists (mkSys (ints y) (dbls y) (bools y) (chars s ++ [nul]) (loss_code y) (seed y)).
    split; [|repeat split]. cbn [entries map import_list fst snd]. unfold bind, import_one. cbn [fst snd key]. unfold bind, lift, import_general. keys.
    unfold param_set_population_file, valuestring. fold y. rewrite strnlen_s; [|exact (sv_plain _ _ G)|exact (sv_len _ _ G)]. cbn [obind].
    rewrite strncpy_s by exact (sv_plain _ _ G). reflexivity. }
  constructor; [lb|]. do 3 (constructor; [li|]).
  constructor.
  { destruct loss_named as (nm & N1 & N2). destruct (ix x s G i_LOSS_FUNC) as (E & _ & R). cbv beta iota in R. exists [("loss_func"%string, JStr nm)]. split; [apply N2|].
    intros p h. set (y := put_i (p_sys p) i_LOSS_FUNC (ival x i_LOSS_FUNC)). exists (mkSys (ints y) (dbls y) (bools y) (file y) (Some (ival x i_LOSS_FUNC)) (seed y)). split.
    - cbn [entries map import_list fst snd]. unfold bind, import_one. cbn [fst snd key]. unfold bind, lift, import_general. keys.
      unfold param_set_loss_func_string, valuestring. rewrite N1. cbn [obind]. rewrite (proj2 (Z.eqb_neq (ival x i_LOSS_FUNC) (-1))) by lia.
      unfold loss_set_func. cbn [put_i ints]. rewrite isame. rewrite (proj2 (Z.leb_le 0 (ival x i_LOSS_FUNC))), (proj2 (Z.ltb_lt (ival x i_LOSS_FUNC) 7)) by lia.
      cbn [andb obind fst snd]. rewrite (proj2 (Z.eqb_neq (ival x i_LOSS_FUNC) (-1))) by lia. reflexivity.
    - unfold copies, wI, y, put_i. cbn [ints dbls bools loss_code seed file wi wd wb wf].
      split; [intros q; destruct (ipar_eq q i_LOSS_FUNC) as [->|]; [auto|reflexivity]|]. rewrite E. repeat split. }
  constructor; [apply loads_when; intros W; ld ltac:(exact W)|].
  constructor. { apply loads_when. intros W. apply loads_cat. constructor; [ld ltac:(exact W)|]. constructor; [li|]. constructor; [ld ltac:(exact W)|]. constructor. }
  repeat (constructor; [first [lb|li|ld ltac:(reflexivity)]|]). constructor.
Qed.
End Parts2.

(** ** Layers *)
Definition scaled (t : Z) : bool := among t [NOISE; DROPOUT].
(** The members written for a layer: whether numbers of neurons and options are among them. *)
Definition full (t : Z) : bool := negb (among t [NOISE; DROPOUT; SOFTMAX; MAXPOOL]).
Definition images (t : Z) : bool := among t [AVGPOOL; MAXPOOL; UPSAMPLE; CONVOLUTIONAL].
Definition quiet (t : Z) : bool := among t [AVGPOOL; MAXPOOL; UPSAMPLE; DROPOUT; NOISE; SOFTMAX].
Definition pick {A} (b : bool) (v d : A) : A := if b then v else d.
(** The parameters of a layer as they are after reading them again: what is not written has its
    initial value. *)
Definition reread (n : Z) (a : larg2) : larg2 :=
  let l := fst a in
  let t := la_type l in
  let size v := pick (images t) (Z.max 0 v) 0 in
  (mkLargs t n (pick (full t) (Z.max 0 (la_n_init l)) 0)
     (pick (full t && la_evolve_neurons l) (la_n_max l) 0) (pick (full t && la_evolve_neurons l) (la_grow l) 0)
     (pick (quiet t) 0 (la_function l))
     (size (la_height l)) (size (la_width l)) (size (la_channels l)) (size (la_size l)) (size (la_stride l)) (size (la_pad l))
     (pick (full t && la_sgd_weights l) (la_eta l) f0)
     (pick (full t && la_sgd_weights l && la_evolve_eta l) (la_eta_min l) f0)
     (pick (full t && la_sgd_weights l) (la_momentum l) f0) (pick (full t && la_sgd_weights l) (la_decay l) f0)
     (pick (among t [NOISE; DROPOUT]) (la_probability l) f0) (pick (among t [NOISE; SOFTMAX]) (la_scale l) f0)
     (full t && la_evolve_weights l) (full t && la_evolve_neurons l) (full t && la_evolve_functions l)
     (full t && la_sgd_weights l && la_evolve_eta l) (full t && la_evolve_connect l) (full t && la_sgd_weights l),
   pick (t =? LSTM) (snd a) 0).

Definition an_int (z : Z) : Prop := int_min <= z <= int_max.
(** Types and functions with names, ints, and finite doubles where they are written. *)
Record layer_savable (a : larg2) : Prop := {
  ls_type : In (la_type (fst a)) (map fst layer_names);
  ls_fun : quiet (la_type (fst a)) = false -> In (la_function (fst a)) (map fst activ_names);
  ls_rec : la_type (fst a) = LSTM -> In (snd a) (map fst activ_names);
  ls_ints : Forall an_int [la_n_inputs (fst a); la_n_init (fst a); la_n_max (fst a); la_grow (fst a); la_height (fst a); la_width (fst a);
                           la_channels (fst a); la_size (fst a); la_stride (fst a); la_pad (fst a)];
  ls_sgd : full (la_type (fst a)) && la_sgd_weights (fst a) = true ->
           is_finite (la_eta (fst a)) = true /\ is_finite (la_momentum (fst a)) = true /\ is_finite (la_decay (fst a)) = true /\
           (la_evolve_eta (fst a) = true -> is_finite (la_eta_min (fst a)) = true);
  ls_prob : among (la_type (fst a)) [NOISE; DROPOUT] = true -> is_finite (la_probability (fst a)) = true;
  ls_scale : among (la_type (fst a)) [NOISE; SOFTMAX] = true -> is_finite (la_scale (fst a)) = true
}.

Lemma li_i name (put : largs -> Z -> largs) (get : largs -> Z) b v :
  (forall c j, layer_import c name (JNum j v) = Ok (put (fst c) v, snd c)) -> (forall c, put c (get c) = c) -> an_int v ->
  over layer_import b (entries (zpos name v)) = Ok (put (fst b) (if 0 <? v then v else get (fst b)), snd b).
Proof.
  intros H1 H2 I. unfold zpos, zi. destruct (0 <? v) eqn:E; [|rewrite H2; destruct b; reflexivity].
  cbn [entries map over key fst snd obind]. rewrite num_int by exact I. rewrite H1. reflexivity.
Qed.
Lemma li_z name (put : largs -> Z -> largs) b v :
  (forall c j, layer_import c name (JNum j v) = Ok (put (fst c) v, snd c)) -> an_int v ->
  over layer_import b (entries (zi name v)) = Ok (put (fst b) v, snd b).
Proof.
  intros H1 I. unfold zi. cbn [entries map over key fst snd obind]. rewrite num_int by exact I. rewrite H1. reflexivity.
Qed.
Lemma li_d name (put : largs -> f64 -> largs) b v :
  (forall c j, layer_import c name (JNum v j) = Ok (put (fst c) v, snd c)) -> is_finite v = true ->
  over layer_import b (entries [(name, num v)]) = Ok (put (fst b) v, snd b).
Proof.
  intros H1 I. cbn [entries map over key fst snd obind]. rewrite num_fin by exact I. rewrite H1. reflexivity.
Qed.
Ltac lkeys := unfold layer_import; keys; reflexivity.
Lemma li_inputs b a : Forall an_int [la_n_inputs a; la_n_init a; la_n_max a; la_grow a; la_height a; la_width a; la_channels a; la_size a; la_stride a; la_pad a] ->
  over layer_import b (entries (inputs_json a)) =
  Ok (if images (la_type a)
      then la_ints (fst b) (la_n_init (fst b)) (la_n_max (fst b)) (la_grow (fst b))
             (if 0 <? la_height a then la_height a else la_height (fst b)) (if 0 <? la_width a then la_width a else la_width (fst b))
             (if 0 <? la_channels a then la_channels a else la_channels (fst b)) (if 0 <? la_size a then la_size a else la_size (fst b))
             (if 0 <? la_stride a then la_stride a else la_stride (fst b)) (if 0 <? la_pad a then la_pad a else la_pad (fst b))
      else fst b, snd b).
Proof.
  intros H. repeat match goal with H : Forall _ (_ :: _) |- _ => inversion H; clear H; subst end.
  unfold inputs_json. replace (receives_images (la_type a)) with (images (la_type a)) by (unfold images, among, receives_images; cbn [existsb]; rewrite orb_false_r, !orb_assoc; reflexivity).
  destruct (images (la_type a)).
  - rewrite !entries_app.
    erewrite over_app by (apply (li_i "height" put_height la_height); [intros; lkeys|intros []; reflexivity|assumption]).
    erewrite over_app by (apply (li_i "width" put_width la_width); [intros; lkeys|intros []; reflexivity|assumption]).
    erewrite over_app by (apply (li_i "channels" put_channels la_channels); [intros; lkeys|intros []; reflexivity|assumption]).
    erewrite over_app by (apply (li_i "size" put_size la_size); [intros; lkeys|intros []; reflexivity|assumption]).
    erewrite over_app by (apply (li_i "stride" put_stride la_stride); [intros; lkeys|intros []; reflexivity|assumption]).
    rewrite (li_i "pad" put_pad la_pad); [reflexivity|intros; lkeys|intros []; reflexivity|assumption].
  - rewrite (li_z "n_inputs" (fun c _ => c)); [reflexivity|intros; lkeys|assumption].
Qed.
Lemma li_scale b a : (among (la_type a) [NOISE; DROPOUT] = true -> is_finite (la_probability a) = true) ->
  (among (la_type a) [NOISE; SOFTMAX] = true -> is_finite (la_scale a) = true) ->
  over layer_import b (entries (scale_json a)) =
  Ok (la_dbls (fst b) (la_eta (fst b)) (la_eta_min (fst b)) (la_momentum (fst b)) (la_decay (fst b))
        (pick (among (la_type a) [NOISE; DROPOUT]) (la_probability a) (la_probability (fst b)))
        (pick (among (la_type a) [NOISE; SOFTMAX]) (la_scale a) (la_scale (fst b))), snd b).
Proof.
  unfold scale_json, among. cbn [existsb]. rewrite !orb_false_r. intros H1 H2. rewrite entries_app.
  destruct ((la_type a =? NOISE) || (la_type a =? DROPOUT)).
  - erewrite over_app by (apply (li_d "probability" put_probability); [intros; lkeys|auto]).
    destruct ((la_type a =? NOISE) || (la_type a =? SOFTMAX)); [|reflexivity]. rewrite (li_d "scale" put_scale); [reflexivity|intros; lkeys|auto].
  - cbn [entries map app]. change (map (fun p : string * json => (Some (fst p), snd p))) with entries.
    destruct ((la_type a =? NOISE) || (la_type a =? SOFTMAX)); [|destruct b as ([] & ?); reflexivity]. rewrite (li_d "scale" put_scale); [reflexivity|intros; lkeys|auto].
Qed.
Lemma li_evo b a : Forall an_int [la_n_inputs a; la_n_init a; la_n_max a; la_grow a; la_height a; la_width a; la_channels a; la_size a; la_stride a; la_pad a] ->
  over layer_import b (entries (evo_json a)) =
  Ok (la_ints (la_bools (fst b) (la_evolve_weights a) (la_evolve_neurons a) (la_evolve_functions a) (la_evolve_eta (fst b)) (la_evolve_connect a) (la_sgd_weights (fst b)))
        (la_n_init (fst b)) (pick (la_evolve_neurons a) (la_n_max a) (la_n_max (fst b))) (pick (la_evolve_neurons a) (la_grow a) (la_grow (fst b)))
        (la_height (fst b)) (la_width (fst b)) (la_channels (fst b)) (la_size (fst b)) (la_stride (fst b)) (la_pad (fst b)), snd b).
Proof.
  intros H. repeat match goal with H : Forall _ (_ :: _) |- _ => inversion H; clear H; subst end.
  unfold evo_json. rewrite entries_app.
  erewrite over_app. 2: { cbn [entries map over key fst snd obind]. unfold layer_import. keys. reflexivity. }
  destruct (la_evolve_neurons a); [|reflexivity]. rewrite entries_app.
  erewrite over_app by (apply (li_z "n_max" put_n_max); [intros; lkeys|assumption]).
  rewrite (li_z "max_neuron_grow" put_grow); [reflexivity|intros; lkeys|assumption].
Qed.
Lemma li_sgd b a : (la_sgd_weights a = true -> is_finite (la_eta a) = true /\ is_finite (la_momentum a) = true /\ is_finite (la_decay a) = true /\
           (la_evolve_eta a = true -> is_finite (la_eta_min a) = true)) ->
  over layer_import b (entries (sgd_json a)) =
  Ok (la_dbls (la_bools (fst b) (la_evolve_weights (fst b)) (la_evolve_neurons (fst b)) (la_evolve_functions (fst b))
                 (pick (la_sgd_weights a) (la_evolve_eta a) (la_evolve_eta (fst b))) (la_evolve_connect (fst b)) (la_sgd_weights a))
        (pick (la_sgd_weights a) (la_eta a) (la_eta (fst b)))
        (pick (la_sgd_weights a && la_evolve_eta a) (la_eta_min a) (la_eta_min (fst b)))
        (pick (la_sgd_weights a) (la_momentum a) (la_momentum (fst b))) (pick (la_sgd_weights a) (la_decay a) (la_decay (fst b)))
        (la_probability (fst b)) (la_scale (fst b)), snd b).
Proof.
  intros H. unfold sgd_json. rewrite entries_app.
  erewrite over_app. 2: { cbn [entries map over key fst snd obind]. unfold layer_import. keys. reflexivity. }
  destruct (la_sgd_weights a); [|reflexivity]. destruct (H eq_refl) as (F1 & F2 & F3 & F4). clear H.
  change ([("eta"%string, num (la_eta a)); ("evolve_eta"%string, JBool (la_evolve_eta a))]) with ([("eta"%string, num (la_eta a))] ++ [("evolve_eta"%string, JBool (la_evolve_eta a))]).
  change ([("momentum"%string, num (la_momentum a)); ("decay"%string, num (la_decay a))]) with ([("momentum"%string, num (la_momentum a))] ++ [("decay"%string, num (la_decay a))]).
  rewrite !entries_app, <- app_assoc.
  erewrite over_app by (apply (li_d "eta" put_eta); [intros; lkeys|assumption]).
  erewrite over_app. 2: { cbn [entries map over key fst snd obind]. unfold layer_import. keys. reflexivity. }
  destruct (la_evolve_eta a).
  - erewrite over_app by (apply (li_d "eta_min" put_eta_min); [intros; lkeys|auto]).
    erewrite over_app by (apply (li_d "momentum" put_momentum); [intros; lkeys|auto]).
    rewrite (li_d "decay" put_decay); [reflexivity|intros; lkeys|auto].
  - change (entries [] ++ ?r) with r.
    erewrite over_app by (apply (li_d "momentum" put_momentum); [intros; lkeys|auto]).
    rewrite (li_d "decay" put_decay); [reflexivity|intros; lkeys|auto].
Qed.
Lemma zmax0 v : (if 0 <? v then v else 0) = Z.max 0 v.
Proof. destruct (Z.ltb_spec 0 v); lia. Qed.

Lemma li_act a : layer_savable a -> exists f, activation_json a = Ok f /\ forall c,
  over layer_import c (entries f) =
  Ok (put_function (fst c) (pick (quiet (la_type (fst a))) (la_function (fst c)) (la_function (fst a))), pick (la_type (fst a) =? LSTM) (snd a) (snd c)).
Proof.
  intros S. pose proof (ls_fun _ S) as Fu. pose proof (ls_rec _ S) as Rc. unfold activation_json.
  assert (Q : silent (la_type (fst a)) = quiet (la_type (fst a))) by (unfold silent, quiet, among; cbn [existsb]; rewrite orb_false_r, !orb_assoc; reflexivity). rewrite Q.
  destruct (quiet (la_type (fst a))) eqn:E; cbn [negb when pick].
  - exists []. split; [reflexivity|]. intros c. destruct (Z.eqb_spec (la_type (fst a)) LSTM) as [L|L]; [rewrite L in E; discriminate E|]. destruct c as ([] & ?); reflexivity.
  - destruct (named _ _ _ _ _ _ activ_names_ok (Fu eq_refl)) as (nm & N1 & N2); [repeat constructor; vm_compute; reflexivity|].
    cbn [cat]. rewrite N2. cbn [obind].
    destruct (Z.eqb_spec (la_type (fst a)) LSTM) as [L|L]; cbn [when].
    + destruct (named _ _ _ _ _ _ activ_names_ok (Rc L)) as (nm' & N1' & N2'); [repeat constructor; vm_compute; reflexivity|]. rewrite N2'. cbn [obind app].
      eexists. split; [reflexivity|]. intros c. cbn [entries map over key fst snd obind]. unfold layer_import. keys. unfold valuestring. rewrite N1. cbn [obind]. keys. rewrite N1'. reflexivity.
    + cbn [obind app]. eexists. split; [reflexivity|]. intros c. cbn [entries map over key fst snd obind]. unfold layer_import. keys. unfold valuestring. rewrite N1. reflexivity.
Qed.
Ltac layer_fields := cbv beta iota zeta delta [put_function put_type put_n_inputs put_n_init la_ints la_dbls la_bools la_codes layer_args_init fst snd la_type la_n_inputs la_n_init la_n_max la_grow la_function la_height la_width la_channels la_size la_stride la_pad la_eta la_eta_min la_momentum la_decay la_probability la_scale la_evolve_weights la_evolve_neurons la_evolve_functions la_evolve_eta la_evolve_connect la_sgd_weights]; rewrite ?zmax0.
Ltac flat := cbn [put_function put_type put_n_inputs put_n_init la_ints la_dbls la_bools la_codes layer_args_init fst snd la_type la_n_inputs la_n_init la_n_max la_grow la_function la_height la_width la_channels la_size la_stride la_pad la_eta la_eta_min la_momentum la_decay la_probability la_scale la_evolve_weights la_evolve_neurons la_evolve_functions la_evolve_eta la_evolve_connect la_sgd_weights].
Lemma layer_json_ok n a : layer_savable a -> exists m, layer_json a = Ok (JObj m) /\
  over layer_import (put_n_inputs (fst layer_args_init) n, snd layer_args_init) (entries m) = Ok (reread n a).
Proof.
  intros S. pose proof (ls_type _ S) as T. pose proof (ls_ints _ S) as In_.
  pose proof (ls_sgd _ S) as Sg. pose proof (ls_prob _ S) as Pr. pose proof (ls_scale _ S) as Sc.
  destruct (named _ _ _ _ _ _ layer_names_ok T) as (nm & N1 & N2); [repeat constructor; vm_compute; reflexivity|].
  unfold layer_json. rewrite N2. cbn [obind]. destruct (li_act a S) as (f & Ef & Hf). rewrite Ef. cbn [obind].
  eexists. split; [reflexivity|]. rewrite !entries_app.
  erewrite over_app. 2: { cbn [entries map over key fst snd obind]. unfold layer_import. keys. unfold valuestring. rewrite N1. reflexivity. }
  flat.
  erewrite over_app by apply Hf.
  flat.
  erewrite over_app by (apply li_inputs; exact In_).
  flat.
  erewrite over_app by (apply li_scale; assumption).
  flat.
  assert (Fl : scale_cont (la_type (fst a)) = negb (full (la_type (fst a)))) by (unfold scale_cont, full, among; cbn [existsb]; rewrite negb_involutive, orb_false_r, !orb_assoc; reflexivity).
  rewrite Fl. unfold reread. destruct (full (la_type (fst a))) eqn:Efull; cbn [negb].
  - rewrite !entries_app.
    erewrite over_app by (apply (li_i "n_init" put_n_init la_n_init); [intros; lkeys|intros []; reflexivity|]; inversion In_; subst; match goal with H : Forall _ (_ :: _) |- _ => inversion H; assumption end).
    flat.
    erewrite over_app by (apply li_evo; exact In_).
    flat.
    rewrite li_sgd by (intros E; apply Sg; rewrite E; reflexivity). flat.
    clear -Efull. destruct a as ([t ni nin nmx gr fn hh ww cc sz st pd eta em mo de pr sc ew en ef ee ec sg] & rf). cbn [fst la_type] in *. layer_fields. destruct (images t), (quiet t), en, sg; rewrite ?zmax0; reflexivity.
  - clear -Efull. destruct a as ([t ni nin nmx gr fn hh ww cc sz st pd eta em mo de pr sc ew en ef ee ec sg] & rf). cbn [fst la_type] in *. layer_fields. destruct (images t), (quiet t); rewrite ?zmax0; reflexivity.
Qed.

Lemma omap_app_ok {A B} (f : A -> outcome B) l r : Forall2 (fun a b => f a = Ok b) l r -> omap f l = Ok r.
Proof. induction 1 as [|a b l r H _ IH]; [reflexivity|]. cbn. rewrite H. cbn [obind]. rewrite IH. reflexivity. Qed.
Lemma layers_json_ok n : forall l i, Forall layer_savable l -> exists m, layers_json i l = Ok m /\
  Forall2 (fun e b => over layer_import (put_n_inputs (fst layer_args_init) n, snd layer_args_init) (children (snd e)) = Ok b) (entries m) (map (reread n) l).
Proof.
  induction l as [|a l IH]; intros i F; [exists []; split; [reflexivity|constructor]|]. inversion F; subst.
  destruct (layer_json_ok n a H1) as (j & E1 & E2). destruct (IH (S i) H2) as (m & E3 & E4).
  eexists. cbn [layers_json]. rewrite E1. cbn [obind]. rewrite E3. cbn [obind]. split; [reflexivity|]. constructor; [exact E2|exact E4].
Qed.
Lemma layers_import_ok y n l i m : ints y i_X_DIM = Some n -> Forall layer_savable l -> layers_json i l = Ok m ->
  layers_import y (JObj m) = layer_args_validate (map (reread n) l).
Proof.
  intros X F E. destruct (layers_json_ok n l i F) as (m' & E1 & E2). rewrite E in E1. apply Ok_inj in E1. subst m'.
  unfold layers_import, geti. rewrite X. cbn [obind children]. change (map (fun p : string * json => (Some (fst p), snd p)) m) with (entries m).
  rewrite (omap_app_ok _ _ _ E2). reflexivity.
Qed.

(** ** The document *)
Definition gp_what := fold_right both none [wD d_GP_MIN; wD d_GP_MAX; wI i_GP_N_CONSTANTS; wI i_GP_INIT_DEPTH; wI i_GP_MAX_LEN].
Definition dgp_what := fold_right both none [wI i_DGP_MAX_K; wI i_DGP_MAX_T; wI i_DGP_N; wB b_DGP_EVOLVE_CYCLES].
Definition csr_what := fold_right both none [wD d_COND_ETA; wD d_COND_MIN; wD d_COND_MAX; wD d_COND_SPREAD_MIN].
Definition ternary_what := fold_right both none [wD d_COND_P_DONTCARE; wI i_COND_BITS].
Definition nlms_what x := fold_right both none [wD d_PRED_X0; wD d_PRED_ETA; wB b_PRED_EVOLVE_ETA; only (evolves x) (wD d_PRED_ETA_MIN)].
Definition rls_what := fold_right both none [wD d_PRED_X0; wD d_PRED_LAMBDA; wD d_PRED_SCALE_FACTOR].
Definition cond_what (x : sys) : what :=
  let t := ival x i_COND_TYPE in
  both (wI i_COND_TYPE) (both (only (among t [1; 2; 3]) csr_what) (both (only (among t [7]) ternary_what) (both (only (among t [5]) gp_what) (only (among t [6; 11]) dgp_what)))).
Definition pred_what (x : sys) : what :=
  let t := ival x i_PRED_TYPE in both (wI i_PRED_TYPE) (both (only (among t [1; 2]) (nlms_what x)) (only (among t [3; 4]) rls_what)).

(** Whether layers are written for conditions, predictions and actions. *)
Definition cond_net (x : sys) : bool := among (ival x i_COND_TYPE) [4; 12; 13].
Definition pred_net (x : sys) : bool := ival x i_PRED_TYPE =? 5.
Definition act_net (x : sys) : bool := written_i x i_ACT_TYPE && (ival x i_ACT_TYPE =? 1).
(** A list of layers that can be written, and what is read back. *)
Definition layers_back (x : sys) (l r : list larg2) : Prop :=
  Forall layer_savable l /\ layer_args_validate (map (reread (ival x i_X_DIM)) l) = Ok r.

Lemma type_back set as_int q nm c m : (forall y a, set y a = (t <- as_int a ;; Ok (t, if t =? -1 then y else put_i y q t))%out) ->
  as_int (chars nm ++ [nul]) = Ok c -> 0 <= c -> forall y, type_import set y (JObj (("type"%string, JStr nm) :: m)) = Ok (c, put_i y q c).
Proof.
  intros H N C y. unfold type_import, item. cbn [find]. change (same_name "type" (fst ("type"%string, JStr nm))) with true. cbn [option_map snd].
  rewrite H, N. cbn [obind fst]. rewrite (proj2 (Z.eqb_neq c (-1))) by lia. reflexivity.
Qed.
Lemma args_some nm a : item (JObj [("type"%string, JStr nm); ("args"%string, a)]) "args" = Some a.
Proof. reflexivity. Qed.
Lemma args_none nm : item (JObj [("type"%string, JStr nm)]) "args" = None.
Proof. reflexivity. Qed.

Lemma tab_ok n lo hi : forall h, exists c h', rtab n (rand_uniform lo hi) h = Ok (c, h').
Proof.
  induction n as [|n IH]; intros h; [exists [], h; reflexivity|]. cbn [rtab]. unfold bind, rand_uniform, bind, genrand, ret.
  destruct h as (tp, ps, gn, z1). cbn. match goal with |- context [rtab n _ ?h] => destruct (IH h) as (c & h' & E) end.
  unfold rand_uniform, bind, genrand, ret in E. cbn in E. rewrite E. eexists _, h'. reflexivity.
Qed.

Section Doc.
Variables (lm : libm) (p : params) (s : string).
Let x := p_sys p.
Hypothesis G : savable x s.

Lemma export_layers_inv l g j l' g' : layer_args_json_export lm l g = Ok ((j, l'), g') -> exists m, j = JObj m /\ layers_json 0 l' = Ok m.
Proof.
  unfold layer_args_json_export, bind, lift, ret. destruct (parse_inputs lm l g) as [(rs, g1)| | |]; try discriminate.
  destruct (layers_json 0 rs) as [m| | |] eqn:E; try discriminate. intros H. apply Ok_inj in H. injection H as <- <- <-. exists m. auto.
Qed.
Lemma layers_in y j l' r g l g' : layer_args_json_export lm l g = Ok ((j, l'), g') -> ints y i_X_DIM = ints x i_X_DIM -> layers_back x l' r ->
  layers_import y j = Ok r.
Proof.
  intros E X (F & V). destruct (export_layers_inv _ _ _ _ _ E) as (m & -> & Em). rewrite (layers_import_ok y (ival x i_X_DIM) l' 0 m); auto.
  rewrite X. apply (ix x s G).
Qed.

(** Conditions. *)
Definition cond_back (q z : params) (lc : list larg2) (h h' : rng) : Prop :=
  p_act z = p_act q /\ p_pred z = p_pred q /\ p_cond z = lc /\
  (if ival x i_COND_TYPE =? 5 then tree_constants (p_sys z) h = Ok (p_consts z, h') else p_consts z = p_consts q /\ h' = h).

Ltac whats E := intros []; cbn; rewrite ?E; reflexivity.
Lemma cond_part g c p' g' : cond_json lm p g = Ok ((c, p'), g') ->
  p' = with_cond p (p_cond p') /\ (cond_net x = false -> p' = p /\ g' = g) /\
  forall q lc h, ints (p_sys q) i_X_DIM = ints x i_X_DIM -> (if cond_net x then layers_back x (p_cond p') lc else lc = p_cond q) ->
  exists z h', cond_import q c h = Ok (z, h') /\ copies x s (cond_what x) (p_sys q) (p_sys z) /\ cond_back q z lc h h'.
Proof.
  destruct (cond_named x s G) as (nm & N1 & N2). pose proof (ix x s G i_COND_TYPE) as (EI & _ & R). cbv beta iota in R.
  assert (T : forall m y, type_import cond_param_set_type_string y (JObj (("type"%string, JStr nm) :: m)) = Ok (ival x i_COND_TYPE, put_i y i_COND_TYPE (ival x i_COND_TYPE))).
  { intros m. apply (type_back _ condition_type_as_int); [reflexivity|exact N1|exact R]. }
  assert (CT : forall y, copies x s (wI i_COND_TYPE) y (put_i y i_COND_TYPE (ival x i_COND_TYPE))) by (intros y; apply copy_i; [exact EI|discriminate|discriminate]).
  unfold cond_json. fold x. unfold bind at 1, lift at 1. rewrite (gi x s G). cbn [obind]. unfold bind at 1, lift at 1. rewrite N2. cbn [obind].
  pose proof (sv_cond _ _ G) as I. unfold cond_net, cond_what, cond_back.
  pose proof (csr_reads x s G) as Rc. pose proof (ternary_reads x s G) as Rt. pose proof (gp_reads x s G) as Rg. pose proof (dgp_reads x s G) as Rd.
  assert (PC : forall r, r = p -> r = with_cond p (p_cond r)) by (intros r ->; destruct p; reflexivity).
  revert T CT I Rc Rt Rg. unfold cond_import. generalize (ival x i_COND_TYPE) as t. intros t T CT I Rc Rt Rg.
  cbn [map fst cond_names In] in I.
  repeat (destruct I as [<-|I]); try contradiction; cbn [Z.eqb Pos.eqb orb].
  all: try (specialize (Rc eq_refl)); try (specialize (Rt eq_refl)); try (specialize (Rg eq_refl)).
  - (* dummy *) intros H. apply Ok_inj in H. injection H as <- <- <-. split; [apply PC; reflexivity|]. split; [auto|].
    intros q lc h X L. cbn in L. subst lc. exists (with_sys q (put_i (p_sys q) i_COND_TYPE 0)), h. unfold bind, lift. rewrite T, args_none. cbn [obind fst snd].
    split; [reflexivity|]. split; [|repeat split]. apply (copies_ext _ _ _ _ _ _ (CT _)); [whats EI|whats EI|whats EI|reflexivity].
  - destruct Rc as (l & El & Rl). rewrite El. unfold bind, lift. intros H. apply Ok_inj in H. injection H as <- <- <-. split; [apply PC; reflexivity|]. split; [auto|].
    intros q lc h X L. cbn in L. subst lc. destruct (Rl (put_i (p_sys q) i_COND_TYPE 1)) as (z & Z & C). exists (with_sys q z), h. cbn [app]. rewrite T, args_some. cbn [obind fst snd with_sys p_sys children Z.eqb Pos.eqb orb].
    fold (entries l). rewrite Z. split; [reflexivity|]. split; [|repeat split]. apply (copies_ext _ _ _ _ _ _ (copies_trans _ _ _ _ _ _ _ (CT _) C)); [whats EI|whats EI|whats EI|reflexivity].
  - destruct Rc as (l & El & Rl). rewrite El. unfold bind, lift. intros H. apply Ok_inj in H. injection H as <- <- <-. split; [apply PC; reflexivity|]. split; [auto|].
    intros q lc h X L. cbn in L. subst lc. destruct (Rl (put_i (p_sys q) i_COND_TYPE 2)) as (z & Z & C). exists (with_sys q z), h. cbn [app]. rewrite T, args_some. cbn [obind fst snd with_sys p_sys children Z.eqb Pos.eqb orb].
    fold (entries l). rewrite Z. split; [reflexivity|]. split; [|repeat split]. apply (copies_ext _ _ _ _ _ _ (copies_trans _ _ _ _ _ _ _ (CT _) C)); [whats EI|whats EI|whats EI|reflexivity].
  - destruct Rc as (l & El & Rl). rewrite El. unfold bind, lift. intros H. apply Ok_inj in H. injection H as <- <- <-. split; [apply PC; reflexivity|]. split; [auto|].
    intros q lc h X L. cbn in L. subst lc. destruct (Rl (put_i (p_sys q) i_COND_TYPE 3)) as (z & Z & C). exists (with_sys q z), h. cbn [app]. rewrite T, args_some. cbn [obind fst snd with_sys p_sys children Z.eqb Pos.eqb orb].
    fold (entries l). rewrite Z. split; [reflexivity|]. split; [|repeat split]. apply (copies_ext _ _ _ _ _ _ (copies_trans _ _ _ _ _ _ _ (CT _) C)); [whats EI|whats EI|whats EI|reflexivity].
  - (* neural *) unfold bind at 1. destruct (layer_args_json_export lm (p_cond p) g) as [((j, l'), g1)| | |] eqn:EL; try discriminate.
    intros H. apply Ok_inj in H. injection H as <- <- <-. split; [reflexivity|]. split; [discriminate|].
    intros q lc h X L. cbn in L. exists (with_cond (with_sys q (put_i (p_sys q) i_COND_TYPE 4)) lc), h. unfold bind, lift. cbn [app]. rewrite T, args_some. cbn [obind fst snd Z.eqb Pos.eqb orb].
    rewrite (layers_in _ _ _ lc _ _ _ EL); [|exact X|exact L]. split; [reflexivity|]. split; [|repeat split]. apply (copies_ext _ _ _ _ _ _ (CT _)); [whats EI|whats EI|whats EI|reflexivity].
  - (* tree_gp *) destruct Rg as (l & El & Rl). rewrite El. unfold bind, lift. intros H. apply Ok_inj in H. injection H as <- <- <-. split; [apply PC; reflexivity|]. split; [auto|].
    intros q lc h X L. cbn in L. subst lc. destruct (Rl (put_i (p_sys q) i_COND_TYPE 5)) as (z & Z & C).
    assert (TC : exists c h', tree_constants z h = Ok (c, h')).
    { unfold tree_constants, bind, lift, geti, getd. destruct C as (C1 & C2 & _). rewrite C1, !C2. cbn.
      rewrite (proj1 (ix x s G i_GP_N_CONSTANTS)). destruct (dx x s G d_GP_MIN) as (v1 & -> & _). destruct (dx x s G d_GP_MAX) as (v2 & -> & _). apply tab_ok. }
    destruct TC as (c & h' & TC). exists (with_consts (with_sys q z) c), h'. cbn [app]. rewrite T, args_some. cbn [obind fst snd with_sys p_sys children Z.eqb Pos.eqb orb].
    fold (entries l). rewrite Z, TC. split; [reflexivity|]. split; [|repeat split; exact TC]. apply (copies_ext _ _ _ _ _ _ (copies_trans _ _ _ _ _ _ _ (CT _) C)); [whats EI|whats EI|whats EI|reflexivity].
  - destruct Rd as (l & El & Rl). rewrite El. unfold bind, lift. intros H. apply Ok_inj in H. injection H as <- <- <-. split; [apply PC; reflexivity|]. split; [auto|].
    intros q lc h X L. cbn in L. subst lc. destruct (Rl (put_i (p_sys q) i_COND_TYPE 6)) as (z & Z & C). exists (with_sys q z), h. cbn [app]. rewrite T, args_some. cbn [obind fst snd with_sys p_sys children Z.eqb Pos.eqb orb].
    fold (entries l). rewrite Z. split; [reflexivity|]. split; [|repeat split]. apply (copies_ext _ _ _ _ _ _ (copies_trans _ _ _ _ _ _ _ (CT _) C)); [whats EI|whats EI|whats EI|reflexivity].
  - destruct Rt as (l & El & Rl). rewrite El. unfold bind, lift. intros H. apply Ok_inj in H. injection H as <- <- <-. split; [apply PC; reflexivity|]. split; [auto|].
    intros q lc h X L. cbn in L. subst lc. destruct (Rl (put_i (p_sys q) i_COND_TYPE 7)) as (z & Z & C). exists (with_sys q z), h. cbn [app]. rewrite T, args_some. cbn [obind fst snd with_sys p_sys children Z.eqb Pos.eqb orb].
    fold (entries l). rewrite Z. split; [reflexivity|]. split; [|repeat split]. apply (copies_ext _ _ _ _ _ _ (copies_trans _ _ _ _ _ _ _ (CT _) C)); [whats EI|whats EI|whats EI|reflexivity].
  - destruct Rd as (l & El & Rl). rewrite El. unfold bind, lift. intros H. apply Ok_inj in H. injection H as <- <- <-. split; [apply PC; reflexivity|]. split; [auto|].
    intros q lc h X L. cbn in L. subst lc. destruct (Rl (put_i (p_sys q) i_COND_TYPE 11)) as (z & Z & C). exists (with_sys q z), h. cbn [app]. rewrite T, args_some. cbn [obind fst snd with_sys p_sys children Z.eqb Pos.eqb orb].
    fold (entries l). rewrite Z. split; [reflexivity|]. split; [|repeat split]. apply (copies_ext _ _ _ _ _ _ (copies_trans _ _ _ _ _ _ _ (CT _) C)); [whats EI|whats EI|whats EI|reflexivity].
  - unfold bind at 1. destruct (layer_args_json_export lm (p_cond p) g) as [((j, l'), g1)| | |] eqn:EL; try discriminate.
    intros H. apply Ok_inj in H. injection H as <- <- <-. split; [reflexivity|]. split; [discriminate|].
    intros q lc h X L. cbn in L. exists (with_cond (with_sys q (put_i (p_sys q) i_COND_TYPE 12)) lc), h. unfold bind, lift. cbn [app]. rewrite T, args_some. cbn [obind fst snd Z.eqb Pos.eqb orb].
    rewrite (layers_in _ _ _ lc _ _ _ EL); [|exact X|exact L]. split; [reflexivity|]. split; [|repeat split]. apply (copies_ext _ _ _ _ _ _ (CT _)); [whats EI|whats EI|whats EI|reflexivity].
  - unfold bind at 1. destruct (layer_args_json_export lm (p_cond p) g) as [((j, l'), g1)| | |] eqn:EL; try discriminate.
    intros H. apply Ok_inj in H. injection H as <- <- <-. split; [reflexivity|]. split; [discriminate|].
    intros q lc h X L. cbn in L. exists (with_cond (with_sys q (put_i (p_sys q) i_COND_TYPE 13)) lc), h. unfold bind, lift. cbn [app]. rewrite T, args_some. cbn [obind fst snd Z.eqb Pos.eqb orb].
    rewrite (layers_in _ _ _ lc _ _ _ EL); [|exact X|exact L]. split; [reflexivity|]. split; [|repeat split]. apply (copies_ext _ _ _ _ _ _ (CT _)); [whats EI|whats EI|whats EI|reflexivity].
Qed.

(** Predictions. *)
Ltac pwhats E := intros []; cbn; rewrite ?E, ?orb_false_r; reflexivity.
Lemma pred_part g c p' g' p1 : p_sys p1 = x -> pred_json lm p1 g = Ok ((c, p'), g') ->
  p' = with_pred p1 (p_pred p') /\ (pred_net x = false -> p' = p1 /\ g' = g) /\
  forall q lp, ints (p_sys q) i_X_DIM = ints x i_X_DIM -> (if pred_net x then layers_back x (p_pred p') lp else lp = p_pred q) ->
  exists z, pred_import q c = Ok z /\ copies x s (pred_what x) (p_sys q) (p_sys z) /\
  p_act z = p_act q /\ p_cond z = p_cond q /\ p_pred z = lp /\ p_consts z = p_consts q.
Proof.
  intros X1.
  destruct (pred_named x s G) as (nm & N1 & N2). pose proof (ix x s G i_PRED_TYPE) as (EI & _ & R). cbv beta iota in R.
  assert (T : forall m y, type_import pred_param_set_type_string y (JObj (("type"%string, JStr nm) :: m)) = Ok (ival x i_PRED_TYPE, put_i y i_PRED_TYPE (ival x i_PRED_TYPE))).
  { intros m. apply (type_back _ prediction_type_as_int); [reflexivity|exact N1|exact R]. }
  assert (CT : forall y, copies x s (wI i_PRED_TYPE) y (put_i y i_PRED_TYPE (ival x i_PRED_TYPE))) by (intros y; apply copy_i; [exact EI|discriminate|discriminate]).
  unfold pred_json. rewrite X1. unfold bind at 1, lift at 1. rewrite (gi x s G). cbn [obind]. unfold bind at 1, lift at 1. rewrite N2. cbn [obind].
  pose proof (sv_pred _ _ G) as I. unfold pred_net, pred_what.
  pose proof (nlms_reads x s G) as Rn. pose proof (rls_reads x s G) as Rr.
  assert (PC : forall r, r = p1 -> r = with_pred p1 (p_pred r)) by (intros r ->; destruct p1; reflexivity).
  revert T CT I Rn Rr. unfold pred_import. fold (nlms_what x). fold rls_what. generalize (nlms_what x) as wn. intros wn. generalize (ival x i_PRED_TYPE) as t. intros t T CT I Rn Rr.
  cbn [map fst pred_names In] in I.
  repeat (destruct I as [<-|I]); try contradiction; cbn [Z.eqb Pos.eqb orb].
  all: try (specialize (Rn eq_refl)); try (specialize (Rr eq_refl)).
  1: { intros H. apply Ok_inj in H. injection H as <- <- <-. split; [apply PC; reflexivity|]. split; [auto|].
    intros q lp X L. cbn in L. subst lp. exists (with_sys q (put_i (p_sys q) i_PRED_TYPE 0)). rewrite T, args_none. cbn [obind fst snd].
    split; [reflexivity|]. split; [|repeat split]. apply (copies_ext _ _ _ _ _ _ (CT _)); [whats EI|whats EI|whats EI|reflexivity]. }
  5: { unfold bind at 1. destruct (layer_args_json_export lm (p_pred p1) g) as [((j, l'), g1)| | |] eqn:EL; try discriminate.
    intros H. apply Ok_inj in H. injection H as <- <- <-. split; [reflexivity|]. split; [discriminate|].
    intros q lc X L. cbn in L. exists (with_pred (with_sys q (put_i (p_sys q) i_PRED_TYPE 5)) lc). cbn [app]. rewrite T, args_some. cbn [obind fst snd Z.eqb Pos.eqb orb].
    rewrite (layers_in _ _ _ lc _ _ _ EL); [|exact X|exact L]. split; [reflexivity|]. split; [|repeat split]. apply (copies_ext _ _ _ _ _ _ (CT _)); [whats EI|whats EI|whats EI|reflexivity]. }
  - destruct Rn as (l & El & Rl). rewrite El. unfold bind, lift. intros H. apply Ok_inj in H. injection H as <- <- <-. split; [apply PC; reflexivity|]. split; [auto|].
    intros q lp X L. cbn in L. subst lp. destruct (Rl (put_i (p_sys q) i_PRED_TYPE 1)) as (z & Z & C). exists (with_sys q z). cbn [app]. rewrite T, args_some. cbn [obind fst snd with_sys p_sys children Z.eqb Pos.eqb orb].
    fold (entries l). rewrite Z. split; [reflexivity|]. split; [|repeat split]. apply (copies_ext _ _ _ _ _ _ (copies_trans _ _ _ _ _ _ _ (CT _) C)); [pwhats EI|pwhats EI|pwhats EI|cbn; rewrite ?orb_false_r; reflexivity].
  - destruct Rn as (l & El & Rl). rewrite El. unfold bind, lift. intros H. apply Ok_inj in H. injection H as <- <- <-. split; [apply PC; reflexivity|]. split; [auto|].
    intros q lp X L. cbn in L. subst lp. destruct (Rl (put_i (p_sys q) i_PRED_TYPE 2)) as (z & Z & C). exists (with_sys q z). cbn [app]. rewrite T, args_some. cbn [obind fst snd with_sys p_sys children Z.eqb Pos.eqb orb].
    fold (entries l). rewrite Z. split; [reflexivity|]. split; [|repeat split]. apply (copies_ext _ _ _ _ _ _ (copies_trans _ _ _ _ _ _ _ (CT _) C)); [pwhats EI|pwhats EI|pwhats EI|cbn; rewrite ?orb_false_r; reflexivity].
  - destruct Rr as (l & El & Rl). rewrite El. unfold bind, lift. intros H. apply Ok_inj in H. injection H as <- <- <-. split; [apply PC; reflexivity|]. split; [auto|].
    intros q lp X L. cbn in L. subst lp. destruct (Rl (put_i (p_sys q) i_PRED_TYPE 3)) as (z & Z & C). exists (with_sys q z). cbn [app]. rewrite T, args_some. cbn [obind fst snd with_sys p_sys children Z.eqb Pos.eqb orb].
    fold (entries l). rewrite Z. split; [reflexivity|]. split; [|repeat split]. apply (copies_ext _ _ _ _ _ _ (copies_trans _ _ _ _ _ _ _ (CT _) C)); [pwhats EI|pwhats EI|pwhats EI|cbn; rewrite ?orb_false_r; reflexivity].
  - destruct Rr as (l & El & Rl). rewrite El. unfold bind, lift. intros H. apply Ok_inj in H. injection H as <- <- <-. split; [apply PC; reflexivity|]. split; [auto|].
    intros q lp X L. cbn in L. subst lp. destruct (Rl (put_i (p_sys q) i_PRED_TYPE 4)) as (z & Z & C). exists (with_sys q z). cbn [app]. rewrite T, args_some. cbn [obind fst snd with_sys p_sys children Z.eqb Pos.eqb orb].
    fold (entries l). rewrite Z. split; [reflexivity|]. split; [|repeat split]. apply (copies_ext _ _ _ _ _ _ (copies_trans _ _ _ _ _ _ _ (CT _) C)); [pwhats EI|pwhats EI|pwhats EI|cbn; rewrite ?orb_false_r; reflexivity].
Qed.

(** Actions. *)
Definition act_what : what := only (written_i x i_ACT_TYPE) (wI i_ACT_TYPE).
Lemma act_part g c p' g' : written_i x i_ACT_TYPE = true -> action_json lm p g = Ok ((c, p'), g') ->
  p' = with_act p (p_act p') /\ (act_net x = false -> p' = p /\ g' = g) /\
  forall q la, ints (p_sys q) i_X_DIM = ints x i_X_DIM -> (if act_net x then layers_back x (p_act p') la else la = p_act q) ->
  exists z, action_import q c = Ok z /\ copies x s (wI i_ACT_TYPE) (p_sys q) (p_sys z) /\
  p_pred z = p_pred q /\ p_cond z = p_cond q /\ p_act z = la /\ p_consts z = p_consts q.
Proof.
  intros W. destruct (act_named x s G W) as (nm & N1 & N2). pose proof (ix x s G i_ACT_TYPE) as (EI & _ & R). cbv beta iota in R.
  assert (T : forall m y, type_import action_param_set_type_string y (JObj (("type"%string, JStr nm) :: m)) = Ok (ival x i_ACT_TYPE, put_i y i_ACT_TYPE (ival x i_ACT_TYPE))).
  { intros m. apply (type_back _ action_type_as_int); [reflexivity|exact N1|exact R]. }
  assert (CT : forall y, copies x s (wI i_ACT_TYPE) y (put_i y i_ACT_TYPE (ival x i_ACT_TYPE))) by (intros y; apply copy_i; [exact EI|discriminate|discriminate]).
  unfold action_json. fold x. unfold bind at 1, lift at 1. rewrite (gi x s G). cbn [obind]. unfold bind at 1, lift at 1. rewrite N2. cbn [obind].
  pose proof (sv_act _ _ G W) as I. unfold act_net. rewrite W. cbn [andb].
  assert (PC : forall r, r = p -> r = with_act p (p_act r)) by (intros r ->; destruct p; reflexivity).
  revert T CT I. unfold action_import. generalize (ival x i_ACT_TYPE) as t. intros t T CT I.
  cbn [map fst act_names In] in I. destruct I as [<-|[<-|[]]]; cbn [Z.eqb Pos.eqb].
  - intros H. apply Ok_inj in H. injection H as <- <- <-. split; [apply PC; reflexivity|]. split; [auto|].
    intros q la X L. cbn in L. subst la. exists (with_sys q (put_i (p_sys q) i_ACT_TYPE 0)). rewrite T, args_none. cbn [obind fst snd].
    split; [reflexivity|]. split; [apply CT|repeat split].
  - unfold bind at 1. destruct (layer_args_json_export lm (p_act p) g) as [((j, l'), g1)| | |] eqn:EL; try discriminate.
    intros H. apply Ok_inj in H. injection H as <- <- <-. split; [reflexivity|]. split; [discriminate|].
    intros q la X L. cbn in L. exists (with_act (with_sys q (put_i (p_sys q) i_ACT_TYPE 1)) la). cbn [app]. rewrite T, args_some. cbn [obind fst snd Z.eqb Pos.eqb orb].
    rewrite (layers_in _ _ _ la _ _ _ EL); [|exact X|exact L]. split; [reflexivity|]. split; [apply CT|repeat split].
Qed.
End Doc.

(** ** Everything *)
Definition all_written (x : sys) : what := mkW (written_i x) (written_d x) (written_b x) true.
Lemma all_what x : forall w, w = both (general_what x) (both (fold_right both none [wI i_EA_SELECT_TYPE; only (ival x i_EA_SELECT_TYPE =? 1) (wD d_EA_SELECT_SIZE); wD d_EA_THETA; wI i_EA_LAMBDA;
     wD d_EA_P_CROSSOVER; wD d_EA_ERR_REDUC; wD d_EA_FIT_REDUC; wB b_EA_SUBSUMPTION; wB b_EA_PRED_RESET])
     (both (only (written_i x i_ACT_TYPE) (wI i_ACT_TYPE)) (both (cond_what x) (pred_what x)))) ->
  (forall q, wi w q = written_i x q) /\ (forall q, wd w q = written_d x q) /\ (forall q, wb w q = written_b x q) /\ wf w = true.
Proof.
  intros w ->. split; [|split; [|split]].
  - intros []; cbn; rewrite ?orb_true_r, ?orb_false_r, ?andb_false_r, ?andb_true_r; cbn; rewrite ?orb_false_r, ?orb_true_r; reflexivity.
  - intros []; cbn; rewrite ?orb_true_r, ?orb_false_r, ?andb_false_r, ?andb_true_r; cbn; rewrite ?orb_false_r, ?orb_true_r; try reflexivity.
    all: unfold evolves; try reflexivity; repeat match goal with |- context [?a =? ?k] => destruct (a =? k) end; cbn; rewrite ?orb_false_r, ?orb_true_r, ?andb_true_r; reflexivity.
  - intros []; cbn; rewrite ?orb_true_r, ?orb_false_r, ?andb_false_r, ?andb_true_r; cbn; rewrite ?orb_false_r, ?orb_true_r; reflexivity.
  - reflexivity.
Qed.

Lemma rule_among t : rule_type t = among t [11; 12; 13].
Proof. unfold rule_type, among. cbn [existsb]. rewrite orb_false_r, orb_assoc. reflexivity. Qed.

Theorem round_trip lm p s p' q g g' h j lc la lp : savable (p_sys p) s -> param_json_export lm p g = Ok ((j, p'), g') ->
  (if cond_net (p_sys p) then layers_back (p_sys p) (p_cond p') lc else lc = p_cond q) ->
  (if act_net (p_sys p) then layers_back (p_sys p) (p_act p') la else la = p_act q) ->
  (if pred_net (p_sys p) then layers_back (p_sys p) (p_pred p') lp else lp = p_pred q) ->
  exists z h', param_json_import q j h = Ok (z, h') /\ copies (p_sys p) s (all_written (p_sys p)) (p_sys q) (p_sys z) /\
  p_cond z = lc /\ p_act z = la /\ p_pred z = lp /\
  (if ival (p_sys p) i_COND_TYPE =? 5 then tree_constants (p_sys z) h = Ok (p_consts z, h') else p_consts z = p_consts q /\ h' = h).
Proof.
  intros G E Lc La Lp. set (x := p_sys p) in *.
  unfold param_json_export in E. fold x in E.
  destruct (general_loads x s G) as (lg & Eg & Rg). destruct (ea_reads x s G) as (le & Ee & Re).
  unfold bind at 1, lift at 1 in E. rewrite Eg in E. unfold bind at 1, lift at 1 in E. rewrite Ee in E.
  unfold bind at 1, lift at 1 in E. rewrite (gi x s G) in E. unfold bind at 1, lift at 1 in E. rewrite (gi x s G) in E.
  rewrite rule_among in E. rewrite andb_comm in E. change ((1 <? ival x i_N_ACTIONS) && negb (among (ival x i_COND_TYPE) [11; 12; 13])) with (written_i x i_ACT_TYPE) in E.
  destruct (Rg q h) as (y1 & I1 & C1). destruct (Re y1) as (y2 & I2 & C2).
  assert (D1 : ints y1 i_X_DIM = ints x i_X_DIM) by (destruct C1 as (C1 & _); rewrite C1; cbn; rewrite ?andb_false_r, ?orb_true_r; reflexivity).
  assert (D2 : ints y2 i_X_DIM = ints x i_X_DIM) by (destruct C2 as (C2 & _); rewrite C2; destruct (wi _ i_X_DIM); [reflexivity|exact D1]).
  assert (STEA : import_one (with_sys q y1) (Some "ea"%string, JObj le) h = Ok (with_sys q y2, h)).
  { unfold import_one. cbn [fst snd key]. unfold bind, lift, import_general. keys. unfold import_multi. keys. unfold import_subsump. keys. unfold import_cl_general. keys.
    cbn [with_sys p_sys children]. fold (entries le). rewrite I2. reflexivity. }
  unfold bind at 1 in E.
  destruct ((if written_i x i_ACT_TYPE then bind (action_json lm p) (fun '(j, p) => ret ([("action"%string, j)], p)) else ret ([], p)) g) as [((ja, p1), g1)| | |] eqn:EA; try discriminate E.
  unfold bind at 1 in E. destruct (cond_json lm p1 g1) as [((jc, p2), g2)| | |] eqn:EC; try discriminate E.
  unfold bind at 1 in E. destruct (pred_json lm p2 g2) as [((jp, p3), g3)| | |] eqn:EP; try discriminate E.
  apply Ok_inj in E. injection E as <- <- <-.
  assert (A0 : p1 = with_act p (p_act p1)).
  { destruct (written_i x i_ACT_TYPE) eqn:W.
    - unfold bind in EA. destruct (action_json lm p g) as [((j0, p0), g0)| | |] eqn:EA'; try discriminate EA. apply Ok_inj in EA. injection EA as <- <- <-.
      exact (proj1 (act_part lm p s G g j0 p0 g0 W EA')).
    - apply Ok_inj in EA. injection EA as <- <- <-. destruct p; reflexivity. }
  assert (X1 : p_sys p1 = x) by (rewrite A0; reflexivity).
  assert (G1 : savable (p_sys p1) s) by (rewrite X1; exact G).
  destruct (cond_part lm p1 s G1 g1 jc p2 g2 EC) as (Pc1 & _ & Pc3). rewrite X1 in Pc3.
  assert (X2 : p_sys p2 = x) by (rewrite Pc1; exact X1).
  destruct (pred_part lm p s G g2 jp p3 g3 p2 X2 EP) as (Pp1 & _ & Pp3). fold x in Pp3.
  assert (La1 : if act_net x then layers_back x (p_act p1) la else la = p_act q).
  { replace (p_act p1) with (p_act p3); [exact La|]. rewrite Pp1. cbn [with_pred p_act]. rewrite Pc1. reflexivity. }
  assert (Lc1 : if cond_net x then layers_back x (p_cond p2) lc else lc = p_cond q).
  { replace (p_cond p2) with (p_cond p3); [exact Lc|]. rewrite Pp1. reflexivity. }
  assert (A1 : exists q3, import_list (with_sys q y2) (entries ja) h = Ok (q3, h) /\ copies x s (only (written_i x i_ACT_TYPE) (wI i_ACT_TYPE)) y2 (p_sys q3) /\
     p_cond q3 = p_cond q /\ p_pred q3 = p_pred q /\ p_act q3 = la /\ p_consts q3 = p_consts q).
  { destruct (written_i x i_ACT_TYPE) eqn:W.
    - unfold bind in EA. destruct (action_json lm p g) as [((j0, p0), g0)| | |] eqn:EA'; try discriminate EA. apply Ok_inj in EA. injection EA as <- <- <-.
      destruct (act_part lm p s G g j0 p0 g0 W EA') as (_ & _ & P3). fold x in P3.
      destruct (P3 (with_sys q y2) la D2 La1) as (z & Z1 & Z2 & Z3 & Z4 & Z5 & Z6).
      exists z. split; [|split; [apply (copies_ext _ _ _ _ _ _ Z2); reflexivity|auto]].
      cbn [entries map import_list fst snd]. unfold bind, import_one. cbn [fst snd key]. unfold bind, lift, import_general. keys. unfold import_multi. keys. unfold import_subsump. keys. unfold import_cl_general. keys.
      rewrite Z1. reflexivity.
    - apply Ok_inj in EA. injection EA as <- <- <-. exists (with_sys q y2). split; [reflexivity|].
      assert (AN : act_net x = false) by (unfold act_net; rewrite W; reflexivity). rewrite AN in La1.
      split; [apply (copies_ext _ _ _ _ _ _ (copies_none _ _ _)); reflexivity|]. repeat split; auto. }
  destruct A1 as (q3 & I3 & C3 & Q1 & Q2 & Q3 & Q4).
  assert (D3 : ints (p_sys q3) i_X_DIM = ints x i_X_DIM) by (destruct C3 as (C3 & _); rewrite C3; destruct (wi _ i_X_DIM); [reflexivity|exact D2]).
  destruct (Pc3 q3 lc h D3) as (q4 & h' & I4 & C4 & (B1 & B2 & B3 & B4)); [rewrite Q1; exact Lc1|]. rewrite X1 in B4.
  assert (D4 : ints (p_sys q4) i_X_DIM = ints x i_X_DIM) by (destruct C4 as (C4 & _); rewrite C4; destruct (wi _ i_X_DIM); [reflexivity|exact D3]).
  destruct (Pp3 q4 lp D4) as (z & I5 & C5 & B5 & B6 & B7 & B8); [rewrite B2, Q2; exact Lp|].
  exists z, h'.
  assert (EQ : param_json_import q (JObj (lg ++ [("ea"%string, JObj le)] ++ ja ++ [("condition"%string, jc)] ++ [("prediction"%string, jp)])) h = Ok (z, h')).
  { unfold param_json_import. cbn [children]. fold (entries (lg ++ [("ea"%string, JObj le)] ++ ja ++ [("condition"%string, jc)] ++ [("prediction"%string, jp)])).
    rewrite !entries_app, (import_list_app _ _ _ _ _ _ I1).
    change (entries [("ea"%string, JObj le)]) with [(Some "ea"%string, JObj le)]. cbn [app import_list]. unfold bind at 1. rewrite STEA.
    rewrite (import_list_app _ _ _ _ _ _ I3). cbn [entries map app import_list fst snd]. unfold bind at 1.
    assert (S4 : import_one q3 (Some "condition"%string, jc) h = Ok (q4, h')).
    { unfold import_one. cbn [fst snd key]. unfold bind, lift, import_general. keys. unfold import_multi. keys. unfold import_subsump. keys. unfold import_cl_general. keys. exact I4. }
    rewrite S4. unfold bind at 1.
    assert (S5 : import_one q4 (Some "prediction"%string, jp) h' = Ok (z, h')).
    { unfold import_one. cbn [fst snd key]. unfold bind, lift, import_general. keys. unfold import_multi. keys. unfold import_subsump. keys. unfold import_cl_general. keys. rewrite I5. reflexivity. }
    rewrite S5. reflexivity. }
  split; [exact EQ|]. split.
  { pose proof (copies_trans _ _ _ _ _ _ _ C1 (copies_trans _ _ _ _ _ _ _ C2 (copies_trans _ _ _ _ _ _ _ C3 (copies_trans _ _ _ _ _ _ _ C4 C5)))) as C.
    destruct (all_what x _ eq_refl) as (W1 & W2 & W3 & W4). exact (copies_ext _ _ _ (all_written x) _ _ C W1 W2 W3 W4). }
  split; [rewrite B6; exact B3|]. split; [rewrite B5, B1; exact Q3|]. split; [exact B7|].
  destruct (ival x i_COND_TYPE =? 5) eqn:E5.
  - rewrite B8. rewrite <- B4. unfold tree_constants, bind, lift, geti, getd. destruct C5 as (C51 & C52 & _).
    rewrite C51, !C52. cbn. rewrite ?andb_false_r. reflexivity.
  - rewrite B8. destruct B4 as (-> & ->). split; [exact Q4|reflexivity].
Qed.

(** ** Without networks the export succeeds and only reads *)
Section Plain.
Variables (lm : libm) (p : params) (s : string).
Let x := p_sys p.
Hypothesis G : savable x s.
Lemma cond_plain g : cond_net x = false -> exists c, cond_json lm p g = Ok ((c, p), g).
Proof.
  destruct (cond_named x s G) as (nm & N1 & N2).
  unfold cond_json. fold x. unfold bind at 1, lift at 1. rewrite (gi x s G). cbn [obind]. unfold bind at 1, lift at 1. rewrite N2. cbn [obind].
  pose proof (sv_cond _ _ G) as I. unfold cond_net.
  pose proof (csr_reads x s G) as Rc. pose proof (ternary_reads x s G) as Rt. pose proof (gp_reads x s G) as Rg. pose proof (dgp_reads x s G) as Rd.
  revert I Rc Rt Rg. generalize (ival x i_COND_TYPE) as t. intros t I Rc Rt Rg.
  cbn [map fst cond_names In] in I.
  repeat (destruct I as [<-|I]); try contradiction; intros F; try discriminate F; clear F; cbn [Z.eqb Pos.eqb orb].
  all: try (specialize (Rc eq_refl); destruct Rc as (l & El & _)); try (specialize (Rt eq_refl); destruct Rt as (l' & El' & _)); try (specialize (Rg eq_refl); destruct Rg as (l' & El' & _)).
  all: destruct Rd as (ld & Ed & _); unfold bind, lift, ret; rewrite ?El, ?El', ?Ed; eexists; reflexivity.
Qed.
Lemma pred_plain g : pred_net x = false -> exists c, pred_json lm p g = Ok ((c, p), g).
Proof.
  destruct (pred_named x s G) as (nm & N1 & N2).
  unfold pred_json. fold x. unfold bind at 1, lift at 1. rewrite (gi x s G). cbn [obind]. unfold bind at 1, lift at 1. rewrite N2. cbn [obind].
  pose proof (sv_pred _ _ G) as I. unfold pred_net.
  pose proof (nlms_reads x s G) as Rn. pose proof (rls_reads x s G) as Rr.
  revert I Rn Rr. generalize (ival x i_PRED_TYPE) as t. intros t I Rn Rr.
  cbn [map fst pred_names In] in I.
  repeat (destruct I as [<-|I]); try contradiction; intros F; try discriminate F; clear F; cbn [Z.eqb Pos.eqb orb].
  all: try (specialize (Rn eq_refl); destruct Rn as (l & El & _)); try (specialize (Rr eq_refl); destruct Rr as (l & El & _)).
  all: unfold bind, lift, ret; rewrite ?El; eexists; reflexivity.
Qed.
Lemma act_plain g : written_i x i_ACT_TYPE = true -> act_net x = false -> exists c, action_json lm p g = Ok ((c, p), g).
Proof.
  intros W. destruct (act_named x s G W) as (nm & N1 & N2).
  unfold action_json. fold x. unfold bind at 1, lift at 1. rewrite (gi x s G). cbn [obind]. unfold bind at 1, lift at 1. rewrite N2. cbn [obind].
  pose proof (sv_act _ _ G W) as I. unfold act_net. rewrite W. cbn [andb].
  revert I. generalize (ival x i_ACT_TYPE) as t. intros t I.
  cbn [map fst act_names In] in I. destruct I as [<-|[<-|[]]]; intros F; try discriminate F; clear F; cbn [Z.eqb Pos.eqb]. eexists; reflexivity.
Qed.
Lemma export_plain g : cond_net x = false -> act_net x = false -> pred_net x = false ->
  exists j, param_json_export lm p g = Ok ((j, p), g).
Proof.
  intros N1 N2 N3. unfold param_json_export. fold x.
  destruct (general_loads x s G) as (lg & Eg & _). destruct (ea_reads x s G) as (le & Ee & _).
  unfold bind at 1, lift at 1. rewrite Eg. unfold bind at 1, lift at 1. rewrite Ee.
  unfold bind at 1, lift at 1. rewrite (gi x s G). unfold bind at 1, lift at 1. rewrite (gi x s G).
  rewrite rule_among. rewrite andb_comm. change ((1 <? ival x i_N_ACTIONS) && negb (among (ival x i_COND_TYPE) [11; 12; 13])) with (written_i x i_ACT_TYPE).
  destruct (cond_plain g N1) as (jc & Ec). destruct (pred_plain g N3) as (jp & Ep).
  unfold bind at 1. destruct (written_i x i_ACT_TYPE) eqn:W.
  - destruct (act_plain g W N2) as (ja & Ea). unfold bind at 1. rewrite Ea. unfold ret. unfold bind. rewrite Ec, Ep. eexists. reflexivity.
  - unfold ret, bind. rewrite Ec, Ep. eexists. reflexivity.
Qed.
End Plain.

(** A double that is not finite. *)
Lemma import_null p k h : In k ["e0"; "nu"; "huber_delta"; "init_error"; "init_fitness"]%string -> import_one p (Some k, JNull) h = Exit.
Proof. intros I. cbn [In] in I. repeat (destruct I as [<-|I]; [reflexivity|]). destruct I. Qed.
Lemma import_stuck l : forall p h e, In e l -> (forall q g, import_one q e g = Exit) -> 
  (forall q e g, In e l -> (exists z g', import_one q e g = Ok (z, g')) \/ import_one q e g = Exit) -> import_list p l h = Exit.
Proof.
  induction l as [|a l IH]; intros p h e I S T; [destruct I|]. cbn [import_list]. unfold bind.
  destruct (T p a h (or_introl eq_refl)) as [(z & g' & E)|E]; [|rewrite E; reflexivity].
  destruct I as [->|I]; [rewrite S in E; discriminate E|]. rewrite E. apply (IH _ _ e); auto. intros; apply T; right; auto.
Qed.

(** ** What an import does: a sequence of calls of setters *)
Fixpoint parsed (j : json) : Prop :=
  match j with
  | JNum v i => is_nan v = false /\ i <= int_max
  | JStr t => plain t
  | JArr l => (fix all l := match l with [] => True | a :: r => parsed a /\ all r end) l
  | JObj m => (fix all m := match m with [] => True | a :: r => parsed (snd a) /\ all r end) m
  | _ => True
  end.
Lemma parsed_children j e : parsed j -> In e (children j) -> parsed (snd e).
Proof.
  destruct j as [| | | |l|m]; cbn [children]; try contradiction.
  - intros P. cbn in P. induction l as [|a l IH]; [contradiction|]. destruct P as (P & Q). intros [<-|I]; [exact P|exact (IH Q I)].
  - intros P. cbn in P. induction m as [|a m IH]; [contradiction|]. destruct P as (P & Q). intros [<-|I]; [exact P|exact (IH Q I)].
Qed.
Lemma parsed_item j n v : parsed j -> item j n = Some v -> parsed v.
Proof.
  destruct j as [| | | |l|m]; cbn [item]; try discriminate. intros P. destruct (find _ m) as [e|] eqn:F; [|discriminate]. intros H. injection H as <-.
  apply find_some in F as (F & _). apply (parsed_children (JObj m) (Some (fst e), snd e) P). cbn [children]. apply (in_map (fun p => (Some (fst p), snd p))) in F. exact F.
Qed.
Definition to (x y : sys) : Prop :=
  clos_refl_trans sys call x y /\ ints y i_GP_N_INPUTS = ints x i_GP_N_INPUTS /\ ints y i_DGP_N_INPUTS = ints x i_DGP_N_INPUTS.
Lemma to_refl x : to x x. Proof. split; [apply rt_refl|auto]. Qed.
Lemma to_trans x y z : to x y -> to y z -> to x z.
Proof. intros (A1 & A2 & A3) (B1 & B2 & B3). split; [eapply rt_trans; eassumption|]. split; congruence. Qed.
Lemma to_one x y : call x y -> ints y i_GP_N_INPUTS = ints x i_GP_N_INPUTS -> ints y i_DGP_N_INPUTS = ints x i_DGP_N_INPUTS -> to x y.
Proof. intros C A B. split; [apply rt_step, C|auto]. Qed.
Lemma catch_to x r y : catch_error r = Ok (Some y) -> to x (snd r) -> to x y.
Proof. unfold catch_error. destruct (fst r); [|discriminate]. intros H. apply Ok_inj in H. injection H as <-. auto. Qed.

Ltac listed := cbn [In int_setters double_setters bool_setters clamped_int_setters clamped_double_setters free_double_setters free_bool_setters]; tauto.
Ltac same_ints := first [reflexivity|match goal with |- ints (snd (?f _ _)) _ = _ => unfold f; match goal with |- context [if ?b then _ else _] => destruct b; reflexivity end end].
Ltac set_step P :=
  first
  [ apply to_one; [apply call_i; [listed|exact (proj2 P)]|same_ints|same_ints]
  | apply to_one; [apply call_d; [listed|exact (proj1 P)]|same_ints|same_ints]
  | apply to_one; [apply call_b; listed|same_ints|same_ints]
  | apply to_one; [apply call_ci; [listed|exact (proj2 P)]|same_ints|same_ints]
  | apply to_one; [apply call_cd; [listed|exact (proj1 P)]|same_ints|same_ints]
  | apply to_one; [apply call_ad; [listed|exact (proj1 P)]|same_ints|same_ints]
  | apply to_one; [apply call_ab; listed|same_ints|same_ints]
  | apply to_one; [apply call_seed; exact (proj2 P)|same_ints|same_ints] ].
Ltac names J P :=
  match goal with |- (if ?c && ?t then _ else _) = _ -> _ =>
    let B := fresh in destruct (c && t) eqn:B; [apply andb_prop in B as (_ & B); destruct J; try discriminate B; clear B; cbn [valueint valuedouble valuestring is_true]|clear B] end.

Lemma valuestring_arr t : chars t ++ [nul] = arr t []. Proof. reflexivity. Qed.
Lemma file_to x s y : obind (param_set_population_file x (chars s ++ [nul])) catch_error = Ok (Some y) -> to x y.
Proof.
  intros H. destruct (param_set_population_file x (chars s ++ [nul])) as [r| | |] eqn:E; try discriminate H. cbn [obind] in H. apply (catch_to _ _ _ H).
  apply to_one; [exact (call_file _ _ _ E)| |]; unfold param_set_population_file in E; destruct (strnlen _ MAX_LEN); try discriminate E; cbn [obind] in E;
    destruct (strncpy _ _); try discriminate E; apply Ok_inj in E; subst r; reflexivity.
Qed.
Lemma loss_to x s y : plain s -> obind (param_set_loss_func_string x (chars s ++ [nul])) catch_error = Ok (Some y) -> to x y.
Proof.
  intros P H. destruct (param_set_loss_func_string x (chars s ++ [nul])) as [r| | |] eqn:E; try discriminate H. cbn [obind] in H. apply (catch_to _ _ _ H).
  apply to_one; [exact (call_loss_name _ _ [] _ P E)| |]; unfold param_set_loss_func_string, loss_set_func in E; destruct (loss_type_as_int _); try discriminate E; cbn [obind put_i ints] in E;
      (destruct (a =? -1); [apply Ok_inj in E; subst r; reflexivity|]); rewrite isame in E; cbn [obind] in E; apply Ok_inj in E; subst r; cbn [snd]; destruct ((0 <=? a) && (a <? 7)); reflexivity.
Qed.
Lemma general_to x k j y : parsed j -> import_general x k j = Ok (Some y) -> to x y.
Proof.
  intros P. unfold import_general. destruct (same k "version" 8); [intros H; apply Ok_inj in H; injection H as <-; apply to_refl|].
  do 12 (names j P; [intros H; first [apply (catch_to _ _ _ H); set_step P|exact (file_to _ _ _ H)|exact (loss_to _ _ _ P H)]|]). discriminate.
Qed.
Lemma multi_to x k j y : parsed j -> import_multi x k j = Ok (Some y) -> to x y.
Proof. intros P. unfold import_multi. do 3 (names j P; [intros H; apply (catch_to _ _ _ H); set_step P|]). discriminate. Qed.
Lemma subsump_to x k j y : parsed j -> import_subsump x k j = Ok (Some y) -> to x y.
Proof. intros P. unfold import_subsump. do 2 (names j P; [intros H; apply (catch_to _ _ _ H); set_step P|]). discriminate. Qed.
Lemma cl_to x k j y : parsed j -> import_cl_general x k j = Ok (Some y) -> to x y.
Proof. intros P. unfold import_cl_general. do 11 (names j P; [intros H; apply (catch_to _ _ _ H); set_step P|]). discriminate. Qed.
Lemma type_to f x t r : In f [ea_param_set_type_string; cond_param_set_type_string; pred_param_set_type_string; action_param_set_type_string] ->
  plain t -> f x (chars t ++ [nul]) = Ok r -> to x (snd r).
Proof.
  intros F P E. pose proof E as E'. rewrite valuestring_arr in E. apply to_one; [exact (call_type_name f x t [] r F P E)| |];
  cbn [In] in F; destruct F as [<-|[<-|[<-|[<-|[]]]]];
    unfold ea_param_set_type_string, cond_param_set_type_string, pred_param_set_type_string, action_param_set_type_string in E';
    (match type of E' with obind ?o _ = _ => destruct o; try discriminate E' end); cbn [obind] in E'; apply Ok_inj in E'; subst r; cbn [snd];
    match goal with |- context [if ?b then _ else _] => destruct b; reflexivity end.
Qed.
Lemma ea_to x k j y : parsed j -> ea_import x k j = Ok y -> to x y.
Proof.
  intros P. unfold ea_import, need_found.
  assert (L : forall o, (forall z, o = Ok (Some z) -> to x z) -> obind o (fun r => match r with Some a => Ok a | None => Exit end) = Ok y -> to x y).
  { intros [[z|]| | |] Q H; cbn in H; try discriminate H. apply Ok_inj in H. subst z. apply Q. reflexivity. }
  apply L. clear L. intros z.
  names j P.
  { intros H. destruct (ea_param_set_type_string x (chars s ++ [nul])) as [r| | |] eqn:E; try discriminate H. cbn [obind] in H. destruct (fst r =? -1); [discriminate H|]. apply Ok_inj in H. injection H as <-.
    apply (type_to ea_param_set_type_string _ s); [listed|exact P|exact E]. }
  do 8 (names j P; [intros H; apply (catch_to _ _ _ H); set_step P|]). discriminate.
Qed.
Lemma over_to f l : (forall x k j y, parsed j -> f x k j = Ok y -> to x y) -> Forall (fun e : option string * json => parsed (snd e)) l -> forall x y, over f x l = Ok y -> to x y.
Proof.
  intros S. induction 1 as [|e l P _ IH]; intros x y H; cbn [over] in H; [apply Ok_inj in H; subst; apply to_refl|].
  destruct (key e); try discriminate H. cbn [obind] in H. destruct (f x a (snd e)) as [z| | |] eqn:E; try discriminate H. cbn [obind] in H.
  exact (to_trans _ _ _ (S _ _ _ _ P E) (IH _ _ H)).
Qed.
Ltac simple_to f := intros P; unfold f; repeat (match goal with |- (if _ && _ then _ else _) = _ -> _ => idtac end; match type of P with parsed ?j => names j P; [intros H; apply Ok_inj in H; subst; set_step P|] end); discriminate.
Lemma csr_to x k j y : parsed j -> csr_import x k j = Ok y -> to x y. Proof. simple_to csr_import. Qed.
Lemma ternary_to x k j y : parsed j -> ternary_import x k j = Ok y -> to x y. Proof. simple_to ternary_import. Qed.
Lemma gp_to x k j y : parsed j -> gp_import x k j = Ok y -> to x y. Proof. simple_to gp_import. Qed.
Lemma dgp_to x k j y : parsed j -> dgp_import x k j = Ok y -> to x y. Proof. simple_to dgp_import. Qed.
Lemma nlms_to x k j y : parsed j -> nlms_args_import x k j = Ok y -> to x y. Proof. simple_to nlms_args_import. Qed.
Lemma rls_to x k j y : parsed j -> rls_args_import x k j = Ok y -> to x y. Proof. simple_to rls_args_import. Qed.
Lemma kids j : parsed j -> Forall (fun e : option string * json => parsed (snd e)) (children j).
Proof. intros P. apply Forall_forall. intros e. apply parsed_children, P. Qed.
Lemma type_import_to f x j r : In f [ea_param_set_type_string; cond_param_set_type_string; pred_param_set_type_string; action_param_set_type_string] ->
  parsed j -> type_import f x j = Ok r -> to x (snd r).
Proof.
  intros F P. unfold type_import. destruct (item j "type") as [[| | |t| |]|] eqn:I; try discriminate. apply (parsed_item _ _ _ P) in I. cbn in I.
  destruct (f x (chars t ++ [nul])) as [r0| | |] eqn:E; try discriminate. cbn [obind]. destruct (fst r0 =? -1); [discriminate|]. intros H. apply Ok_inj in H. subst r0. apply (type_to f _ t); assumption.
Qed.

Lemma import_to p e h z h' : parsed (snd e) -> import_one p e h = Ok (z, h') -> to (p_sys p) (p_sys z).
Proof.
  intros P. unfold import_one. unfold bind at 1, lift at 1. destruct (key e) as [k| | |]; try discriminate.
  unfold bind at 1, lift at 1. destruct (import_general (p_sys p) k (snd e)) as [[y|]| | |] eqn:E1; try discriminate; [intros H; apply Ok_inj in H; injection H as <- <-; exact (general_to _ _ _ _ P E1)|].
  unfold bind at 1, lift at 1. destruct (import_multi (p_sys p) k (snd e)) as [[y|]| | |] eqn:E2; try discriminate; [intros H; apply Ok_inj in H; injection H as <- <-; exact (multi_to _ _ _ _ P E2)|].
  unfold bind at 1, lift at 1. destruct (import_subsump (p_sys p) k (snd e)) as [[y|]| | |] eqn:E3; try discriminate; [intros H; apply Ok_inj in H; injection H as <- <-; exact (subsump_to _ _ _ _ P E3)|].
  unfold bind at 1, lift at 1. destruct (import_cl_general (p_sys p) k (snd e)) as [[y|]| | |] eqn:E4; try discriminate; [intros H; apply Ok_inj in H; injection H as <- <-; exact (cl_to _ _ _ _ P E4)|].
  destruct (same k "ea" 3).
  { unfold bind, lift. destruct (over ea_import (p_sys p) (children (snd e))) as [y| | |] eqn:E; try discriminate. intros H; apply Ok_inj in H; injection H as <- <-. exact (over_to _ _ ea_to (kids _ P) _ _ E). }
  destruct (same k "action" 7).
  { unfold lift, action_import. destruct (type_import action_param_set_type_string (p_sys p) (snd e)) as [r| | |] eqn:T; cbn [obind]; try discriminate.
    apply type_import_to in T; [|listed|exact P].
    destruct (item (snd e) "args") as [a|] eqn:A; [|intros H; apply Ok_inj in H; injection H as <- <-; exact T].
    destruct (fst r =? 0); [intros H; apply Ok_inj in H; injection H as <- <-; exact T|]. destruct (fst r =? 1); [|discriminate].
    destruct (layers_import _ a); cbn [obind]; try discriminate. intros H; apply Ok_inj in H; injection H as <- <-; exact T. }
  destruct (same k "condition" 10).
  { unfold cond_import. unfold bind at 1, lift at 1. destruct (type_import cond_param_set_type_string (p_sys p) (snd e)) as [r| | |] eqn:T; cbn [obind]; try discriminate.
    apply type_import_to in T; [|listed|exact P].
    destruct (item (snd e) "args") as [a|] eqn:A; [|intros H; apply Ok_inj in H; injection H as <- <-; exact T].
    apply (parsed_item _ _ _ P) in A.
    assert (PL : forall f, (forall x k j y, parsed j -> f x k j = Ok y -> to x y) -> bind (lift (over f (p_sys (with_sys p (snd r))) (children a))) (fun x => ret (with_sys (with_sys p (snd r)) x)) h = Ok (z, h') -> to (p_sys p) (p_sys z)).
    { intros f F. unfold bind, lift. destruct (over f _ (children a)) as [y| | |] eqn:E; try discriminate. intros H; apply Ok_inj in H; injection H as <- <-. exact (to_trans _ _ _ T (over_to _ _ F (kids _ A) _ _ E)). }
    destruct (fst r =? 7); [apply PL, ternary_to|]. destruct ((fst r =? 3) || (fst r =? 1) || (fst r =? 2)); [apply PL, csr_to|].
    destruct (fst r =? 5).
    { unfold bind at 1, lift at 1. destruct (over gp_import _ (children a)) as [y| | |] eqn:E; try discriminate. unfold bind. destruct (tree_constants y h) as [(c & h1)| | |]; try discriminate.
      intros H; apply Ok_inj in H; injection H as <- <-. exact (to_trans _ _ _ T (over_to _ _ gp_to (kids _ A) _ _ E)). }
    destruct ((fst r =? 6) || (fst r =? 11)); [apply PL, dgp_to|].
    destruct ((fst r =? 4) || (fst r =? 12) || (fst r =? 13)); [|discriminate].
    unfold bind, lift. destruct (layers_import _ a); try discriminate. intros H; apply Ok_inj in H; injection H as <- <-; exact T. }
  destruct (same k "prediction" 11); [|discriminate].
  unfold lift, pred_import. destruct (type_import pred_param_set_type_string (p_sys p) (snd e)) as [r| | |] eqn:T; cbn [obind]; try discriminate.
  apply type_import_to in T; [|listed|exact P].
  destruct (item (snd e) "args") as [a|] eqn:A; [|intros H; apply Ok_inj in H; injection H as <- <-; exact T].
  apply (parsed_item _ _ _ P) in A.
  destruct (fst r =? 0); [intros H; apply Ok_inj in H; injection H as <- <-; exact T|].
  destruct ((fst r =? 1) || (fst r =? 2)).
  { destruct (over nlms_args_import _ (children a)) as [y| | |] eqn:E; cbn [obind]; try discriminate. intros H; apply Ok_inj in H; injection H as <- <-. exact (to_trans _ _ _ T (over_to _ _ nlms_to (kids _ A) _ _ E)). }
  destruct ((fst r =? 3) || (fst r =? 4)).
  { destruct (over rls_args_import _ (children a)) as [y| | |] eqn:E; cbn [obind]; try discriminate. intros H; apply Ok_inj in H; injection H as <- <-. exact (to_trans _ _ _ T (over_to _ _ rls_to (kids _ A) _ _ E)). }
  destruct (fst r =? 5); [|discriminate].
  destruct (layers_import _ a); cbn [obind]; try discriminate. intros H; apply Ok_inj in H; injection H as <- <-; exact T.
Qed.
Lemma import_all_to p j h z h' : parsed j -> param_json_import p j h = Ok (z, h') -> to (p_sys p) (p_sys z).
Proof.
  intros P. apply kids in P. unfold param_json_import. revert p h. induction P as [|e l P _ IH]; intros p h H; cbn [import_list] in H.
  - apply Ok_inj in H. injection H as <- <-. apply to_refl.
  - unfold bind in H. destruct (import_one p e h) as [(q & h1)| | |] eqn:E; try discriminate H. exact (to_trans _ _ _ (import_to _ _ _ _ _ P E) (IH _ _ H)).
Qed.
Theorem import_in_range p j h z h' : parsed j -> in_range (p_sys p) -> param_json_import p j h = Ok (z, h') -> in_range (p_sys z).
Proof. intros P R E. exact (calls_in_range _ _ R (proj1 (import_all_to _ _ _ _ _ P E))). Qed.
Theorem import_keeps_inputs p j h z h' : parsed j -> param_json_import p j h = Ok (z, h') ->
  ints (p_sys z) i_GP_N_INPUTS = ints (p_sys p) i_GP_N_INPUTS /\ ints (p_sys z) i_DGP_N_INPUTS = ints (p_sys p) i_DGP_N_INPUTS.
Proof. intros P E. exact (proj2 (import_all_to _ _ _ _ _ P E)). Qed.
