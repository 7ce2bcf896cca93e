(** * Text files are read as written (C70, C71). *)
From Coq Require Import ZArith Bool List Lia.
From Verif Require Import Outcome F64 Rng Arr ArrFacts Text.
Import ListNotations.
Open Scope Z_scope.

(** ** Lines *)
(** A file is a number of lines that end in a newline and a last one that does not. *)
Definition file (bodies : list (list Z)) (last : list Z) : list Z := concat (map (fun b => b ++ [NL]) bodies) ++ last.
Definition one_line (b : list Z) : Prop := ~ In NL b.
(** The lines including their newlines; an empty rest is not a line. *)
Definition lines_of (bodies : list (list Z)) (last : list Z) : list (list Z) :=
  map (fun b => b ++ [NL]) bodies ++ match last with [] => [] | _ => [last] end.

Lemma file_exists f : exists bodies last, f = file bodies last /\ Forall one_line bodies /\ one_line last.
Proof.
  induction f as [|c f (bs & l & -> & F & L)]; [exists [], []; repeat split; auto; intros []|].
  destruct (Z.eq_dec c NL) as [->|NE].
  - exists ([] :: bs), l. split; [reflexivity|]. split; [constructor; [intros []|exact F]|exact L].
  - destruct bs as [|b bs].
    + exists [], (c :: l). split; [reflexivity|]. split; [constructor|]. intros [E|E]; [congruence|exact (L E)].
    + inversion F as [|? ? O F']; subst. exists ((c :: b) :: bs), l. split; [reflexivity|]. split; [constructor; [|exact F']|exact L]. intros [E|E]; [congruence|exact (O E)].
Qed.
Lemma take_line_nl n : forall b r, one_line b -> (length b < n)%nat -> take_line n (b ++ NL :: r) = (b ++ [NL], r).
Proof.
  induction n as [|n IH]; intros b r O L; [lia|]. destruct b as [|c b]; cbn [app take_line]; [reflexivity|].
  destruct (Z.eqb_spec c NL) as [->|NE]; [exfalso; apply O; left; reflexivity|]. rewrite IH; [reflexivity| |cbn [length] in L; lia]. intros H. apply O. now right.
Qed.
Lemma take_line_end n : forall b, one_line b -> (length b <= n)%nat -> take_line n b = (b, []).
Proof.
  induction n as [|n IH]; intros [|c b] O L; cbn [length] in L; try lia; try reflexivity. cbn [take_line].
  destruct (Z.eqb_spec c NL) as [->|NE]; [exfalso; apply O; left; reflexivity|]. rewrite IH; [reflexivity| |lia]. intros H. apply O. now right.
Qed.
Lemma lines_short size bs last : (2 <= size)%nat -> Forall one_line bs -> one_line last ->
  Forall (fun b => (S (length b) < size)%nat) bs -> (length last < size)%nat -> lines_read size (file bs last) = lines_of bs last.
Proof.
  intros SZ F L FS LS. unfold lines_read.
  assert (G : forall fuel, (length (file bs last) <= fuel)%nat -> fgets_all fuel size (file bs last) = lines_of bs last); [|apply G; lia].
  induction bs as [|b bs IH]; intros fuel H.
  - unfold file, lines_of in *. cbn [map concat app] in *. destruct last as [|c l]; [destruct fuel; reflexivity|]. destruct fuel; [cbn in H; lia|].
    cbn [fgets_all fgets]. rewrite take_line_end; [|exact L|lia]. destruct fuel; reflexivity.
  - inversion F as [|? ? O F']; subst. inversion FS as [|? ? S1 S2]; subst. unfold file, lines_of in *. cbn [map concat] in *. rewrite <- !app_assoc in *. cbn [app] in *.
    destruct fuel as [|fuel]; [rewrite app_length in H; cbn in H; lia|]. cbn [fgets_all]. unfold fgets.
    destruct (b ++ NL :: concat (map (fun b => b ++ [NL]) bs) ++ last) as [|z q] eqn:E; [destruct b; discriminate|]. rewrite <- E in *.
    rewrite take_line_nl; [|exact O|lia]. cbn [app]. f_equal. apply IH; [exact F'|exact S2|].
    rewrite app_length in H. cbn [length] in H. lia.
Qed.
Lemma take_line_app n : forall s, let '(l, r) := take_line n s in s = l ++ r /\ (length l <= n)%nat /\ (n <> O -> s <> [] -> l <> []).
Proof.
  induction n as [|n IH]; intros s; cbn [take_line]; [auto with arith|]. destruct s as [|c s]; [cbn; repeat split; auto; lia|].
  destruct (c =? NL); [cbn; repeat split; try lia; discriminate|]. specialize (IH s). destruct (take_line n s) as (l, r). destruct IH as (E & L & _).
  cbn [app length]. split; [now rewrite E|]. split; [lia|discriminate].
Qed.
(** Nothing is lost and no line is longer than the buffer. *)
Lemma lines_all size f : (2 <= size)%nat -> concat (lines_read size f) = f /\ Forall (fun l => (length l < size)%nat) (lines_read size f).
Proof.
  intros SZ. unfold lines_read.
  assert (G : forall fuel f, (length f <= fuel)%nat -> concat (fgets_all fuel size f) = f /\ Forall (fun l => (length l < size)%nat) (fgets_all fuel size f)); [|apply G; lia].
  clear f. induction fuel as [|fuel IH]; intros f H; [destruct f; [split; [reflexivity|constructor]|cbn in H; lia]|].
  cbn [fgets_all]. unfold fgets. destruct f as [|c f]; [split; [reflexivity|constructor]|].
  pose proof (take_line_app (size - 1) (c :: f)) as T. destruct (take_line (size - 1) (c :: f)) as (l, r). destruct T as (E & L & N).
  destruct (IH r) as (C & F).
  { assert (NE : l <> []) by (apply N; [lia|discriminate]). rewrite E, app_length in H. destruct l; [congruence|]. cbn [length] in H. lia. }
  split; [cbn [concat]; now rewrite C, E|]. constructor; [lia|exact F].
Qed.

(** ** Tokens *)
Fixpoint join (fs : list (list Z)) : list Z :=
  match fs with [] => [] | [t] => t | t :: r => t ++ COMMA :: join r end.
Definition plain (t : list Z) : Prop := ~ In COMMA t /\ ~ In 0 t.
(** What strtok returns: the fields that are not empty. *)
Definition cells (fs : list (list Z)) : list (list Z) := filter (fun t => match t with [] => false | _ => true end) fs.
Lemma skip_plain t r : t <> [] -> plain t -> skip_delim (t ++ r) = t ++ r.
Proof.
  intros NE (P & _). destruct t as [|c t]; [congruence|]. cbn [app skip_delim]. destruct (Z.eqb_spec c COMMA) as [->|N]; [|reflexivity]. exfalso. apply P. left. reflexivity.
Qed.
Lemma token_comma t r : ~ In COMMA t -> token (t ++ COMMA :: r) = (t, r).
Proof.
  induction t as [|c t IH]; intros P; cbn [app token]; [reflexivity|]. destruct (Z.eqb_spec c COMMA) as [->|N]; [exfalso; apply P; left; reflexivity|].
  rewrite IH; [reflexivity|]. intros H. apply P. now right.
Qed.
Lemma token_end t : ~ In COMMA t -> token t = (t, []).
Proof.
  induction t as [|c t IH]; intros P; cbn [token]; [reflexivity|]. destruct (Z.eqb_spec c COMMA) as [->|N]; [exfalso; apply P; left; reflexivity|].
  rewrite IH; [reflexivity|]. intros H. apply P. now right.
Qed.
(** [rest] stands for what is left of the line: its tokens are [ts]. *)
Fixpoint tokens (s : list Z) (ts : list (list Z)) : Prop :=
  match ts with
  | [] => strtok s = None
  | t :: r => exists s', strtok s = Some (t, s') /\ tokens s' r
  end.
Lemma join_tokens fs : Forall plain fs -> tokens (join fs) (cells fs).
Proof.
  induction fs as [|t fs IH]; intros F; [reflexivity|]. inversion F as [|? ? P F']; subst. specialize (IH F').
  destruct fs as [|u fs].
  - cbn [join cells filter]. destruct t as [|c t]; [reflexivity|]. exists []. split; [|reflexivity]. unfold strtok.
    pose proof (skip_plain (c :: t) [] ltac:(discriminate) P) as SK. rewrite app_nil_r in SK. rewrite SK. rewrite token_end by apply P. reflexivity.
  - remember (u :: fs) as us. assert (J : join (t :: us) = t ++ COMMA :: join us) by (subst us; reflexivity). rewrite J. clear J.
    cbn [cells filter]. destruct t as [|c t].
    + cbn [app]. fold (cells us). destruct (cells us) as [|v vs]; cbn [tokens] in *.
      * unfold strtok in *. cbn [skip_delim]. rewrite Z.eqb_refl. exact IH.
      * destruct IH as (s' & E & T). exists s'. split; [|exact T]. unfold strtok in *. cbn [skip_delim]. rewrite Z.eqb_refl. exact E.
    + fold (cells us). exists (join us). split; [|exact IH]. unfold strtok.
      rewrite (skip_plain (c :: t) (COMMA :: join us) ltac:(discriminate) P). cbn [app].
      change (Some (token ((c :: t) ++ COMMA :: join us)) = Some (c :: t, join us)). rewrite token_comma by apply P. reflexivity.
Qed.
Lemma cstr_plain s : ~ In 0 s -> cstr s = s.
Proof.
  induction s as [|c s IH]; intros H; cbn [cstr]; [reflexivity|]. destruct (Z.eqb_spec c 0) as [->|N]; [exfalso; apply H; left; reflexivity|].
  rewrite IH; [reflexivity|]. intros G. apply H. now right.
Qed.
Lemma join_no0 fs : Forall plain fs -> ~ In 0 (join fs).
Proof.
  induction fs as [|t fs IH]; intros F; [intros []|]. inversion F as [|? ? P F']; subst. specialize (IH F'). destruct fs as [|u fs]; [apply P|].
  change (join (t :: u :: fs)) with (t ++ COMMA :: join (u :: fs)). rewrite in_app_iff. intros [H|[H|H]]; [now apply P|discriminate H|contradiction].
Qed.

Lemma strtok_shorter s t r : strtok s = Some (t, r) -> (length r < length s)%nat.
Proof.
  unfold strtok. assert (K : forall s, (length (skip_delim s) <= length s)%nat).
  { intros q. induction q as [|c q IH]; cbn [skip_delim]; [lia|]. destruct (c =? COMMA); cbn [length]; lia. }
  assert (T : forall s, (length (snd (token s)) <= length s)%nat).
  { intros q. induction q as [|c q IH]; cbn [token]; [cbn; lia|]. destruct (c =? COMMA); [cbn; lia|]. destruct (token q) as (a, b). cbn [snd length] in *. lia. }
  specialize (K s). destruct (skip_delim s) as [|c q] eqn:E; [discriminate|]. intros H. injection H as H1. 
  assert (H2 : (length (snd (token (c :: q))) <= length q)%nat).
  { cbn [token]. destruct (c =? COMMA); [cbn; lia|]. specialize (T q). destruct (token q). cbn [snd] in *. exact T. }
  cbn [token] in H1, H2. rewrite H1 in H2. cbn [snd length] in *. lia.
Qed.
Lemma strtok_nonempty s t r : strtok s = Some (t, r) -> t <> [].
Proof.
  unfold strtok. destruct (skip_delim s) as [|c q] eqn:E; [discriminate|].
  assert (N : c <> COMMA). { intros ->. clear - E. induction s as [|d s IH]; [discriminate|]. cbn [skip_delim] in E. destruct (Z.eqb_spec d COMMA); [auto|congruence]. }
  intros H. injection H as H. cbn [token] in H. destruct (Z.eqb_spec c COMMA); [contradiction|]. destruct (token q). injection H as <- _. discriminate.
Qed.
Lemma count_ok ts : forall fuel s n, (length s < fuel)%nat -> tokens s ts -> count_tokens fuel s n = Ok (n + Z.of_nat (length ts)).
Proof.
  induction ts as [|t ts IH]; intros fuel s n L T; (destruct fuel as [|fuel]; [lia|]); cbn [count_tokens tokens] in *.
  - rewrite T. cbn [length]. f_equal. lia.
  - destruct T as (s' & E & T). rewrite E. pose proof (strtok_shorter _ _ _ E). pose proof (strtok_nonempty _ _ _ E).
    rewrite (IH fuel s') by (assumption || lia). destruct t; [contradiction|]. cbn [length]. destruct (Z.ltb_spec 0 (Z.of_nat (S (length t)))); [|lia]. f_equal. lia.
Qed.

(** ** Rows *)
Section Rows.
Context (strtod : list Z -> f64).
Lemma wr_mid {A} (a : list A) x c v i : i = len a -> wr (a ++ x :: c) i v = Ok (a ++ v :: c).
Proof.
  intros ->. unfold wr, len. rewrite app_length. cbn [length]. destruct (Z.ltb_spec (Z.of_nat (length a)) 0); [lia|].
  destruct (Z.leb_spec (Z.of_nat (length a + S (length c))) (Z.of_nat (length a))); [lia|]. cbn [orb]. rewrite Nat2Z.id. f_equal.
  clear. induction a as [|y a IH]; cbn; [reflexivity|]. now rewrite IH.
Qed.
Lemma next_ok s t ts : tokens s (t :: ts) -> exists s', next_number strtod s = Ok (strtod t, s') /\ tokens s' ts.
Proof. intros (s' & E & T). exists s'. unfold next_number. rewrite E. auto. Qed.
Lemma next_none s : tokens s [] -> next_number strtod s = UB NullDeref.
Proof. intros E. unfold next_number. cbn in E. rewrite E. reflexivity. Qed.

Definition cell_body (n_dim i : Z) : Z -> list (option f64) * list Z -> outcome (list (option f64) * list Z) :=
  fun j r => (p <- next_number strtod (snd r) ;; data <- wr (fst r) (i * n_dim + (1 + j)) (Some (fst p)) ;; Ok (data, snd p))%out.
Lemma cells_loop n_dim i m : forall ts a b c j s, (m <= length ts)%nat -> length b = m -> len a = i * n_dim + (1 + j) -> tokens s ts ->
  exists s', oloop m j (cell_body n_dim i) (a ++ b ++ c, s) = Ok (a ++ map (fun t => Some (strtod t)) (firstn m ts) ++ c, s').
Proof.
  induction m as [|m IH]; intros ts a b c j s L LB LA T.
  - destruct b; [|discriminate]. exists s. reflexivity.
  - destruct ts as [|t ts]; [cbn in L; lia|]. destruct b as [|x b]; [discriminate|]. cbn [oloop]. unfold cell_body at 1. cbn [fst snd].
    destruct (next_ok _ _ _ T) as (s1 & E & T1). rewrite E. cbn [obind fst snd app]. rewrite wr_mid by lia. cbn [obind].
    destruct (IH ts (a ++ [Some (strtod t)]) b c (j + 1) s1) as (s' & E').
    + cbn in L. lia.
    + cbn in LB. lia.
    + unfold len in *. rewrite app_length. cbn [length]. lia.
    + exact T1.
    + exists s'. rewrite <- !app_assoc in E'. cbn [app] in E'. rewrite E'. cbn [firstn map app]. reflexivity.
Qed.
Lemma cells_short n_dim i m : forall ts a b c j s, (length ts < m)%nat -> length b = m -> len a = i * n_dim + (1 + j) -> tokens s ts ->
  oloop m j (cell_body n_dim i) (a ++ b ++ c, s) = UB NullDeref.
Proof.
  induction m as [|m IH]; intros ts a b c j s L LB LA T; [lia|]. destruct b as [|x b]; [discriminate|]. cbn [oloop]. unfold cell_body at 1. cbn [fst snd].
  destruct ts as [|t ts].
  - rewrite (next_none _ T). reflexivity.
  - destruct (next_ok _ _ _ T) as (s1 & E & T1). rewrite E. cbn [obind fst snd app]. rewrite wr_mid by lia. cbn [obind].
    specialize (IH ts (a ++ [Some (strtod t)]) b c (j + 1) s1). rewrite <- !app_assoc in IH. cbn [app] in IH. apply IH.
    + cbn in L. lia.
    + cbn in LB. lia.
    + unfold len in *. rewrite app_length. cbn [length]. lia.
    + exact T1.
Qed.
Definition values (n : nat) (fs : list (list Z)) : list (option f64) := map (fun t => Some (strtod t)) (firstn n (cells fs)).
Lemma read_row_ok (n : nat) i fs a b c : (1 <= n)%nat -> Forall plain fs -> (n <= length (cells fs))%nat -> len a = i * Z.of_nat n -> length b = n ->
  read_row strtod (Z.of_nat n) i (join fs) (a ++ b ++ c) = Ok (a ++ values n fs ++ c).
Proof.
  intros N F L LA LB. unfold read_row. rewrite cstr_plain by now apply join_no0. pose proof (join_tokens fs F) as T. unfold values.
  destruct (cells fs) as [|t ts]; [cbn in L; lia|]. destruct (next_ok _ _ _ T) as (s1 & E & T1). rewrite E. cbn [obind fst snd].
  destruct n as [|m]; [lia|]. destruct b as [|x b]; [discriminate|]. cbn [app]. rewrite wr_mid by lia. cbn [obind].
  destruct (cells_loop (Z.of_nat (S m)) i m ts (a ++ [Some (strtod t)]) b c 0 s1) as (s' & E').
  - cbn in L. lia.
  - cbn in LB. lia.
  - unfold len in *. rewrite app_length. cbn [length]. lia.
  - exact T1.
  - rewrite <- !app_assoc in E'. cbn [app] in E'. unfold ofor. replace (Z.to_nat (Z.of_nat (S m) - 1)) with m by lia.
    change (fun (j : Z) (r : list (option f64) * list Z) => _) with (cell_body (Z.of_nat (S m)) i). rewrite E'. cbn [obind fst firstn map app]. reflexivity.
Qed.
Lemma read_row_short (n : nat) i fs a b c : (1 <= n)%nat -> Forall plain fs -> (length (cells fs) < n)%nat -> len a = i * Z.of_nat n -> length b = n ->
  read_row strtod (Z.of_nat n) i (join fs) (a ++ b ++ c) = UB NullDeref.
Proof.
  intros N F L LA LB. unfold read_row. rewrite cstr_plain by now apply join_no0. pose proof (join_tokens fs F) as T.
  destruct (cells fs) as [|t ts]; [now rewrite (next_none _ T)|]. destruct (next_ok _ _ _ T) as (s1 & E & T1). rewrite E. cbn [obind fst snd].
  destruct n as [|m]; [lia|]. destruct b as [|x b]; [discriminate|]. cbn [app]. rewrite wr_mid by lia. cbn [obind].
  pose proof (cells_short (Z.of_nat (S m)) i m ts (a ++ [Some (strtod t)]) b c 0 s1) as E'. rewrite <- !app_assoc in E'. cbn [app] in E'.
  unfold ofor. replace (Z.to_nat (Z.of_nat (S m) - 1)) with m by lia.
  change (fun (j : Z) (r : list (option f64) * list Z) => _) with (cell_body (Z.of_nat (S m)) i). rewrite E'; [reflexivity| | | |].
  - cbn in L. lia.
  - cbn in LB. lia.
  - unfold len in *. rewrite app_length. cbn [length]. lia.
  - exact T1.
Qed.
Lemma rows_ok (n : nat) rows : (1 <= n)%nat -> forall i a b, Forall (Forall plain) rows -> len a = i * Z.of_nat n -> length b = (n * length rows)%nat ->
  read_rows strtod (i + Z.of_nat (length rows)) (Z.of_nat n) i (map join rows) (a ++ b) =
  if forallb (fun fs => (n <=? length (cells fs))%nat) rows then Ok (a ++ flat_map (values n) rows) else UB NullDeref.
Proof.
  intros N. induction rows as [|fs rows IH]; intros i a b F LA LB; cbn [map read_rows length forallb flat_map].
  - destruct b; [reflexivity|]. cbn in LB. lia.
  - inversion F as [|? ? P F']; subst. destruct (Z.ltb_spec i (i + Z.of_nat (S (length rows)))); [|lia].
    assert (B : b = firstn n b ++ skipn n b) by (symmetry; apply firstn_skipn). cbn [length] in LB.
    assert (L1 : length (firstn n b) = n) by (rewrite firstn_length; lia). rewrite B.
    destruct (Nat.leb_spec n (length (cells fs))) as [L|L]; cbn [andb].
    + rewrite (read_row_ok n i fs a (firstn n b) (skipn n b)) by assumption. cbn [obind]. rewrite app_assoc.
      replace (i + Z.of_nat (S (length rows))) with (i + 1 + Z.of_nat (length rows)) by lia. rewrite IH.
      * destruct (forallb _ rows); [|reflexivity]. now rewrite app_assoc.
      * exact F'.
      * unfold len in *. rewrite app_length. unfold values. rewrite map_length, firstn_length. lia.
      * rewrite skipn_length. lia.
    + rewrite (read_row_short n i fs a (firstn n b) (skipn n b)) by assumption. reflexivity.
Qed.

(** ** Files *)
(** Any file of lines that fit in the buffer and have no NUL: [rows] are the fields of its
    lines, the last one of a line with its newline. *)
Definition csv_lines (f : list Z) (rows : list (list (list Z))) : Prop :=
  exists bodies last, f = file bodies last /\ Forall one_line bodies /\ one_line last /\
    Forall (fun b => (length b < 199)%nat) bodies /\ (length last <= 199)%nat /\
    lines_of bodies last = map join rows /\ Forall (Forall plain) rows.
Definition columns (rows : list (list (list Z))) : nat := match rows with [] => O | r :: _ => length (cells r) end.
Lemma C70_read_lemma (f : list Z) rows : csv_lines f rows ->
  csv_read strtod f =
  let n := columns rows in
  if (n =? 0)%nat then Exit
  else if forallb (fun fs => (n <=? length (cells fs))%nat) rows then Ok (flat_map (values n) rows, Z.of_nat (length rows), Z.of_nat n)
  else UB NullDeref.
Proof.
  intros (bs & last & -> & F & L & S1 & S2 & E & P).
  assert (LR : lines_read MAX_COLS (file bs last) = map join rows).
  { rewrite <- E. apply lines_short; try assumption; unfold MAX_COLS; try lia. eapply Forall_impl; [|exact S1]. cbn. intros b Hb. lia. }
  unfold csv_read, csv_samples, csv_dim. rewrite LR, map_length.
  assert (D : exists r, fgets MAX_COLS (file bs last) = match rows with [] => None | fs :: _ => Some (join fs, r) end).
  { unfold lines_read in LR. destruct (file bs last) as [|c q] eqn:EF.
    - cbn in LR. destruct rows; [|discriminate]. exists []. reflexivity.
    - rewrite <- EF in *. assert (EL : length (file bs last) = S (length q)) by now rewrite EF. rewrite EL in LR. cbn [fgets_all] in LR.
      destruct (fgets MAX_COLS (file bs last)) as [(l, r)|] eqn:EG; [|unfold fgets in EG; rewrite EF in EG; discriminate].
      destruct rows as [|fs rows]; [discriminate|]. cbn [map] in LR. injection LR as -> _. exists r. reflexivity. }
  destruct D as (r & ->). destruct rows as [|fs rows]; [reflexivity|]. cbn [columns]. inversion P as [|? ? P1 P2]; subst.
  rewrite cstr_plain by now apply join_no0. rewrite (count_ok (cells fs)); [|lia|apply join_tokens, P1]. cbn [obind].
  destruct (Nat.eqb_spec (length (cells fs)) 0) as [Z0|NZ].
  - rewrite Z0. destruct (Z.ltb_spec 0 (0 + Z.of_nat 0)); [lia|]. rewrite andb_false_r. reflexivity.
  - rewrite Z.add_0_l. destruct (Z.ltb_spec 0 (Z.of_nat (length (fs :: rows)))) as [_|H]; [|cbn in H; lia].
    destruct (Z.ltb_spec 0 (Z.of_nat (length (cells fs)))) as [_|H]; [|lia]. cbn [andb]. unfold csv_read_data. rewrite LR.
    pose proof (rows_ok (length (cells fs)) (fs :: rows) ltac:(lia) 0 [] (repeat None (Z.to_nat (Z.of_nat (length (cells fs)) * Z.of_nat (length (fs :: rows))))) P) as H.
    cbn [app] in H. rewrite Z.add_0_l in H. rewrite H; [|reflexivity|rewrite repeat_length; lia].
    destruct (forallb _ _); reflexivity.
Qed.
End Rows.

(** The fields of a file can always be found. *)
Lemma split_exists s : ~ In 0 s -> exists fs, s = join fs /\ Forall plain fs /\ fs <> [].
Proof.
  induction s as [|c s IH]; intros H; [exists [[]]; split; [reflexivity|]; split; [repeat constructor; intros []|discriminate]|].
  destruct IH as (fs & E & F & N); [intros G; apply H; now right|]. destruct fs as [|t fs]; [congruence|]. inversion F as [|? ? (P1 & P2) F']; subst.
  assert (C0 : c <> 0) by (intros ->; apply H; left; reflexivity). destruct (Z.eq_dec c COMMA) as [->|NC].
  - exists ([] :: t :: fs). split; [reflexivity|]. split; [constructor; [split; intros []|exact F]|discriminate].
  - exists ((c :: t) :: fs). split; [destruct fs; reflexivity|]. split; [|discriminate]. constructor; [|exact F']. split; intros [E|E]; congruence || contradiction.
Qed.
Lemma C70_rows_lemma (bodies : list (list Z)) (last : list Z) : Forall one_line bodies -> one_line last ->
  Forall (fun b => (length b < 199)%nat) bodies -> (length last <= 199)%nat -> ~ In 0 (file bodies last) ->
  exists rows, csv_lines (file bodies last) rows.
Proof.
  intros F L S1 S2 N. assert (H : exists rows, lines_of bodies last = map join rows /\ Forall (Forall plain) rows).
  { assert (G : Forall (fun l => ~ In 0 l) (lines_of bodies last)).
    { apply Forall_forall. intros l I H. apply N. unfold file, lines_of in *. apply in_app_iff in I. apply in_app_iff. destruct I as [I|I].
      - left. apply in_concat. exists l. auto.
      - right. destruct last as [|c last]; [destruct I|]. destruct I as [<-|[]]. exact H. }
    induction G as [|l ls G1 G IH]; [exists []; split; [reflexivity|constructor]|]. destruct IH as (rows & E & P). destruct (split_exists l G1) as (fs & E1 & P1 & _).
    exists (fs :: rows). split; [cbn [map]; now rewrite E1, E|constructor; assumption]. }
  destruct H as (rows & E & P). exists rows, bodies, last. repeat (split; [assumption || reflexivity|]). exact P.
Qed.

(** ** Tables *)
Definition good_field (t : list Z) : Prop := t <> [] /\ plain t /\ ~ In NL t.
Definition table_text (tab : list (list (list Z))) : list Z := concat (map (fun r => join r ++ [NL]) tab).
Fixpoint end_line (fs : list (list Z)) : list (list Z) :=
  match fs with [] => [[NL]] | [t] => [t ++ [NL]] | t :: r => t :: end_line r end.
Lemma end_line_join fs : join (end_line fs) = join fs ++ [NL].
Proof.
  induction fs as [|t fs IH]; [reflexivity|]. destruct fs as [|u fs]; [reflexivity|]. change (end_line (t :: u :: fs)) with (t :: end_line (u :: fs)).
  change (join (t :: u :: fs)) with (t ++ COMMA :: join (u :: fs)). rewrite <- app_assoc. cbn [app]. rewrite <- IH.
  destruct (end_line (u :: fs)) as [|v vs] eqn:E; [destruct fs; discriminate|]. reflexivity.
Qed.
Lemma end_line_plain fs : Forall plain fs -> Forall plain (end_line fs).
Proof.
  assert (N : forall t, plain t -> plain (t ++ [NL])).
  { intros t (P1 & P2). split; rewrite in_app_iff; intros [H|[H|[]]]; contradiction || discriminate H. }
  induction 1 as [|t fs P F IH]; [repeat constructor; intros [H|[]]; discriminate H|]. destruct fs as [|u fs]; [constructor; [now apply N|constructor]|].
  change (end_line (t :: u :: fs)) with (t :: end_line (u :: fs)). constructor; assumption.
Qed.
Lemma end_line_cells fs : fs <> [] -> Forall (fun t => t <> []) fs -> cells (end_line fs) = end_line fs.
Proof.
  intros N F. induction F as [|t fs P F IH]; [congruence|]. destruct fs as [|u fs].
  - cbn [end_line cells filter]. destruct t; reflexivity.
  - change (end_line (t :: u :: fs)) with (t :: end_line (u :: fs)). cbn [cells filter]. destruct t; [congruence|]. f_equal. apply IH. discriminate.
Qed.
Lemma end_line_length fs : fs <> [] -> length (end_line fs) = length fs.
Proof. induction fs as [|t fs IH]; [congruence|]. intros _. destruct fs as [|u fs]; [reflexivity|]. change (end_line (t :: u :: fs)) with (t :: end_line (u :: fs)). cbn [length]. f_equal. apply IH. discriminate. Qed.
Lemma end_line_values (strtod : list Z -> f64) fs : (forall t, strtod (t ++ [NL]) = strtod t) -> fs <> [] -> map strtod (end_line fs) = map strtod fs.
Proof.
  intros H. induction fs as [|t fs IH]; [congruence|]. intros _. destruct fs as [|u fs]; [cbn [end_line map]; now rewrite H|].
  change (end_line (t :: u :: fs)) with (t :: end_line (u :: fs)). change (map strtod (t :: u :: fs)) with (strtod t :: map strtod (u :: fs)). cbn [map]. f_equal. apply IH. discriminate.
Qed.
Lemma no_nl_join fs : Forall (fun t => ~ In NL t) fs -> one_line (join fs).
Proof.
  induction 1 as [|t fs P F IH]; [intros []|]. destruct fs as [|u fs]; [exact P|]. unfold one_line. change (join (t :: u :: fs)) with (t ++ COMMA :: join (u :: fs)).
  rewrite in_app_iff. intros [H|[H|H]]; [contradiction|discriminate H|contradiction].
Qed.
Lemma C70_table_lemma (strtod : list Z -> f64) (tab : list (list (list Z))) (n : nat) : (forall t, strtod (t ++ [NL]) = strtod t) ->
  (1 <= n)%nat -> tab <> [] -> Forall (fun r => length r = n /\ Forall good_field r /\ (length (join r) < 199)%nat) tab ->
  csv_read strtod (table_text tab) = Ok (map (fun t => Some (strtod t)) (concat tab), Z.of_nat (length tab), Z.of_nat n).
Proof.
  intros H N NE F.
  assert (RN : forall r, In r tab -> r <> [] /\ length r = n /\ Forall (fun t => t <> []) r /\ Forall plain r /\ Forall (fun t => ~ In NL t) r).
  { intros r I. rewrite Forall_forall in F. destruct (F r I) as (L & G & _). split; [intros ->; cbn in L; lia|]. split; [exact L|].
    repeat split; eapply Forall_impl; try exact G; intros t (A & B & C); assumption. }
  assert (CL : csv_lines (table_text tab) (map end_line tab)).
  { exists (map join tab), []. split; [unfold file, table_text; rewrite map_map, app_nil_r; reflexivity|]. split.
    { apply Forall_map. apply Forall_forall. intros r I. apply no_nl_join. apply RN, I. }
    split; [intros []|]. split; [apply Forall_map; eapply Forall_impl; [|exact F]; cbn; intros r (_ & _ & L); exact L|]. split; [cbn; lia|]. split.
    { unfold lines_of. rewrite app_nil_r, !map_map. apply map_ext. intros r. now rewrite end_line_join. }
    apply Forall_map. apply Forall_forall. intros r I. apply end_line_plain, RN, I. }
  rewrite (C70_read_lemma strtod _ _ CL). cbv zeta.
  assert (CO : columns (map end_line tab) = n).
  { destruct tab as [|r tab]; [congruence|]. cbn [map columns]. destruct (RN r (or_introl eq_refl)) as (A & B & C & _). rewrite end_line_cells, end_line_length by assumption. exact B. }
  rewrite CO. destruct (Nat.eqb_spec n 0); [lia|]. rewrite map_length.
  assert (FB : forallb (fun fs => (n <=? length (cells fs))%nat) (map end_line tab) = true).
  { apply forallb_forall. intros fs I. apply in_map_iff in I. destruct I as (r & <- & I). destruct (RN r I) as (A & B & C & _). rewrite end_line_cells, end_line_length by assumption. apply Nat.leb_le. lia. }
  rewrite FB. do 3 f_equal. clear - RN H. induction tab as [|r tab IH]; [reflexivity|]. cbn [map flat_map concat]. rewrite map_app, IH; [|intros q Q; apply RN; now right]. f_equal.
  destruct (RN r (or_introl eq_refl)) as (A & B & C & _). unfold values. rewrite end_line_cells by assumption. rewrite firstn_all2 by (rewrite end_line_length by assumption; lia).
  rewrite <- !(map_map strtod Some). now rewrite end_line_values.
Qed.

(** ** Two files *)
Lemma read_loop (data : list (option f64)) d row m : forall j acc, 0 <= row -> 0 <= j -> row * d + j + Z.of_nat m <= len data -> 0 <= d ->
  oloop m j (fun j l => (v <- rd data (row * d + j) ;; Ok (l ++ [v]))%out) acc =
  Ok (acc ++ firstn m (skipn (Z.to_nat (row * d + j)) data)).
Proof.
  induction m as [|m IH]; intros j acc R J L D; cbn [oloop]; [cbn; now rewrite app_nil_r|].
  rewrite (rd_ok None) by nia. cbn [obind]. rewrite IH by lia. f_equal. rewrite <- app_assoc. f_equal. cbn [app].
  replace (Z.to_nat (row * d + (j + 1))) with (S (Z.to_nat (row * d + j))) by nia. unfold at_.
  assert (LT : (Z.to_nat (row * d + j) < length data)%nat) by (unfold len in L; nia). revert LT. generalize (Z.to_nat (row * d + j)). intros k LT.
  clear - LT. revert k LT. induction data as [|x data IHd]; intros k LT; [cbn in LT; lia|]. destruct k as [|k]; [reflexivity|]. cbn [nth skipn]. apply IHd. cbn in LT. lia.
Qed.
Lemma read_over (data : list (option f64)) d row m : forall j acc, 0 <= row * d + j -> (1 <= m)%nat -> len data < row * d + j + Z.of_nat m -> 
  oloop m j (fun j l => (v <- rd data (row * d + j) ;; Ok (l ++ [v]))%out) acc = UB OutOfBounds.
Proof.
  induction m as [|m IH]; intros j acc J M L; [lia|]. cbn [oloop]. destruct (Z_lt_le_dec (row * d + j) (len data)) as [B|B].
  - rewrite (rd_ok None) by lia. cbn [obind]. destruct m as [|m]; [lia|]. apply IH; lia.
  - rewrite rd_out by lia. reflexivity.
Qed.
(** The number of samples is that of the file of targets. *)
Lemma C70_pair_lemma (strtod : list Z -> f64) (fx fy : list Z) (x y : list (option f64)) (nx ny xd yd : Z) :
  csv_read strtod fx = Ok (x, nx, xd) -> csv_read strtod fy = Ok (y, ny, yd) -> len x = nx * xd -> len y = ny * yd ->
  exists d, csv_input_read strtod fx fy = Ok d /\ ci_n_samples d = ny /\
  forall row, 0 <= row < ci_n_samples d ->
    csv_sample d row = if row <? nx then Ok (firstn (Z.to_nat xd) (skipn (Z.to_nat (row * xd)) x), firstn (Z.to_nat yd) (skipn (Z.to_nat (row * yd)) y)) else UB OutOfBounds.
Proof.
  intros EX EY LX LY. unfold csv_input_read. rewrite EX. cbn [obind]. rewrite EY. cbn [obind fst snd]. eexists. split; [reflexivity|]. split; [reflexivity|].
  cbn [ci_n_samples]. intros row R. unfold csv_sample. cbn [ci_x ci_x_dim ci_y ci_y_dim].
  assert (PX : forall f x nx xd, csv_read strtod f = Ok (x, nx, xd) -> 0 < nx /\ 0 < xd).
  { intros f a na ad E. unfold csv_read in E. destruct (csv_dim f) as [q| | |]; try discriminate E. cbn [obind] in E.
    destruct (Z.ltb_spec 0 (csv_samples f)); [|discriminate E]. destruct (Z.ltb_spec 0 q); [|discriminate E]. cbn [andb] in E.
    destruct (csv_read_data strtod f (csv_samples f) q); try discriminate E. cbn [obind] in E. injection E as <- <- <-. auto. }
  destruct (PX _ _ _ _ EX) as (X1 & X2). destruct (PX _ _ _ _ EY) as (Y1 & Y2).
  destruct (Z.ltb_spec row nx) as [L|L].
  - unfold ofor. rewrite read_loop; [|lia|lia|rewrite Z2Nat.id by lia; nia|lia]. cbn [obind app]. rewrite read_loop; [|lia|lia|rewrite Z2Nat.id by lia; nia|lia]. cbn [obind app]. rewrite !Z.add_0_r. reflexivity.
  - unfold ofor. rewrite read_over; [reflexivity|nia|lia|rewrite Z2Nat.id by lia; nia].
Qed.
(** Read data has as many elements as rows times columns. *)
Lemma C70_length_lemma (strtod : list Z -> f64) (f : list Z) (x : list (option f64)) (n d : Z) : csv_read strtod f = Ok (x, n, d) -> len x = n * d.
Proof.
  intros E. unfold csv_read in E. destruct (csv_dim f) as [q| | |]; try discriminate E. cbn [obind] in E.
  destruct (Z.ltb_spec 0 (csv_samples f)); [|discriminate E]. destruct (Z.ltb_spec 0 q); [|discriminate E]. cbn [andb] in E.
  destruct (csv_read_data strtod f (csv_samples f) q) as [z| | |] eqn:D; try discriminate E. cbn [obind] in E. injection E as <- <- <-.
  unfold csv_read_data in D.
  assert (WL : forall (l l' : list (option f64)) i v, wr l i v = Ok l' -> len l' = len l).
  { intros l l' i v W. destruct (Z_le_dec 0 i) as [P|P]; [|rewrite wr_out in W by lia; discriminate]. destruct (Z_lt_dec i (len l)) as [Q|Q]; [|rewrite wr_out in W by lia; discriminate].
    destruct (wr_ok l i v (conj P Q)) as (l2 & E2 & W1 & _). rewrite E2 in W. injection W as <-. exact W1. }
  assert (RL : forall i l a b, read_row strtod q i l a = Ok b -> len b = len a).
  { intros i l a b R. unfold read_row in R. destruct (next_number strtod (cstr l)) as [(v, s)| | |]; try discriminate R. cbn [obind fst snd] in R.
    destruct (wr a (i * q) (Some v)) as [a1| | |] eqn:W; try discriminate R. cbn [obind] in R. rewrite <- (WL _ _ _ _ W). clear W.
    unfold ofor in R. destruct (oloop _ 0 _ (a1, s)) as [(a2, s2)| | |] eqn:O; try discriminate R. cbn [obind fst] in R. injection R as <-.
    revert O. generalize 0 at 1. generalize (Z.to_nat (q - 1)). intros m. revert a1 s. induction m as [|m IH]; intros a1 s j O; cbn [oloop] in O; [congruence|].
    cbn [fst snd] in O. destruct (next_number strtod s) as [(v1, s1)| | |]; try discriminate O. cbn [obind fst snd] in O.
    destruct (wr a1 (i * q + (1 + j)) (Some v1)) as [a3| | |] eqn:W; try discriminate O. cbn [obind] in O. apply IH in O. rewrite O. apply (WL _ _ _ _ W). }
  assert (G : forall ls i a b, read_rows strtod (csv_samples f) q i ls a = Ok b -> len b = len a).
  { induction ls as [|l ls IH]; intros i a b R; cbn [read_rows] in R; [congruence|]. destruct (i <? csv_samples f); [|congruence].
    destruct (read_row strtod q i l a) as [a1| | |] eqn:R1; try discriminate R. cbn [obind] in R. rewrite (IH _ _ _ R). apply (RL _ _ _ _ R1). }
  rewrite (G _ _ _ _ D). unfold len. rewrite repeat_length. rewrite Z2Nat.id by nia. lia.
Qed.

(** ** Configuration files *)
Definition not_blank (c : Z) : bool := negb (is_blank c).
(** A line without blanks and without what follows a '#'. *)
Definition strip (l : list Z) : list Z := cut_hash (filter not_blank (cstr l)).
Lemma trim_filter s : config_trim s = filter not_blank s.
Proof. induction s as [|c s IH]; cbn [config_trim filter]; [reflexivity|]. unfold not_blank at 1. destruct (is_blank c); cbn [negb]; now rewrite IH. Qed.
Lemma cut_length s : (length (cut_hash s) <= length s)%nat.
Proof. induction s as [|c s IH]; cbn [cut_hash]; [lia|]. destruct (c =? HASH); cbn [length]; lia. Qed.
Lemma filter_le {A} (p : A -> bool) l : (length (filter p l) <= length l)%nat.
Proof. induction l as [|x l IH]; cbn [filter]; [lia|]. destruct (p x); cbn [length]; lia. Qed.
Lemma cstr_length l : (length (cstr l) <= length l)%nat.
Proof. induction l as [|c l IH]; cbn [cstr]; [lia|]. destruct (c =? 0); cbn [length]; lia. Qed.
Lemma strip_length l : (length (strip l) <= length l)%nat.
Proof. unfold strip. pose proof (cut_length (filter not_blank (cstr l))). pose proof (filter_le not_blank (cstr l)). pose proof (cstr_length l). lia. Qed.
Lemma line_strip cap buf l : (length l <= MAXLEN)%nat -> Z.of_nat (length buf) + 1 <= cap ->
  config_line cap buf l = if Z.of_nat (length (buf ++ strip l)) + 1 <=? cap then Ok (buf ++ strip l) else UB OutOfBounds.
Proof.
  intros L C. unfold config_line. rewrite trim_filter. pose proof (strip_length l) as SL. unfold strip in *. destruct (filter not_blank (cstr l)) as [|c s].
  - cbn [cut_hash]. rewrite app_nil_r. destruct (Z.leb_spec (Z.of_nat (length buf) + 1) cap); [reflexivity|lia].
  - destruct (Z.eqb_spec c HASH) as [->|N].
    + cbn [cut_hash]. rewrite Z.eqb_refl, app_nil_r. destruct (Z.leb_spec (Z.of_nat (length buf) + 1) cap); [reflexivity|lia].
    + unfold strncat. rewrite firstn_all2 by lia. reflexivity.
Qed.
Lemma lines_strip cap ls : forall buf, Forall (fun l => (length l <= MAXLEN)%nat) ls -> Z.of_nat (length buf) + 1 <= cap ->
  config_lines cap buf ls = let t := buf ++ concat (map strip ls) in if Z.of_nat (length t) + 1 <=? cap then Ok t else UB OutOfBounds.
Proof.
  induction ls as [|l ls IH]; intros buf F C; cbn [config_lines map concat]; cbv zeta.
  - rewrite app_nil_r. destruct (Z.leb_spec (Z.of_nat (length buf) + 1) cap); [reflexivity|lia].
  - inversion F as [|? ? F1 F2]; subst. rewrite line_strip by assumption. rewrite app_assoc.
    destruct (Z.leb_spec (Z.of_nat (length (buf ++ strip l)) + 1) cap) as [D|D]; cbn [obind].
    + rewrite IH by assumption. reflexivity.
    + destruct (Z.leb_spec (Z.of_nat (length ((buf ++ strip l) ++ concat (map strip ls))) + 1) cap) as [E|E]; [rewrite app_length in E; lia|reflexivity].
Qed.
(** Every file: the buffer overflows exactly when nothing is removed. *)
Lemma C71_read_lemma (f : list Z) : f <> [] ->
  config_read f = let t := concat (map strip (lines_read 125 f)) in
  if (length t <? length f)%nat then Ok t else UB OutOfBounds.
Proof.
  intros NE. unfold config_read. destruct (Z.ltb_spec (Z.of_nat (length f)) 1) as [H|H]; [destruct f; [congruence|cbn [length] in H; lia]|].
  destruct (lines_all 125 f ltac:(lia)) as (C & F). change (MAXLEN - 2)%nat with 125%nat.
  rewrite lines_strip; [|eapply Forall_impl; [|exact F]; cbn; intros l Hl; unfold MAXLEN; lia|cbn [length]; lia]. cbn [app]. cbv zeta.
  destruct (Z.leb_spec (Z.of_nat (length (concat (map strip (lines_read 125 f)))) + 1) (Z.of_nat (length f))); destruct (Nat.ltb_spec (length (concat (map strip (lines_read 125 f)))) (length f)); try reflexivity; lia.
Qed.
(** Files of short lines: comments and blanks are removed, line by line. *)
Lemma strip_nl b : strip (b ++ [NL]) = strip b.
Proof.
  unfold strip. f_equal. induction b as [|c b IH]; [reflexivity|]. cbn [app cstr]. destruct (c =? 0); [reflexivity|]. cbn [filter]. now rewrite IH.
Qed.
Lemma strip_nl_shorter b : (length (strip (b ++ [NL])) < length (b ++ [NL]))%nat.
Proof. rewrite strip_nl, app_length. cbn [length]. pose proof (strip_length b). lia. Qed.
Lemma C71_lines_lemma (bodies : list (list Z)) (last : list Z) : Forall one_line bodies -> one_line last ->
  Forall (fun b => (length b < 124)%nat) bodies -> (length last <= 124)%nat -> file bodies last <> [] ->
  (bodies <> [] \/ strip last <> last) ->
  config_read (file bodies last) = Ok (concat (map strip bodies) ++ strip last).
Proof.
  intros F L S1 S2 NE RM. rewrite C71_read_lemma by exact NE. rewrite lines_short; [|lia|exact F|exact L|eapply Forall_impl; [|exact S1]; cbn; intros b Hb; lia|lia]. cbv zeta.
  assert (T : concat (map strip (lines_of bodies last)) = concat (map strip bodies) ++ strip last).
  { unfold lines_of. rewrite map_app, concat_app, map_map. f_equal; [f_equal; apply map_ext, strip_nl|]. destruct last; cbn [map concat]; [reflexivity|apply app_nil_r]. }
  rewrite T. destruct (Nat.ltb_spec (length (concat (map strip bodies) ++ strip last)) (length (file bodies last))) as [_|G]; [reflexivity|]. exfalso.
  assert (LB : (length (concat (map strip bodies)) + length bodies <= length (concat (map (fun b => b ++ [NL]) bodies)))%nat).
  { clear. induction bodies as [|b bs IH]; cbn [map concat length]; [lia|]. rewrite !app_length. cbn [length]. pose proof (strip_length b). lia. }
  unfold file in G. rewrite !app_length in G. pose proof (strip_length last) as SL. destruct RM as [RM|RM]; [destruct bodies; [congruence|cbn [length] in LB; lia]|].
  assert (LL : (length (strip last) < length last)%nat); [|lia]. destruct (Nat.eq_dec (length (strip last)) (length last)) as [E|E]; [|lia]. exfalso. apply RM. clear - E.
  revert E. unfold strip.
  assert (H : forall s, length (cut_hash (filter not_blank (cstr s))) = length s -> cut_hash (filter not_blank (cstr s)) = s); [|apply H].
  induction s as [|c s IH]; intros E; [reflexivity|]. cbn [cstr] in *. destruct (c =? 0); [discriminate E|]. cbn [filter] in *. destruct (not_blank c).
  - cbn [cut_hash] in *. destruct (c =? HASH); [discriminate E|]. cbn [length] in E. f_equal. apply IH. lia.
  - exfalso. pose proof (strip_length s) as Q. unfold strip in Q. cbn [length] in E. lia.
Qed.
Lemma C71_strip_lemma (l : list Z) : ~ In 0 l -> exists rest,
  filter (fun c => negb (existsb (Z.eqb c) [32; 9; 10; 13])) l = strip l ++ rest /\ ~ In HASH (strip l) /\ (rest = [] \/ exists r, rest = HASH :: r).
Proof.
  intros N. unfold strip. rewrite cstr_plain by exact N.
  assert (E : filter (fun c => negb (existsb (Z.eqb c) [32; 9; 10; 13])) l = filter not_blank l).
  { apply filter_ext. intros c. unfold not_blank, is_blank, NL. cbn [existsb]. now rewrite orb_false_r, !orb_assoc. }
  rewrite E. generalize (filter not_blank l). clear. induction l as [|c l (rest & E & NI & R)]; cbn [cut_hash].
  - exists []. split; [reflexivity|]. split; [intros []|auto].
  - destruct (Z.eqb_spec c HASH) as [->|N].
    + exists (HASH :: l). split; [reflexivity|]. split; [intros []|]. right. eauto.
    + exists rest. cbn [app]. rewrite <- E. split; [reflexivity|]. split; [|exact R]. intros [H|H]; contradiction.
Qed.

(** ** Where the reading goes wrong *)
(** '1' and '2' *)
Definition digit (d : Z) : list Z := [48 + d].
Lemma C70_refuted_lemma : exists (blank wide shifted : list Z),
  (* two columns and an empty line at the end *)
  blank = table_text [[digit 1; digit 2]] ++ [NL] /\ (forall strtod, csv_read strtod blank = UB NullDeref) /\
  (* one row of one hundred columns *)
  wide = table_text [repeat (digit 1) 100] /\ (forall strtod, csv_read strtod wide = UB NullDeref) /\
  (* a row with an empty field before one with three: the columns do not line up *)
  shifted = table_text [[digit 1; []; digit 3]; [digit 4; digit 5; digit 6]] /\
  (forall strtod : list Z -> f64, csv_read strtod shifted = Ok ([Some (strtod (digit 1)); Some (strtod (digit 3 ++ [NL])); Some (strtod (digit 4)); Some (strtod (digit 5))], 2, 2)).
Proof.
  do 3 eexists. split; [reflexivity|]. split; [intros; vm_compute; reflexivity|]. split; [reflexivity|]. split; [intros; vm_compute; reflexivity|]. split; [reflexivity|]. intros. reflexivity.
Qed.
Lemma C71_refuted_lemma : exists (tight long : list Z),
  (* no newline at the end and nothing to remove: "{}" *)
  tight = [123; 125] /\ config_read tight = UB OutOfBounds /\
  (* a comment of more than 124 characters: the rest of it is taken for configuration *)
  long = HASH :: repeat 97 123 ++ [98; NL; 123; 125; NL] /\ config_read long = Ok [98; 123; 125].
Proof. do 2 eexists. split; [reflexivity|]. split; [vm_compute; reflexivity|]. split; [reflexivity|]. vm_compute. reflexivity. Qed.
