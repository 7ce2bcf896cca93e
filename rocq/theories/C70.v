(** * C70 CSV data sets are read as written. *)
From Coq Require Import ZArith Bool List Lia.
From Verif Require Import Outcome F64 Rng Arr ArrFacts Text PropText.
Import ListNotations.
Open Scope Z_scope.

(** Tables: any number of rows of n non-empty fields, in lines of at most 199 characters; strtod
    ignores a newline at the end. *)
Theorem C70_table :
  forall (strtod : list Z -> f64) (tab : list (list (list Z))) (n : nat),
  (forall t : list Z, strtod (t ++ [NL]) = strtod t) ->
  (1 <= n)%nat ->
  tab <> [] ->
  Forall (fun r : list (list Z) => length r = n /\ Forall good_field r /\ (length (join r) < 199)%nat) tab ->
  csv_read strtod (table_text tab) =
  Ok (map (fun t : list Z => Some (strtod t)) (concat tab), Z.of_nat (length tab), Z.of_nat n).
Proof. exact @C70_table_lemma. Qed.
Print Assumptions C70_table.

(** Every file of lines of at most 199 characters without NUL ([rows]: the fields of its lines, see
    C70_rows): the columns are the non-empty fields of the first line; lines with more are cut off;
    one with fewer makes the program dereference NULL; without fields it exits. *)
Theorem C70_read :
  forall (strtod : list Z -> f64) (f : list Z) (rows : list (list (list Z))),
  csv_lines f rows ->
  csv_read strtod f =
  (let n := columns rows in
   if (n =? 0)%nat
   then Exit
   else
    if forallb (fun fs : list (list Z) => (n <=? length (cells fs))%nat) rows
    then Ok (flat_map (values strtod n) rows, Z.of_nat (length rows), Z.of_nat n)
    else UB NullDeref).
Proof. exact @C70_read_lemma. Qed.
Print Assumptions C70_read.

(** Such rows exist for every file of short lines, and every file is a number of lines (C70_file).
    *)
Theorem C70_rows :
  forall (bodies : list (list Z)) (last : list Z),
  Forall one_line bodies ->
  one_line last ->
  Forall (fun b : list Z => (length b < 199)%nat) bodies ->
  (length last <= 199)%nat ->
  ~ In 0 (file bodies last) -> exists rows : list (list (list Z)), csv_lines (file bodies last) rows.
Proof. exact @C70_rows_lemma. Qed.
Print Assumptions C70_rows.

(** Every file has lines. *)
Theorem C70_file :
  forall f : list Z,
  exists (bodies : list (list Z)) (last : list Z),
    f = file bodies last /\ Forall one_line bodies /\ one_line last.
Proof. exact @file_exists. Qed.
Print Assumptions C70_file.

(** Any file: the array read has rows times columns elements. *)
Theorem C70_length :
  forall (strtod : list Z -> f64) (f : list Z) (x : list (option f64)) (n d : Z),
  csv_read strtod f = Ok (x, n, d) -> len x = n * d.
Proof. exact @C70_length_lemma. Qed.
Print Assumptions C70_length.

(** Inputs and targets: the number of samples is that of the file of targets. A row below the number
    of rows of both is read; one beyond the rows of the inputs is read out of bounds. *)
Theorem C70_pair :
  forall (strtod : list Z -> f64) (fx fy : list Z) (x y : list (option f64)) (nx ny xd yd : Z),
  csv_read strtod fx = Ok (x, nx, xd) ->
  csv_read strtod fy = Ok (y, ny, yd) ->
  len x = nx * xd ->
  len y = ny * yd ->
  exists d : csv_input,
    csv_input_read strtod fx fy = Ok d /\
    ci_n_samples d = ny /\
    (forall row : Z,
     0 <= row < ci_n_samples d ->
     csv_sample d row =
     (if row <? nx
      then
       Ok
         (firstn (Z.to_nat xd) (skipn (Z.to_nat (row * xd)) x),
          firstn (Z.to_nat yd) (skipn (Z.to_nat (row * yd)) y))
      else UB OutOfBounds)).
Proof. exact @C70_pair_lemma. Qed.
Print Assumptions C70_pair.

(** REFUTED as stated: an empty line at the end, a line of 200 characters (NULL is dereferenced), an
    empty field (the columns shift). *)
Theorem C70_refuted :
  exists blank wide shifted : list Z,
    blank = table_text [[digit 1; digit 2]] ++ [NL] /\
    (forall strtod : list Z -> f64, csv_read strtod blank = UB NullDeref) /\
    wide = table_text [repeat (digit 1) 100] /\
    (forall strtod : list Z -> f64, csv_read strtod wide = UB NullDeref) /\
    shifted = table_text [[digit 1; []; digit 3]; [digit 4; digit 5; digit 6]] /\
    (forall strtod : list Z -> f64,
     csv_read strtod shifted =
     Ok
       ([Some (strtod (digit 1)); Some (strtod (digit 3 ++ [NL])); Some (strtod (digit 4));
         Some (strtod (digit 5))], 2, 2)).
Proof. exact @C70_refuted_lemma. Qed.
Print Assumptions C70_refuted.

(** The hypotheses are met: two rows of two columns. *)
Example C70_example : Forall (fun r => length r = 2%nat /\ Forall good_field r /\ (length (join r) < 199)%nat) [[digit 1; digit 2]; [digit 3; digit 4]] /\
  map Some (table_text [[digit 1; digit 2]; [digit 3; digit 4]]) = map Some [49; 44; 50; 10; 51; 44; 52; 10].
Proof.
  split; [|reflexivity].
  assert (G : forall d, 1 <= d <= 4 -> good_field (digit d)).
  { intros d D. unfold good_field, plain, digit, COMMA, NL. cbn [In]. repeat split; [discriminate| | |]; intros [H|[]]; lia. }
  repeat apply Forall_cons; try apply Forall_nil; (split; [reflexivity|]; split; [|cbn; lia]); repeat apply Forall_cons; try apply Forall_nil; apply G; lia.
Qed.
(** A file with fewer rows of inputs than of targets. *)
Example C70_pair_example :
  match csv_input_read (fun _ => f1) (table_text [[digit 1]]) (table_text [[digit 1]; [digit 2]]) with
  | Ok d => ci_n_samples d = 2 /\ csv_sample d 1 = UB OutOfBounds
  | _ => False
  end.
Proof. vm_compute. auto. Qed.
