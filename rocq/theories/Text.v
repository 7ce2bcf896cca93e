(** * Reading text files: CSV data sets and configuration files.

    /repo/xcsf/env_csv.c and /repo/xcsf/config.c, with the functions of the C library they use.
    A file is the list of its bytes.  Opening and closing files, messages and read errors are
    left out.  [strtod] is an oracle. *)
From Coq Require Import ZArith Bool List.
From Verif Require Import Outcome F64 Rng Arr.
Import ListNotations.
Open Scope Z_scope.

(** ** The C library *)

Definition NL : Z := 10.
Definition COMMA : Z := 44.
Definition HASH : Z := 35.

(** fgets(buf, size, f): at most size - 1 characters, up to and including the first newline;
    NULL at the end of the file. *)
Fixpoint take_line (n : nat) (s : list Z) : list Z * list Z :=
  match n, s with
  | O, _ => ([], s)
  | S m, [] => ([], [])
  | S m, c :: r => if c =? NL then ([c], r) else let '(l, r') := take_line m r in (c :: l, r')
  end.
Definition fgets (size : nat) (s : list Z) : option (list Z * list Z) :=
  match s with [] => None | _ => Some (take_line (size - 1) s) end.
(** The results of calling fgets until it returns NULL, as in
    [while (fgets(line, size, f) != NULL)].  Every call takes a character when size is at least
    two, so the number of calls is bounded by the length of the file. *)
Fixpoint fgets_all (fuel size : nat) (s : list Z) : list (list Z) :=
  match fuel with
  | O => []
  | S k => match fgets size s with None => [] | Some (l, r) => l :: fgets_all k size r end
  end.
Definition lines_read (size : nat) (s : list Z) : list (list Z) := fgets_all (length s) size s.

(** The C string in a buffer: what comes before the first NUL. *)
Fixpoint cstr (l : list Z) : list Z :=
  match l with [] => [] | c :: r => if c =? 0 then [] else c :: cstr r end.

(** strtok_r with the delimiter ",": the next token and what is left, or NULL. *)
Fixpoint skip_delim (s : list Z) : list Z :=
  match s with c :: r => if c =? COMMA then skip_delim r else s | [] => [] end.
Fixpoint token (s : list Z) : list Z * list Z :=
  match s with
  | [] => ([], [])
  | c :: r => if c =? COMMA then ([], r) else let '(t, r') := token r in (c :: t, r')
  end.
Definition strtok (s : list Z) : option (list Z * list Z) :=
  match skip_delim s with [] => None | s' => Some (token s') end.

(** ** env_csv.c *)
Section Csv.
(** strtod(str, &endptr): the value of the longest prefix that is a number, zero if none. *)
Context (strtod : list Z -> f64).

(** env_csv.c:27-28 *)
Definition MAX_COLS : nat := 200.

(** env_csv.c:37-46 env_csv_samples *)
Definition csv_samples (f : list Z) : Z := Z.of_nat (length (lines_read MAX_COLS f)).

(** env_csv.c:53-70 env_csv_dim; a token is never empty, so the test of its length always
    holds.  Each token takes a character, so the loop is bounded by the length of the line. *)
Fixpoint count_tokens (fuel : nat) (s : list Z) (n : Z) : outcome Z :=
  match fuel with
  | O => OutOfFuel
  | S k => match strtok s with
           | None => Ok n
           | Some (t, r) => count_tokens k r (if 0 <? Z.of_nat (length t) then n + 1 else n)
           end
  end.
Definition csv_dim (f : list Z) : outcome Z :=
  match fgets MAX_COLS f with
  | None => Ok 0
  | Some (l, _) => count_tokens (S (length l)) (cstr l) 0
  end.

(** env_csv.c:79-101 env_csv_read_data.  strtod of NULL is undefined. *)
Definition next_number (s : list Z) : outcome (f64 * list Z) :=
  match strtok s with None => UB NullDeref | Some (t, r) => Ok (strtod t, r) end.
Definition read_row (n_dim i : Z) (line : list Z) (data : list (option f64)) : outcome (list (option f64)) :=
  (p <- next_number (cstr line) ;;
   data <- wr data (i * n_dim) (Some (fst p)) ;;
   r <- ofor (n_dim - 1) (fun j (r : list (option f64) * list Z) =>
          (p <- next_number (snd r) ;;
           data <- wr (fst r) (i * n_dim + (1 + j)) (Some (fst p)) ;;
           Ok (data, snd p))) (data, snd p) ;;
   Ok (fst r))%out.
Fixpoint read_rows (n_samples n_dim i : Z) (lines : list (list Z)) (data : list (option f64)) : outcome (list (option f64)) :=
  match lines with
  | [] => Ok data
  | l :: ls => if i <? n_samples then (data <- read_row n_dim i l data ;; read_rows n_samples n_dim (i + 1) ls data)%out else Ok data
  end.
Definition csv_read_data (f : list Z) (n_samples n_dim : Z) : outcome (list (option f64)) :=
  read_rows n_samples n_dim 0 (lines_read MAX_COLS f) (repeat None (Z.to_nat (n_dim * n_samples))).

(** env_csv.c:111-130 env_csv_read: the data, the number of samples and of columns. *)
Definition csv_read (f : list Z) : outcome (list (option f64) * Z * Z) :=
  let n_samples := csv_samples f in
  (n_dim <- csv_dim f ;;
   if (0 <? n_samples) && (0 <? n_dim) then
     (data <- csv_read_data f n_samples n_dim ;; Ok (data, n_samples, n_dim))
   else Exit)%out.

(** xcsf.h struct Input and env_csv.c:139-158 env_csv_input_read for one of the two data sets:
    the number of samples is written twice. *)
Record csv_input := mkCsvInput {
  ci_x : list (option f64); ci_y : list (option f64); ci_x_dim : Z; ci_y_dim : Z; ci_n_samples : Z
}.
Definition csv_input_read (fx fy : list Z) : outcome csv_input :=
  (x <- csv_read fx ;;
   y <- csv_read fy ;;
   Ok (mkCsvInput (fst (fst x)) (fst (fst y)) (snd x) (snd y) (snd (fst y))))%out.
(** xcs_supervised.c:102-104: the sample of a row, as the trial reads it. *)
Definition csv_sample (d : csv_input) (row : Z) : outcome (list (option f64) * list (option f64)) :=
  (x <- ofor (ci_x_dim d) (fun j l => (v <- rd (ci_x d) (row * ci_x_dim d + j) ;; Ok (l ++ [v]))) [] ;;
   y <- ofor (ci_y_dim d) (fun j l => (v <- rd (ci_y d) (row * ci_y_dim d + j) ;; Ok (l ++ [v]))) [] ;;
   Ok (x, y))%out.
End Csv.

(** ** config.c *)

(** config.c:28 *)
Definition MAXLEN : nat := 127.

(** config.c:34-43 config_trim: blanks, tabs, newlines and carriage returns are removed. *)
Definition is_blank (c : Z) : bool := (c =? 32) || (c =? 9) || (c =? NL) || (c =? 13).
Fixpoint config_trim (s : list Z) : list Z :=
  match s with [] => [] | c :: r => if is_blank c then config_trim r else c :: config_trim r end.
(** config.c:71-74 strchr and the NUL written at the '#'. *)
Fixpoint cut_hash (s : list Z) : list Z :=
  match s with [] => [] | c :: r => if c =? HASH then [] else c :: cut_hash r end.
(** config.c:75 strncat(file_buff, line, MAXLEN): the characters and a NUL must fit in the
    buffer of [cap] bytes. *)
Definition strncat (cap : Z) (dst src : list Z) : outcome (list Z) :=
  let r := dst ++ firstn MAXLEN src in
  if Z.of_nat (length r) + 1 <=? cap then Ok r else UB OutOfBounds.
Definition config_line (cap : Z) (buf line : list Z) : outcome (list Z) :=
  let l := config_trim (cstr line) in
  match l with
  | [] => Ok buf
  | c :: _ => if c =? HASH then Ok buf else strncat cap buf (cut_hash l)
  end.
Fixpoint config_lines (cap : Z) (buf : list Z) (lines : list (list Z)) : outcome (list Z) :=
  match lines with
  | [] => Ok buf
  | l :: ls => (buf <- config_line cap buf l ;; config_lines cap buf ls)%out
  end.
(** config.c:49-79 config_read: the text passed to param_json_import.  The buffer has as many
    bytes as the file, and its first is written at once.  fgets is given MAXLEN - 2. *)
Definition config_read (f : list Z) : outcome (list Z) :=
  let cap := Z.of_nat (length f) in
  if cap <? 1 then UB OutOfBounds else config_lines cap [] (lines_read (MAXLEN - 2) f).
