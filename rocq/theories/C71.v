(** * C71 Configuration files are read without comments and blanks. *)
From Coq Require Import ZArith Bool List Lia.
From Verif Require Import Outcome Text PropText.
Import ListNotations.
Open Scope Z_scope.

(** Files of lines of at most 124 characters (a newline included) in which something is removed, for
    instance a newline: the text is that of the lines without blanks and comments. *)
Theorem C71_lines :
  forall (bodies : list (list Z)) (last : list Z),
  Forall one_line bodies ->
  one_line last ->
  Forall (fun b : list Z => (length b < 124)%nat) bodies ->
  (length last <= 124)%nat ->
  file bodies last <> [] ->
  bodies <> [] \/ strip last <> last ->
  config_read (file bodies last) = Ok (concat (map strip bodies) ++ strip last).
Proof. exact @C71_lines_lemma. Qed.
Print Assumptions C71_lines.

(** Every file: lines are read in pieces of at most 124 characters, each stripped by itself; the
    buffer overflows exactly if nothing at all is removed. *)
Theorem C71_read :
  forall f : list Z,
  f <> [] ->
  config_read f =
  (let t := concat (map strip (lines_read 125 f)) in
   if (length t <? length f)%nat then Ok t else UB OutOfBounds).
Proof. exact @C71_read_lemma. Qed.
Print Assumptions C71_read.

(** [strip]: the characters that are not blank, up to the first #. *)
Theorem C71_strip :
  forall l : list Z,
  ~ In 0 l ->
  exists rest : list Z,
    filter (fun c : Z => negb (existsb (Z.eqb c) [32; 9; 10; 13])) l = strip l ++ rest /\
    ~ In HASH (strip l) /\ (rest = [] \/ (exists r : list Z, rest = HASH :: r)).
Proof. exact @C71_strip_lemma. Qed.
Print Assumptions C71_strip.

(** The pieces are the file, and none is longer than the buffer. *)
Theorem C71_pieces :
  forall (size : nat) (f : list Z),
  (2 <= size)%nat ->
  concat (lines_read size f) = f /\ Forall (fun l : list Z => (length l < size)%nat) (lines_read size f).
Proof. exact @lines_all. Qed.
Print Assumptions C71_pieces.

(** REFUTED as stated: a file without newline, blank and comment is written one byte beyond the
    buffer; what follows the first 124 characters of a comment is taken for configuration. *)
Theorem C71_refuted :
  exists tight long : list Z,
    tight = [123; 125] /\
    config_read tight = UB OutOfBounds /\
    long = HASH :: repeat 97 123 ++ [98; NL; 123; 125; NL] /\ config_read long = Ok [98; 123; 125].
Proof. exact @C71_refuted_lemma. Qed.
Print Assumptions C71_refuted.

(** The hypotheses are met: a comment and a member. *)
Example C71_example : config_read (file [[HASH; 32; 97]; [123; 34; 97; 34; 58; 32; 49; 125; 32; HASH]] []) = Ok [123; 34; 97; 34; 58; 49; 125].
Proof. vm_compute. reflexivity. Qed.
