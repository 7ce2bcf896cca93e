(** * Random connections of DGP graphs reach every input and every node (C40). *)
From Coq Require Import ZArith Bool List Lia.
From Verif Require Import Outcome F64 Rng RngFacts RandInt Dgp.
Import ListNotations.
Open Scope Z_scope.

(** Inputs are the numbers below [ni], nodes those from [ni]. *)
Lemma connection_all nn ni c : 0 < nn <= int_max -> 0 < ni <= int_max -> 0 <= c < nn + ni ->
  exists m1 m2, forall g, r_tape g (r_pos g) = m1 -> r_tape g (S (r_pos g)) = m2 ->
    random_connection nn ni g = Ok (c, advance (advance g)).
Proof.
  intros Hn Hi Hc.
  assert (U : forall m g, r_tape g (r_pos g) = m -> rand_uniform f0 f1 g = Ok (fadd f0 (fmul (draw_value m) (fsub f1 f0)), advance g)).
  { intros m g <-. reflexivity. }
  destruct (Z.lt_ge_cases c ni) as [L|L].
  - destruct (rand_uniform_int_all ni c Hi ltac:(lia)) as (m2 & E2). exists (2 ^ 52 - 1), m2. intros g G1 G2.
    unfold random_connection, bind. rewrite (U _ _ G1).
    replace (flt (fadd f0 (fmul (draw_value (2 ^ 52 - 1)) (fsub f1 f0))) fhalf) with false by (vm_compute; reflexivity).
    apply E2. exact G2.
  - destruct (rand_uniform_int_all nn (c - ni) Hn ltac:(lia)) as (m2 & E2). exists 1, m2. intros g G1 G2.
    unfold random_connection, bind. rewrite (U _ _ G1).
    replace (flt (fadd f0 (fmul (draw_value 1) (fsub f1 f0))) fhalf) with true by (vm_compute; reflexivity).
    rewrite (E2 (advance g) G2). unfold ret. replace (c - ni + ni) with c by lia. reflexivity.
Qed.
