(** * C20 Random integers stay in range. *)
From Coq Require Import ZArith Bool List.
From Verif Require Import Outcome F64 F64Facts F64Bounds Rng RngFacts Pop Arr ArrFacts Sam SamFacts Cond TernFacts RectFacts EllipFacts RandInt PropTern PropBox PropGrow PropRefCond Demo.
Import ListNotations.
Open Scope Z_scope.

(** REFUTED as stated: the upper bound itself can be drawn. (lo = 2, hi = 3; the draw u = 1 - 2^-53
    gives 2 + u, which rounds to 3.) *)
Theorem C20_refuted :
  exists (lo hi : Z) (g g' : rng),
    in_int lo = true /\ in_int hi = true /\ lo < hi /\ rand_uniform_int lo hi g = Ok (hi, g').
Proof. exact @refuted_witness. Qed.
Print Assumptions C20_refuted.

(** What holds for all int bounds: the closed range; one draw is used. *)
Theorem C20_closed_range :
  forall (lo hi : Z) (g : rng),
  in_int lo = true ->
  in_int hi = true ->
  lo < hi -> total (rand_uniform_int lo hi g) (fun '(z, g') => lo <= z <= hi /\ g' = advance g).
Proof. exact @C20_closed_lemma. Qed.
Print Assumptions C20_closed_range.

(** The upper bound is excluded when the width is at least the largest power of two not above it. *)
Theorem C20_range :
  forall (lo hi k : Z) (g : rng),
  in_int lo = true ->
  in_int hi = true ->
  0 <= k ->
  2 ^ k <= hi - lo ->
  - 2 ^ (k + 1) < hi <= 2 ^ (k + 1) ->
  total (rand_uniform_int lo hi g) (fun '(z, g') => lo <= z < hi /\ g' = advance g).
Proof. exact @rand_uniform_int_excl. Qed.
Print Assumptions C20_range.

(** In particular for every range starting at 0. *)
Theorem C20_from_zero :
  forall (n : Z) (g : rng),
  1 <= n <= int_max -> total (rand_uniform_int 0 n g) (fun '(z, g') => 0 <= z < n /\ g' = advance g).
Proof. exact @C20_zero_lemma. Qed.
Print Assumptions C20_from_zero.

(** And every value below n is drawn by some generator output. *)
Theorem C20_all_values :
  forall n z : Z,
  0 < n <= int_max ->
  0 <= z < n ->
  exists m : Z, forall g : rng, r_tape g (r_pos g) = m -> rand_uniform_int 0 n g = Ok (z, advance g).
Proof. exact @rand_uniform_int_all. Qed.
Print Assumptions C20_all_values.

(** Three draws below five, and a bad one. *)
Example C20_example :
  map (fun m => match rand_uniform_int 0 5 (mkRng (fun _ => m) 0 false f0) with Ok (z, _) => Some z | _ => None end)
    [0; 2 ^ 50; 2 ^ 52 - 1] = [Some 0; Some 1; Some 4] /\
  match rand_uniform_int 2 3 (mkRng (fun _ => 2 ^ 52 - 1) 0 false f0) with Ok (z, _) => Some z | _ => None end = Some 3.
Proof. split; vm_compute; reflexivity. Qed.
