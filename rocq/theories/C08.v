(** * C08 Roulette selection never runs off the list. *)
From Coq Require Import ZArith Bool List.
From Verif Require Import Outcome F64 F64Facts F64Bounds Rng Pop PopSpec PopSel PopDel PopMset PopUpdate PopEA PopPA PopTrial PopFit PopRL PropTrial PropFrame PropSel PropRef Cond Pred Comp Demo DemoEx.
Import ListNotations.
Open Scope Z_scope.

(** A wheel over non-negative (possibly infinite) votes always selects a position in range, and it
    is the first whose running sum is not below the spin, in double precision. *)
Theorem C08_wheel_selects :
  forall vs : list f64,
  vs <> [] ->
  Forall fpos vs ->
  rpost False (p <- rand_uniform f0 (sum_list vs);; lift (spin_list p vs))
    (fun i : nat =>
     (i < length vs)%nat /\
     (exists p : f64,
        rout (rand_uniform f0 (sum_list vs)) p /\
        fgt p (cum vs i) = false /\ (forall j : nat, (j < i)%nat -> fgt p (cum vs j) = true))).
Proof. exact @C08_wheel_lemma. Qed.
Print Assumptions C08_wheel_selects.

(** The deletion wheel never ends without a rule, nor out of bounds. *)
Theorem C08_deletion_wheel :
  forall (B : Type) (V : vtab B) (K : cfg) (kf : Z) (wf : B -> Prop),
  cfg_ok K kf ->
  forall (N : Z) (err : f64) (pnum : Z) (cs : list (cl B)),
  cs <> [] ->
  Forall (rule_ok K kf N wf) cs ->
  Forall (fun c : cl B => 1 <= c_num c) cs ->
  rpost False (pset_roulette V K err pnum cs)
    (fun r : option nat =>
     exists i : nat, r = Some i /\ (i < length cs)%nat /\ wheel_choice V K err pnum cs i).
Proof. exact @C08_delete_lemma. Qed.
Print Assumptions C08_deletion_wheel.

(** Neither does the parent wheel. *)
Theorem C08_parent_wheel :
  forall (B : Type) (ls : list loc) (cs : list (cl B)),
  ls <> [] ->
  length ls = length cs ->
  Forall (fun c : cl B => fpos (c_fit c)) cs ->
  rpost False (ea_select_rw ls cs (total_fit cs)) (fun l : loc => In l ls /\ wheel_parent ls cs l).
Proof. exact @C08_parent_lemma. Qed.
Print Assumptions C08_parent_wheel.

(** Votes 0.1, 0, 0.3: a spin of 0.1 selects position 0; anything above, up to the sum, position 2. *)
Example C08_example :
  Forall fpos [lit 1 10; f0; lit 3 10] /\
  map (fun p => spin_list p [lit 1 10; f0; lit 3 10]) [lit 1 10; lit 2 10; sum_list [lit 1 10; f0; lit 3 10]] = [Ok 0%nat; Ok 2%nat; Ok 2%nat].
Proof. split; [repeat constructor|vm_compute; reflexivity]. Qed.
