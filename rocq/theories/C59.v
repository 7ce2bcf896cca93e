(** * C59 Averages of observed quantities stay in their hull. *)
From Coq Require Import ZArith Bool List Reals Lra.
From Flocq Require Import Core BinarySingleNaN.
From Verif Require Import Outcome F64 F64Facts F64Bounds Rng RngFacts Pop PopSpec PopInv PopUpdate PopTrial PopFit PopOps PopSeq PopClock PropClock Arr Cond Blas Pred Comp CompFacts Demo DemoEx PropAvg.
Import ListNotations.
Open Scope Z_scope.

(** Exact arithmetic, all BETA in [0,1] and all sequences of observations: the average stays in the
    hull of the initial value and the observations. *)
Theorem C59_exact :
  forall (b lo hi : R) (l : list R),
  (0 <= b <= 1)%R ->
  Forall (fun v : R => (lo <= v <= hi)%R) l ->
  forall a : R, (lo <= a <= hi)%R -> (lo <= fold_left (ravg b) l a <= hi)%R.
Proof. exact @C59_exact_lemma. Qed.
Print Assumptions C59_exact.

(** The averages kept per rule (error and set size), which begin as arithmetic means. *)
Theorem C59_rule_exact :
  forall (b lo hi : R) (l : list R),
  (0 <= b <= 1)%R ->
  Forall (fun v : R => (lo <= v <= hi)%R) l ->
  forall (n : nat) (a : R), (lo <= a <= hi)%R -> (lo <= rule_run b n l a <= hi)%R.
Proof. exact @C59_rule_exact_lemma. Qed.
Print Assumptions C59_rule_exact.

(** Double precision, BETA at most 1/2: the same, rounding included (for values up to 2^1022, beyond
    which a difference can overflow). *)
Theorem C59_double :
  forall (lo hi b : f64) (l : list f64),
  (- bpow radix2 1022 <= B2R lo)%R ->
  (B2R hi <= bpow radix2 1022)%R ->
  fin_in 0 (/ 2) b ->
  Forall (fin_in (B2R lo) (B2R hi)) l ->
  forall a : f64, fin_in (B2R lo) (B2R hi) a -> fin_in (B2R lo) (B2R hi) (fold_left (favg b) l a).
Proof. exact @C59_double_lemma. Qed.
Print Assumptions C59_double.

(** Double precision, all BETA in [0,1]: values between 0 and a power of two have averages between 0
    and that power of two. *)
Theorem C59_box :
  forall (k : Z) (b : f64) (l : list f64),
  0 <= k < 1023 ->
  fin_in 0 1 b ->
  Forall (fin_in 0 (bpow radix2 k)) l ->
  forall a : f64, fin_in 0 (bpow radix2 k) a -> fin_in 0 (bpow radix2 k) (fold_left (favg b) l a).
Proof. exact @C59_box_lemma. Qed.
Print Assumptions C59_box.

(** REFUTED in double precision for BETA = 1: the average of 1 and a smaller positive number can be
    0. *)
Theorem C59_refuted :
  exists a v : f64, flt f0 v = true /\ flt v a = true /\ feq (favg f1 a v) f0 = true.
Proof. exact @C59_refuted_lemma. Qed.
Print Assumptions C59_refuted.

(** The code: building a match set observes its size and the match fraction of the population; the
    other averages are left alone. *)
Theorem C59_match :
  forall (B : Type) (FO : Prop) (V : vtab B) (K : cfg) (kf : Z) (wf : B -> Prop)
    (mt : B -> list f64 -> Prop),
  cfg_ok K kf ->
  forall dom : list f64 -> Prop,
  vt_ok (dom := dom) FO V K wf mt ->
  forall (N : Z) (x : list f64) (cv : bool) (s : st B),
  0 <= N ->
  xok K dom x ->
  Inv K kf N wf s [] ->
  s_mset s = empty_set ->
  set_nm (s_pset s) <= POP_SIZE K ->
  hpost FO (clset_match V K x cv s)
    (fun (_ : unit) (s' : st B) =>
     exists cs : list (cl B),
       map (s_heap s') (set_list (s_pset s')) = map Some cs /\
       s_mset_size s' = favg (BETA K) (s_mset_size s) (of_Z (Z.of_nat (length (set_list (s_mset s'))))) /\
       s_mfrac s' = favg (BETA K) (s_mfrac s) (clset_mfrac K cs) /\
       s_aset_size s' = s_aset_size s /\ s_error s' = s_error s).
Proof. exact @C59_match_lemma. Qed.
Print Assumptions C59_match.

(** Building an action set observes its size only. *)
Theorem C59_action :
  forall (B : Type) (K : cfg) (a : Z) (s s' : st B),
  clset_action K a s = Ok (tt, s') ->
  s_aset_size s' = favg (BETA K) (s_aset_size s) (of_Z (set_sz (s_aset s'))) /\
  s_mset_size s' = s_mset_size s /\ s_mfrac s' = s_mfrac s /\ s_error s' = s_error s.
Proof. exact @C59_action_lemma. Qed.
Print Assumptions C59_action.

(** The system error. *)
Theorem C59_error :
  forall (B : Type) (K : cfg) (e : f64) (s : st B),
  exists s' : st B,
    update_error K e s = Ok (tt, s') /\
    s_error s' = favg (BETA K) (s_error s) e /\
    s_mset_size s' = s_mset_size s /\ s_aset_size s' = s_aset_size s /\ s_mfrac s' = s_mfrac s.
Proof. exact @C59_error_lemma. Qed.
Print Assumptions C59_error.

(** Six rules, four of which match. *)
Example C59_example :
  cfg_ok (Kl 2 (of_Z 2)) 0 /\ vt_ok (dom := any_x) True (rect_tab (Kl 2 (of_Z 2))) (Kl 2 (of_Z 2)) (rect_wf (Kl 2 (of_Z 2))) (rect_mt (Kl 2 (of_Z 2))) /\
  exists s : st body, is_ready 2 (of_Z 2) (cost 2 (of_Z 2) six) s /\
    run (clset_match (rect_tab (Kl 2 (of_Z 2))) (Kl 2 (of_Z 2)) x1 true) s (fun _ s' => (parts (s_mset_size s), parts (s_mset_size s'), set_sz (s_mset s'))) =
      (Some (None, Some (false, 7205759403792794%positive, -53), 4)).
Proof.
  split; [apply Kl_ok|split; [apply Vl_ok|]].
  apply (look_stage 2 (of_Z 2) six (fun s => run (clset_match (rect_tab (Kl 2 (of_Z 2))) (Kl 2 (of_Z 2)) x1 true) s (fun _ s' => (parts (s_mset_size s), parts (s_mset_size s'), set_sz (s_mset s')))) _);
    [apply six_fine|vm_compute; discriminate|vm_compute; reflexivity].
Qed.

(** BETA = 1/5: the average of 1 and then 3, 0 and 2 is between 0 and 3. *)
Example C59_numbers : (0 <= / 5 <= 1)%R /\ Forall (fun v => 0 <= v <= 3)%R [3; 0; 2]%R /\ fold_left (ravg (/ 5)) [3; 0; 2]%R 1%R = (162 / 125)%R.
Proof. split; [lra|]. split; [repeat constructor; lra|]. unfold ravg. cbn [fold_left]. field. Qed.
