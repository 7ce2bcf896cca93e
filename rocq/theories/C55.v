(** * C55 Python fit runs the requested number of trials. *)
From Coq Require Import ZArith Bool List Reals Lia.
From Flocq Require Import Core BinarySingleNaN.
From Verif Require Import Outcome F64 F64Facts F64Bounds Rng Pop PopSpec PopInv PopTrial PopFit PopOps PopSeq PopKeep PropMulti PropStore Clock Py PopTick PropPy PropEarly PropCover Arr Cond Pred Comp CompFacts Demo DemoEx PropPyRef.
Import ListNotations.
Open Scope Z_scope.

(** REFUTED as stated: with MAX_TRIALS = 3 and PERF_TRIALS = 2, four trials are run. *)
Theorem C55_refuted :
  exists (mx pf : Z) (s s' : st body) (r : list callback * py),
    1 <= mx <= int_max /\
    1 <= pf <= int_max /\
    Good (Kn 1) 0 0 (rect_wf (Kn 1)) s /\
    s_time s = 0 /\
    py_fit (rect_tab (Kn 1)) (Kn 1) mx pf demo_data None false true [] py0 s = Ok (r, s') /\
    mx = 3 /\ s_time s' = 4.
Proof. exact @C55_refuted_lemma. Qed.
Print Assumptions C55_refuted.

(** The number of epochs, computed by ceil in double precision, is the exact ceiling of MAX_TRIALS /
    PERF_TRIALS for all positive ints. *)
Theorem C55_epochs :
  forall mx pf : Z, 1 <= mx <= int_max -> 1 <= pf <= int_max -> n_epochs mx pf = Ok ((mx + pf - 1) / pf).
Proof. exact @n_epochs_eq. Qed.
Print Assumptions C55_epochs.

(** What fit does instead, whenever it ends: the clock advances by (number of epochs) *
    min(MAX_TRIALS, PERF_TRIALS). *)
Theorem C55_count :
  forall (B : Type) (V : vtab B) (K : cfg) (mx pf : Z) (d : input) (val : option input) (shuffle warm : bool)
    (p : py) (calls' : list callback) (p' : py) (s s' : st B),
  1 <= mx <= int_max -> 1 <= pf <= int_max ->
  py_fit V K mx pf d val shuffle warm [] p s = Ok ((calls', p'), s') ->
  s_time s' = (if warm then s_time s else 0) + (mx + pf - 1) / pf * Z.min mx pf /\
  p_counter p' = p_counter p + (mx + pf - 1) / pf.
Proof. exact @C55_count_lemma. Qed.
Print Assumptions C55_count.

(** That number is never too small and less than PERF_TRIALS too large; it is right exactly when
    MAX_TRIALS <= PERF_TRIALS or PERF_TRIALS divides MAX_TRIALS. *)
Theorem C55_exact :
  forall mx pf : Z, 1 <= mx -> 1 <= pf ->
  mx <= (mx + pf - 1) / pf * Z.min mx pf < mx + pf /\
  ((mx + pf - 1) / pf * Z.min mx pf = mx <-> mx <= pf \/ (pf | mx)).
Proof. exact @total_bounds. Qed.
Print Assumptions C55_exact.

(** The trials: without validation and callbacks, one training trial per row, on row k mod n in
    trial k unless the rows are shuffled; the state afterwards satisfies the invariant. [trained]
    (PropMulti.v) is the chain of trials. *)
Theorem C55_rows :
  forall (FO : Prop) (B : Type) (V : vtab B) (K : cfg) (kf : Z) (wf : B -> Prop)
    (mt : B -> list f64 -> Prop) (dom : list f64 -> Prop),
  cfg_ok K kf ->
  vt_ok (dom := dom) FO V K wf mt ->
  (ea_tournament K = true -> FO) ->
  forall (N mx pf : Z) (d : input) (shuffle : bool) (p : py) (s : st B),
  1 <= mx <= int_max ->
  1 <= pf <= int_max ->
  0 <= N ->
  N + total_trials mx pf <= 2 ^ 53 ->
  Good K kf N wf s ->
  data_ok (dom := dom) K d ->
  0 <= p_counter p ->
  (p_counter p + total_epochs mx pf) * Z.min mx pf <= int_max ->
  p_counter p + total_epochs mx pf <= int_max ->
  hpost FO (py_fit V K mx pf d None shuffle true [] p s)
    (fun (_ : list callback * py) (s' : st B) =>
     Good K kf (N + total_trials mx pf) wf s' /\
     (exists (rows : list Z) (es : list f64),
        Z.of_nat (length es) = total_trials mx pf /\
        length rows = length es /\
        Forall (fun r : Z => 0 <= r < n_samples d) rows /\
        (shuffle = false -> rows = map (fun k : nat => Z.of_nat k mod n_samples d) (seq 0 (length es))) /\
        trained V K wf mt d None shuffle 0 rows es s s')).
Proof. exact @C55_rows_lemma. Qed.
Print Assumptions C55_rows.

(** MAX_TRIALS = 3, PERF_TRIALS = 2. *)
Example C55_example : n_epochs 3 2 = Ok 2 /\ total_trials 3 2 = 4 /\ total_trials 1500 1000 = 2000 /\ total_trials 2147483647 1000 = 2147484000 /\
  total_trials 100000 1000 = 100000.
Proof. repeat split; vm_compute; reflexivity. Qed.
