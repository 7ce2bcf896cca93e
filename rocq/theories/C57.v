(** * C57 Early stopping keeps the best population. *)
From Coq Require Import ZArith Bool List Reals Lia.
From Flocq Require Import Core BinarySingleNaN.
From Verif Require Import Outcome F64 F64Facts F64Bounds Rng Pop PopSpec PopInv PopTrial PopFit PopOps PopSeq PopKeep PropMulti PropStore Clock Py PopTick PropPy PropEarly PropCover Arr Cond Pred Comp CompFacts Demo DemoEx PropPyRef.
Import ListNotations.
Open Scope Z_scope.

(** fit with one new early-stopping callback. The observations h are those of consecutive epochs
    ([watched], PropEarly.v: number of trials, monitored error, system after the epoch; with restore
    on, the population is stored at every improvement). Training stops exactly after the first
    observation for which [gives_up] holds (the observation is monitored and its number of trials
    minus the patience exceeds that of the best), or after all epochs. Without restore the system is
    the last one; with restore its population is a copy of the one at the best observation (rules in
    reverse order, each stored as described in C33), unless that population was empty; without any
    improvement it is the last one if nothing had been stored before. *)
Theorem C57_early_stopping :
  forall (B : Type) (V : vtab B) (K : cfg) (FO : Prop) (kf : Z) (wf : B -> Prop)
    (mt : B -> list f64 -> Prop) (dom : list f64 -> Prop),
  cfg_ok K kf ->
  vt_ok (dom := dom) FO V K wf mt ->
  (ea_tournament K = true -> FO) ->
  forall (N mx pf : Z) (d : input) (v : option input) (shuffle warm : bool) (p : py) 
    (s : st B) (val restore : bool) (patience start : Z) (delta : f64) (c : early),
  early_new val patience restore delta start = Return c ->
  patience <= int_max ->
  1 <= mx <= int_max ->
  1 <= pf <= int_max ->
  0 <= N ->
  N + total_trials mx pf <= 2 ^ 53 ->
  Good K kf N wf s ->
  data_ok (dom := dom) K d ->
  (forall t : input, v = Some t -> data_ok (dom := dom) K t) ->
  0 <= p_counter p ->
  (p_counter p + total_epochs mx pf) * Z.min mx pf <= int_max ->
  p_counter p + total_epochs mx pf <= int_max ->
  hpost FO (py_fit V K mx pf d v shuffle warm [Early c] p s)
    (fun (_ : list callback * py) (s' : st B) =>
     exists (s0 : st B) (h : list (@obs B)) (s1 : st B),
       (if warm then s0 = s else s_prev_pset s0 = empty_set /\ s_time s0 = 0) /\
       watched V K start delta val restore d v shuffle (Z.min mx pf) 0 (p_counter p) [] h s0 s1 /\
       (forall h1 h2 : list (@obs B),
        h = h1 ++ h2 -> h1 <> [] -> h2 <> [] -> ~ gives_up start patience delta h1) /\
       h <> [] /\
       (gives_up start patience delta h \/ Z.of_nat (length h) = total_epochs mx pf) /\
       (restore = false -> s' = s1) /\
       (restore = true ->
        match best start delta h with
        | Some w => set_list (s_pset (o_sys w)) <> [] -> copy_of V K (o_sys w) s'
        | None => set_list (s_prev_pset s0) = [] -> s' = s1
        end)).
Proof. exact @C57_lemma. Qed.
Print Assumptions C57_early_stopping.

(** What [best] finds: an observation such that no monitored error is below its error minus
    min_delta, and all monitored errors before it are larger (or NaN); none if no monitored error is
    below DBL_MAX - min_delta. *)
Theorem C57_best :
  forall (B : Type) (start : Z) (delta : f64) (h : list (@obs B)),
  fpos delta ->
  match best start delta h with
  | Some w =>
      exists h1 h2 : list (@obs B),
        h = h1 ++ w :: h2 /\
        start <= o_trial w /\
        nn (o_error w) /\
        (X (o_error w) < bnd)%R /\
        (forall o : @obs B, In o h -> start <= o_trial o -> flt (o_error o) (fsub (o_error w) delta) = false) /\
        (forall o : @obs B, In o h1 -> start <= o_trial o -> fle (o_error o) (o_error w) = false)
  | None => forall o : @obs B, In o h -> start <= o_trial o -> flt (o_error o) (fsub dbl_max delta) = false
  end.
Proof. exact @best_facts. Qed.
Print Assumptions C57_best.

(** REFUTED for errors that are not numbers: nothing was stored by the callback, yet whatever had
    been stored before is put back. *)
Theorem C57_refuted :
  exists c : early,
    early_new false 0 true f0 0 = Return c /\
    (forall (B : Type) (V : vtab B) (K : cfg) (kf : Z) (wf : B -> Prop) (N : Z) (s : st B),
     cfg_ok K kf ->
     Good K kf N wf s ->
     set_list (s_prev_pset s) <> [] ->
     exists s' : st B, early_run V K c fnan 1 s = Ok (c, true, s') /\ s_pset s' = s_prev_pset s).
Proof. exact @C57_refuted_lemma. Qed.
Print Assumptions C57_refuted.

(** Patience 2, restore: trials 1 to 4 are run (errors 0, 1, ...), and the population after trial 1 comes back. *)
Example C57_example : exists s r s', Good (Kn 1) 0 0 (rect_wf (Kn 1)) s /\ s_time s = 0 /\
  early_new false 2 true f0 0 = Return (mkEarly false 2 true f0 0 dbl_max 0 false) /\
  py_fit (rect_tab (Kn 1)) (Kn 1) 8 1 demo_data None false true [Early (mkEarly false 2 true f0 0 dbl_max 0 false)] py0 s = Ok (r, s') /\
  (p_trials (snd r), map (fun e => flt f0 e) (p_train (snd r)), set_list (s_pset s'), set_list (s_prev_pset s')) =
    ([4; 3; 2; 1], [true; true; true; false], [1%nat], []).
Proof.
  edestruct (fresh_done 1 (py_fit (rect_tab (Kn 1)) (Kn 1) 8 1 demo_data None false true [Early (mkEarly false 2 true f0 0 dbl_max 0 false)] py0)
    (fun r s' => (p_trials (snd r), map (fun e => flt f0 e) (p_train (snd r)), set_list (s_pset s'), set_list (s_prev_pset s')))) as (s & r & s' & G & T0 & E & F);
    [unfold int_max; lia|vm_compute; reflexivity|].
  exists s, r, s'. split; [exact G|]. split; [exact T0|]. split; [reflexivity|]. split; [exact E|exact F].
Qed.
