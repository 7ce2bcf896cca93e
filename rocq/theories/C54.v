(** * C54 Batch training visits the intended samples and returns the mean loss. *)
From Coq Require Import ZArith Bool List.
From Verif Require Import Outcome F64 F64Facts F64Bounds Rng RngFacts Pop PopSpec PopInv PopUpdate PopPA PopTrial PopFit PopRL PopOps PopSeq Arr Cond Blas Pred Comp CompFacts Demo DemoEx PropStore PropMulti.
Import ListNotations.
Open Scope Z_scope.

(** Fitting: one trial per row of the list [rows], which has the requested length and only rows in
    range; without shuffling it is start, start + 1, ... modulo the number of rows. The result is
    the mean of the losses of the trials, each computed from the prediction made in that trial
    (before its update took effect on the prediction array). With a test set every trial is followed
    by a trial on a row of it that does not learn. *)
Theorem C54_fit :
  forall (FO : Prop) (B : Type) (V : vtab B) (K : cfg) (kf : Z) (wf : B -> Prop)
    (mt : B -> list f64 -> Prop) (dom : list f64 -> Prop),
  cfg_ok K kf ->
  vt_ok (dom := dom) FO V K wf mt ->
  (ea_tournament K = true -> FO) ->
  forall (N : Z) (d : input) (test : option input) (shuffle : bool) (start trials : Z) (s : st B),
  0 <= N ->
  0 <= trials ->
  N + trials <= 2 ^ 53 ->
  Good K kf N wf s ->
  data_ok (dom := dom) K d ->
  (forall t : input, test = Some t -> data_ok (dom := dom) K t) ->
  0 <= start ->
  hpost FO (supervised_fit V K d test shuffle start trials s)
    (fun (e : f64) (s' : st B) =>
     exists (rows : list Z) (es : list f64),
       Z.of_nat (length es) = trials /\
       length rows = length es /\
       Forall (fun r : Z => 0 <= r < n_samples d) rows /\
       (shuffle = false ->
        rows = map (fun k : nat => (start + Z.of_nat k) mod n_samples d) (seq 0 (length es))) /\
       trained V K wf mt d test shuffle start rows es s s' /\
       e = fdiv (fold_left fadd es f0) (of_Z trials) /\ Good K kf (N + trials) wf s').
Proof. exact @C54_fit_lemma. Qed.
Print Assumptions C54_fit.

(** Scoring visits all rows in order and returns the mean loss over them. *)
Theorem C54_score_all :
  forall (FO : Prop) (B : Type) (V : vtab B) (K : cfg) (kf : Z) (wf : B -> Prop)
    (mt : B -> list f64 -> Prop) (dom : list f64 -> Prop),
  cfg_ok K kf ->
  vt_ok (dom := dom) FO V K wf mt ->
  (ea_tournament K = true -> FO) ->
  forall (N : Z) (d : input) (cover : option (list f64)) (s : st B),
  0 <= N ->
  Good K kf N wf s ->
  data_ok (dom := dom) K d ->
  cover_ok K cover ->
  hpost FO (supervised_score V K d cover s)
    (fun (e : f64) (s' : st B) =>
     exists es : list f64,
       Z.of_nat (length es) = n_samples d /\
       visited V K wf mt d cover (map Z.of_nat (seq 0 (length es))) es (with_explore false s) s' /\
       e = fdiv (fold_left fadd es f0) (of_Z (n_samples d)) /\ Good K kf N wf s').
Proof. exact @C54_score_all_lemma. Qed.
Print Assumptions C54_score_all.

(** Scoring with a limit visits min(limit, number of rows) rows, all in range (all rows in order if
    the limit exceeds their number), and returns the mean loss over the visited rows. *)
Theorem C54_score :
  forall (FO : Prop) (B : Type) (V : vtab B) (K : cfg) (kf : Z) (wf : B -> Prop)
    (mt : B -> list f64 -> Prop) (dom : list f64 -> Prop),
  cfg_ok K kf ->
  vt_ok (dom := dom) FO V K wf mt ->
  (ea_tournament K = true -> FO) ->
  forall (N : Z) (d : input) (n : Z) (cover : option (list f64)) (s : st B),
  0 <= N ->
  0 <= n ->
  Good K kf N wf s ->
  data_ok (dom := dom) K d ->
  cover_ok K cover ->
  hpost FO (supervised_score_n V K d n cover s)
    (fun (e : f64) (s' : st B) =>
     exists (rows : list Z) (es : list f64),
       length rows = length es /\
       Z.of_nat (length es) = Z.min n (n_samples d) /\
       Forall (fun r : Z => 0 <= r < n_samples d) rows /\
       (n_samples d < n -> rows = map Z.of_nat (seq 0 (length es))) /\
       visited V K wf mt d cover rows es (with_explore false s) s' /\
       e = fdiv (fold_left fadd es f0) (of_Z (Z.min n (n_samples d))) /\ Good K kf N wf s').
Proof. exact @C54_score_lemma. Qed.
Print Assumptions C54_score.

(** Four trials on three rows starting with row 2; scoring two rows; scoring all. *)
Example C54_example :
  cfg_ok (Kl 2 (of_Z 2)) 0 /\ vt_ok (dom := any_x) True (rect_tab (Kl 2 (of_Z 2))) (Kl 2 (of_Z 2)) (rect_wf (Kl 2 (of_Z 2))) (rect_mt (Kl 2 (of_Z 2))) /\
  exists s : st body, is_ready 2 (of_Z 2) (cost 2 (of_Z 2) six) s /\
    (run (supervised_fit (rect_tab (Kl 2 (of_Z 2))) (Kl 2 (of_Z 2)) demo_data None false 2 4) s (fun e s' => (parts e, s_time s')), run (supervised_score_n (rect_tab (Kl 2 (of_Z 2))) (Kl 2 (of_Z 2)) demo_data 2 None) s (fun e _ => parts e), run (supervised_score (rect_tab (Kl 2 (of_Z 2))) (Kl 2 (of_Z 2)) demo_data None) s (fun e _ => parts e)) =
      (Some (Some (false, 5701371884078251%positive, -54), 4), Some (Some (false, 4712898619568591%positive, -55)),
       Some (Some (false, 7062086841701076%positive, -56))).
Proof.
  split; [apply Kl_ok|split; [apply Vl_ok|]].
  apply (look_stage 2 (of_Z 2) six (fun s => (run (supervised_fit (rect_tab (Kl 2 (of_Z 2))) (Kl 2 (of_Z 2)) demo_data None false 2 4) s (fun e s' => (parts e, s_time s')), run (supervised_score_n (rect_tab (Kl 2 (of_Z 2))) (Kl 2 (of_Z 2)) demo_data 2 None) s (fun e _ => parts e), run (supervised_score (rect_tab (Kl 2 (of_Z 2))) (Kl 2 (of_Z 2)) demo_data None) s (fun e _ => parts e))) _);
    [apply six_fine|vm_compute; discriminate|vm_compute; reflexivity].
Qed.
