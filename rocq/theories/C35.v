(** * C35 A loaded system can be used safely. *)
From Coq Require Import ZArith Bool List.
From Verif Require Import Outcome F64 Rng Pop Cond Pred Demo Comp Arr ArrFacts Param File FileFacts PropFile FileOver Pa PaFacts PropPa.
Import ListNotations.
Open Scope Z_scope.

(** Loading any file, whatever the outcome of C34, leaves the arrays pa and nr of the existing
    system as they are. *)
Theorem C35_load :
  forall (K : cfg) (log2 : f64 -> f64) (y0 : system) (c : list cell) (s0 : st body) 
    (y1 : system) (rest : list cell) (s1 : st body),
  xcsf_load K log2 y0 c s0 = Ok (y1, rest, s1) -> s_pa s1 = s_pa s0 /\ s_nr s1 = s_nr s0.
Proof. exact @C35_load_lemma. Qed.
Print Assumptions C35_load.

(** A trial (learning or predicting, with or without a cover array) after loading a file.  [fresh]:
    the same system with arrays of the loaded dimensions.  If the existing arrays have at least
    n_actions * y_dim elements for the loaded dimensions, the trial does exactly what it would do
    with fresh arrays, inside of the existing ones.  If they are shorter, building the prediction
    array writes outside of them. *)
Theorem C35_loaded :
  forall (K : cfg) (log2 : f64 -> f64) (V : vtab body) (y0 : system) (c : list cell) 
    (s0 : st body) (y1 : system) (rest : list cell) (s1 : st body) (h : shape) 
    (x y : list f64) (cover : option (list f64)) (s2 : st body),
  xcsf_load K log2 y0 c s0 = Ok (y1, rest, s1) ->
  shape_of (y_par y1) = Ok h ->
  1 <= sh_n h ->
  1 <= sh_y h ->
  len (s_nr s0) = len (s_pa s0) ->
  let K1 := with_dims K h in
  supervised_trial V K1 x y cover (fresh K1 s1) = Ok (tt, s2) ->
  (sh_n h * sh_y h <= len (s_pa s0) ->
   (forall cv : list f64, cover = Some cv -> len (s_pa s0) <= len cv) ->
   exists pa nr : list f64,
     supervised_trial_c V K1 x y cover s1 = Ok (tt, with_pa pa nr s2) /\
     len pa = len (s_pa s0) /\ len nr = len (s_pa s0) /\ firstn (Z.to_nat (sh_n h * sh_y h)) pa = s_pa s2) /\
  (len (s_pa s0) < sh_n h * sh_y h ->
   (forall s : st body,
    matching V K1 x (is_none cover) s1 = Ok (tt, s) -> cover = None \/ 1 <= set_sz (s_mset s)) ->
   supervised_trial_c V K1 x y cover s1 = UB OutOfBounds).
Proof. exact @C35_loaded_lemma. Qed.
Print Assumptions C35_loaded.

(** A system that keeps the dimensions it was created with: the model of Pop.v, on which the other
    properties are proved, is the same as the one over the actual arrays. *)
Theorem C35_same :
  forall (B : Type) (V : vtab B) (K : cfg),
  1 <= n_actions K ->
  1 <= y_dim K ->
  forall (x y : list f64) (cover : option (list f64)) (s : st B),
  len (s_pa s) = n_actions K * y_dim K ->
  len (s_nr s) = n_actions K * y_dim K ->
  supervised_trial_c V K x y cover s = supervised_trial V K x y cover s.
Proof. exact @C35_same_lemma. Qed.
Print Assumptions C35_same.

(** REFUTED as stated: a file of a system with two outputs and two actions, loaded into a system
    with one output and two actions.  A system created with the dimensions of the file can predict;
    the loaded one writes outside of its array. *)
Theorem C35_refuted :
  exists
    (y : system) (s : st body) (h : shape) (rs : list (cl body)) (y0 : system) 
  (s0 : st body) (cells : list cell) (y1 : system) (s1 : st body) (x cover : list f64),
    savable y /\
    savable y0 /\
    shape_of (y_par y) = Ok h /\
    population s rs /\
    Forall (rule_fits K0 small_log2 h) rs /\
    disposable s0 /\
    (exists h0 : shape,
       shape_of (y_par y0) = Ok h0 /\
       len (s_pa s0) = sh_n h0 * sh_y h0 /\
       len (s_nr s0) = sh_n h0 * sh_y h0 /\ len cover = sh_n h0 * sh_y h0) /\
    xcsf_save y s = Ok cells /\
    xcsf_load K0 small_log2 y0 cells s0 = Ok (y1, [], s1) /\
    shape_of (y_par y1) = Ok h /\
    (let K1 := with_dims K0 h in
     done
       (supervised_trial (body_tab K1) K1 x [] (Some (zeros (sh_n h * sh_y h)))
          (with_explore false (fresh K1 s1))) = true /\
     supervised_trial_c (body_tab K1) K1 x [] (Some cover) (with_explore false s1) = UB OutOfBounds).
Proof. exact @C35_refuted_lemma. Qed.
Print Assumptions C35_refuted.

(** Loading a file with fewer outputs: the trial succeeds and the arrays keep their four elements. *)
Example C35_example : let s0 := with_pa (Pop.zeros 4) (Pop.zeros 4) wide_state in let K1 := with_dims K0 small_shape in
  match xcsf_load K0 small_log2 (small_sys 1 2 2) narrow_file s0 with
  | Ok (_, s1) =>
      match supervised_trial (body_tab K1) K1 [fhalf; f1] [f1] None (fresh K1 s1), supervised_trial_c (body_tab K1) K1 [fhalf; f1] [f1] None s1 with
      | Ok (_, s2), Ok (_, s3) => length (s_pa s3) = 4%nat /\ length (s_pa s2) = 2%nat /\ forallb (fun p => feq (fst p) (snd p)) (combine (s_pa s2) (s_pa s3)) = true
      | _, _ => False
      end
  | _ => False
  end.
Proof. vm_compute. repeat split. Qed.
