(** * The prediction array as allocated.

    pa_init allocates pa, nr and cover with pa_size = n_actions * y_dim elements when the system
    is created (xcsf.c:33) and nothing allocates them again; in particular xcsf_load (xcsf.c:114-143)
    changes n_actions and y_dim but neither the arrays nor pa_size.  Pop.v, whose systems never
    change their dimensions, writes [zeros pa_size] for the arrays; here they are the arrays of the
    state, and the field pa_size is their length. *)
From Coq Require Import ZArith Bool List.
From Verif Require Import Outcome F64 Rng Pop Arr.
Import ListNotations.
Open Scope Z_scope.

Section Model.
Context {B : Type} (V : vtab B) (K : cfg).

(** pa.c:33-40 pa_reset *)
Definition pa_reset : M B unit := mmod (fun s => with_pa (repeat f0 (length (s_pa s))) (repeat f0 (length (s_nr s))) s).
(** pa.c:104-113 *)
Definition pa_divide (pa nr : list f64) : outcome (list f64) :=
  ofor (n_actions K) (fun i pa => ofor (y_dim K) (fun j pa =>
    let k := i * y_dim K + j in
    (n <- rd nr k ;;
     if fne n f0 then p <- rd pa k ;; wr pa k (fdiv p n)
     else wr pa k f0)%out) pa) pa.
(** pa.c:61-114 pa_build *)
Definition pa_build_c (x : list f64) : M B unit :=
  ms <~ mget s_mset ;;
  pa_reset ;;;
  miter (fun l => modify_rand l (fun c => cl_predict V c x)) (set_list ms) ;;;
  cs <~ get_all (set_list ms) ;;
  a <~ mget s_pa ;; b <~ mget s_nr ;;
  r <~ mlift (pa_accum K cs a b) ;;
  let '(pa, nr) := r in
  pa' <~ mlift (pa_divide pa nr) ;;
  mmod (with_pa pa' nr).
(** xcs_supervised.c:58-85 xcs_supervised_trial; [cover]: the allocation of xcsf->cover. *)
Definition supervised_trial_c (x y : list f64) (cover : option (list f64)) : M B unit :=
  clset_init MSET ;;;
  clset_init KSET ;;;
  match cover with
  | Some cv =>
      clset_match V K x false ;;;
      ms <~ mget s_mset ;;
      if set_sz ms <? 1 then
        pa <~ mget s_pa ;;
        if (length cv <? length pa)%nat then mub OutOfBounds
        else mmod (fun s => with_pa (firstn (length pa) cv) (s_nr s) s)
      else pa_build_c x
  | None =>
      clset_match V K x true ;;;
      pa_build_c x
  end ;;;
  ex <~ mget s_explore ;;
  (if ex : bool then clset_update V K MSET x y true ;;; ea V K MSET else mret tt) ;;;
  clset_kill KSET ;;;
  clset_free MSET.
End Model.
