(** * Writing rules as JSON: cl_json_export and clset_json_export with the functions of the modelled
    conditions, actions and predictions.

    As in ParJson.v a document is what cJSON_Parse makes of the text that cJSON_Print writes: numbers
    that are not finite become null.  A rule is printed and parsed twice (once as part of the set),
    which makes no difference to such a tree.  GP trees, networks and rule-network
    conditions are left out, DGP graphs are in DgpJson.v.  Reading is in Json.v. *)
From Coq Require Import ZArith Bool List String Ascii.
From Verif Require Import Outcome F64 Rng Arr Sam Cond Pred Pop Clock Comp Names Json ParJson.
From Verif Require Net.
Import ListNotations.
Open Scope string_scope.
Open Scope Z_scope.

(** cJSON_CreateDoubleArray *)
Definition doubles (l : list f64) (n : Z) : outcome json :=
  (vs <- Net.omap (fun i => rd l (Z.of_nat i)) (seq 0 (Z.to_nat n)) ;; Ok (JArr (map num vs)))%out.

Section Parts.
Context (K : cfg) (P : cpar) (R : ppar).
(** cond_rectangle.c:357-378 *)
Definition rect_export (c : rect) : outcome json :=
  (b1 <- doubles (r_b1 c) (x_dim K) ;;
   b2 <- doubles (r_b2 c) (x_dim K) ;;
   mu <- doubles (r_mu c) 1 ;;
   Ok (JObj (if cp_type P =? COND_TYPE_HYPERRECTANGLE_CSR
             then [("type", JStr "hyperrectangle_csr"); ("center", b1); ("spread", b2); ("mutation", mu)]
             else [("type", JStr "hyperrectangle_ubr"); ("bound1", b1); ("bound2", b2); ("mutation", mu)])))%out.
(** cond_ellipsoid.c:340-355 *)
Definition ellip_export (c : ellip) : outcome json :=
  (ce <- doubles (e_center c) (x_dim K) ;;
   sp <- doubles (e_spread c) (x_dim K) ;;
   mu <- doubles (e_mu c) 1 ;;
   Ok (JObj [("type", JStr "hyperellipsoid"); ("center", ce); ("spread", sp); ("mutation", mu)]))%out.
(** cond_ternary.c:337-353: the characters up to the terminator that is appended. *)
Definition tern_export (c : ternary) : outcome json :=
  (s <- cstring (map (fun z => ascii_of_nat (Z.to_nat z)) (t_string c) ++ [nul]) ;;
   mu <- doubles (t_mu c) 1 ;;
   Ok (JObj [("type", JStr "ternary"); ("string", JStr s); ("mutation", mu)]))%out.
(** cond_dummy.c:225-235 *)
Definition dummy_export (c : unit) : outcome json := Ok (JObj [("type", JStr "dummy")]).
(** act_integer.c:248-261 *)
Definition integer_export (a : actint) : outcome json :=
  (mu <- doubles (a_mu a) 1 ;;
   Ok (JObj [("type", JStr "integer"); ("action", num (of_Z (a_action a))); ("mutation", mu)]))%out.
(** pred_nlms.c:263-281 *)
Definition nlms_export (p : nlms) (v : list f64) : outcome json :=
  (w <- doubles (nl_weights p) (Z.of_nat (List.length (nl_weights p))) ;;
   mu <- doubles (nl_mu p) 1 ;;
   Ok (JObj [("type", JStr (if pp_type R =? PRED_TYPE_NLMS_QUADRATIC then "nlms_quadratic" else "nlms_linear"));
             ("weights", w); ("eta", num (nl_eta p)); ("mutation", mu)]))%out.
(** pred_rls.c:275-290 *)
Definition rls_export (p : rls) (v : list f64) : outcome json :=
  (w <- doubles (rl_weights p) (Z.of_nat (List.length (rl_weights p))) ;;
   Ok (JObj [("type", JStr (if pp_type R =? PRED_TYPE_RLS_QUADRATIC then "rls_quadratic" else "rls_linear"));
             ("weights", w)]))%out.
(** pred_constant.c:200-210 *)
Definition constant_export (p : unit) (v : list f64) : outcome json :=
  (w <- doubles v (y_dim K) ;; Ok (JObj [("type", JStr "constant"); ("prediction", w)]))%out.
End Parts.

(** cond_json_export, act_json_export and pred_json_export of condition.h, action.h, prediction.h;
    the prediction's export can read the rule's current prediction. *)
Record exports (B : Type) := mkExports {
  ex_cond : B -> outcome json;
  ex_act : B -> outcome json;
  ex_pred : B -> list f64 -> outcome json
}.
Arguments ex_cond {B} _ _.
Arguments ex_act {B} _ _.
Arguments ex_pred {B} _ _ _.
Definition deref {T} (o : option T) : outcome T := match o with Some t => Ok t | None => UB Uninit end.
Definition join_exports {C A P} (ec : C -> outcome json) (ea : A -> outcome json) (ep : P -> list f64 -> outcome json) :
  exports (payload C A P) := mkExports _
  (fun b => (c <- deref (y_cond b) ;; ec c)%out)
  (fun b => (a <- deref (y_act b) ;; ea a)%out)
  (fun b v => (p <- deref (y_pred b) ;; ep p v)%out).

Section Model.
Context {B : Type} (E : exports B) (K : cfg).
(** A member that is written if [b]. *)
Definition member_if (b : bool) (name : string) (o : outcome json) : outcome (list (string * json)) :=
  if b then (j <- o ;; Ok [(name, j)])%out else Ok [].
(** cl.c:485-527 cl_json_export *)
Definition cl_json_export (cond act pred : bool) (c : cl B) : outcome json :=
  (p <- doubles (c_prediction c) (y_dim K) ;;
   jc <- member_if cond "condition" (ex_cond E (c_body c)) ;;
   ja <- member_if (act && (1 <? n_actions K)) "action" (ex_act E (c_body c)) ;;
   jp <- member_if pred "prediction" (ex_pred E (c_body c) (c_prediction c)) ;;
   Ok (JObj ([("error", num (c_err c)); ("fitness", num (c_fit c)); ("accuracy", num (cl_acc K c));
              ("set_size", num (c_size c)); ("numerosity", num (of_Z (c_num c))); ("experience", num (of_Z (c_exp c)));
              ("time", num (of_Z (c_time c))); ("samples_seen", num (of_Z (c_age c)));
              ("samples_matched", num (of_Z (c_mtotal c))); ("current_match", JBool (c_m c));
              ("current_action", num (of_Z (c_action c))); ("current_prediction", p)] ++ jc ++ ja ++ jp)))%out.
(** clset.c:753-772 clset_json_export *)
Definition clset_json_export (set : cset) (cond act pred : bool) : M B json :=
  (cs <~ get_all (set_list set) ;;
   js <~ mlift (Net.omap (cl_json_export cond act pred) cs) ;;
   mret (JObj [("classifiers", JArr js)]))%m.
End Model.
