(** * Inserting rules given as JSON.

    A document is the tree built by cJSON_Parse (the parser, lib/cJSON, is not part of the pinned
    source).  A number has the two fields [valuedouble] and [valueint] of struct cJSON; nothing is
    assumed about how the second is derived from the first.  Of other items these fields are zero,
    except that [valueint] of true is 1.  Printing of error messages is left out: [Exit]. *)
From Coq Require Import ZArith Bool List String Ascii.
From Verif Require Import Outcome F64 Rng Arr Sam Cond Pred Pop Clock Comp.
Import ListNotations.
Open Scope Z_scope.

Inductive json :=
| JNull | JBool (b : bool) | JNum (v : f64) (i : Z) | JStr (s : string)
| JArr (l : list json) | JObj (m : list (string * json)).
Definition valuedouble (j : json) : f64 := match j with JNum v _ => v | _ => f0 end.

(** cJSON_GetObjectItem: the first member with that name, ignoring case; NULL if the item is not
    an object. *)
Definition lower (c : ascii) : ascii :=
  let n := nat_of_ascii c in if (65 <=? n)%nat && (n <=? 90)%nat then ascii_of_nat (n + 32) else c.
Fixpoint same_name (a b : string) : bool :=
  match a, b with
  | EmptyString, EmptyString => true
  | String x a', String y b' => Ascii.eqb (lower x) (lower y) && same_name a' b'
  | _, _ => false
  end.
Definition item (j : json) (name : string) : option json :=
  match j with
  | JObj m => option_map snd (find (fun p => same_name name (fst p)) m)
  | _ => None
  end.
(** [item != NULL && cJSON_IsNumber(item)] and its fields. *)
Definition number (j : json) (name : string) : option (f64 * Z) :=
  match item j name with Some (JNum v i) => Some (v, i) | _ => None end.
(** [item != NULL && cJSON_IsArray(item)] and its elements. *)
Definition array (j : json) (name : string) : option (list json) :=
  match item j name with Some (JArr l) => Some l | _ => None end.

(** The loops over [n] doubles: "length mismatch" unless the array has [n] elements, otherwise
    dst[i] = item_i->valuedouble, without a test of the element's type. *)
Definition import_doubles (dst : list f64) (n : Z) (src : option (list json)) : outcome (list f64) :=
  match src with
  | None => Ok dst
  | Some l =>
      if negb (Z.of_nat (List.length l) =? n) then Exit
      else ofor n (fun i d => (v <- rd l i ;; wr d i (valuedouble v))%out) dst
  end.
(** sam.c:99-117 sam_json_import on the object containing the rates. *)
Definition import_mu (mu : list f64) (n : Z) (j : json) : outcome (list f64) :=
  sam_json_import mu n (option_map (map valuedouble) (array j "mutation")).

Section Parts.
Context (K : cfg) (P : cpar).

(** cond_rectangle.c:386-422 *)
Definition rect_import (c : rect) (j : json) : outcome rect :=
  let csr := cp_type P =? COND_TYPE_HYPERRECTANGLE_CSR in
  (b1 <- import_doubles (r_b1 c) (x_dim K) (array j (if csr then "center" else "bound1")) ;;
   b2 <- import_doubles (r_b2 c) (x_dim K) (array j (if csr then "spread" else "bound2")) ;;
   mu <- import_mu (r_mu c) 1 j ;;
   Ok (mkRect b1 b2 mu))%out.
(** cond_ellipsoid.c:363-393 *)
Definition ellip_import (c : ellip) (j : json) : outcome ellip :=
  (ce <- import_doubles (e_center c) (x_dim K) (array j "center") ;;
   sp <- import_doubles (e_spread c) (x_dim K) (array j "spread") ;;
   mu <- import_mu (e_mu c) 1 j ;;
   Ok (mkEllip ce sp mu))%out.
(** cond_ternary.c:361-379: "string terminated early" at the end of the given string. *)
Definition code (c : ascii) : Z := Z.of_nat (nat_of_ascii c).
Definition tern_import (c : ternary) (j : json) : outcome ternary :=
  (s <- match item j "string" with
        | Some (JStr s) =>
            ofor (Z.of_nat (List.length (t_string c))) (fun i d =>
              bit <- rd (map code (list_ascii_of_string s) ++ [0]) i ;;
              if bit =? 0 then Exit else wr d i bit)%out (t_string c)
        | _ => Ok (t_string c)
        end ;;
   mu <- import_mu (t_mu c) 1 j ;;
   Ok (mkTernary s mu))%out.
(** cond_dummy.c:243-249 *)
Definition dummy_import (c : unit) (j : json) : outcome unit := Ok tt.
(** cond_gp.c:306-316 with gp.c:272-281; cond_neural.c:333-344, pred_neural.c:413-424 and
    act_neural.c:253-263 with neural_json_import: not implemented, always an error. *)
Definition refuse {T} (c : T) (j : json) : outcome T := Exit.

(** act_integer.c:269-280 *)
Definition integer_import (a : actint) (j : json) : outcome actint :=
  let n := match number j "action" with Some (_, i) => i | None => a_action a end in
  (mu <- import_mu (a_mu a) 1 j ;; Ok (mkAct n mu))%out.

(** pred_nlms.c:289-311 *)
Definition nlms_import (p : nlms) (v : list f64) (j : json) : outcome (nlms * list f64) :=
  (w <- import_doubles (nl_weights p) (Z.of_nat (List.length (nl_weights p))) (array j "weights") ;;
   let eta := match number j "eta" with Some (e, _) => e | None => nl_eta p end in
   mu <- import_mu (nl_mu p) 1 j ;;
   Ok (mkNlms (nl_n p) w mu eta (nl_tmp p), v))%out.
(** pred_rls.c:298-314 *)
Definition rls_import (p : rls) (v : list f64) (j : json) : outcome (rls * list f64) :=
  (w <- import_doubles (rl_weights p) (Z.of_nat (List.length (rl_weights p))) (array j "weights") ;;
   Ok (mkRls (rl_n p) w (rl_matrix p) (rl_tmp p) (rl_vec p) (rl_mat1 p) (rl_mat2 p), v))%out.
(** pred_constant.c:218-234: the values go to the rule's prediction. *)
Definition constant_import (p : unit) (v : list f64) (j : json) : outcome (unit * list f64) :=
  (v' <- import_doubles v (y_dim K) (array j "prediction") ;; Ok (tt, v'))%out.
End Parts.

(** act_json_import, pred_json_import and cond_json_import of action.h, prediction.h, condition.h;
    the prediction's import can change the rule's current prediction. *)
Record imports (B : Type) := mkImports {
  im_act : B -> json -> RM B;
  im_pred : B -> list f64 -> json -> RM (B * list f64);
  im_cond : B -> json -> RM B
}.
Arguments im_act {B} _ _ _.
Arguments im_pred {B} _ _ _ _.
Arguments im_cond {B} _ _ _.
Definition join_imports {C A P} (fc : C -> json -> outcome C) (fa : A -> json -> outcome A)
  (fp : P -> list f64 -> json -> outcome (P * list f64)) : imports (payload C A P) := mkImports _
  (fun b j => (a <- need (y_act b) ;; a' <- lift (fa a j) ;; ret (set_act b a'))%rng)
  (fun b v j => (p <- need (y_pred b) ;; r <- lift (fp p v j) ;; ret (set_pred b (fst r), snd r))%rng)
  (fun b j => (c <- need (y_cond b) ;; c' <- lift (fc c j) ;; ret (set_cond b c'))%rng).

Section Model.
Context {B : Type} (V : vtab B) (I : imports B) (K : cfg).

Definition given {T} (o : option T) (d : T) : T := match o with Some v => v | None => d end.
Definition dbl_item (j : json) (name : string) (d : f64) : f64 := given (option_map fst (number j name)) d.
Definition int_item (j : json) (name : string) (d : Z) : Z := given (option_map snd (number j name)) d.

(** cl.c:533-568 cl_json_import_properties *)
Definition import_properties (c : cl B) (j : json) : cl B :=
  mkCl (dbl_item j "error" (c_err c)) (dbl_item j "fitness" (c_fit c)) (int_item j "numerosity" (c_num c))
    (int_item j "experience" (c_exp c)) (dbl_item j "set_size" (c_size c)) (int_item j "time" (c_time c)) (c_m c)
    (c_prediction c) (c_action c) (int_item j "samples_seen" (c_age c)) (int_item j "samples_matched" (c_mtotal c)) (c_body c).
(** cl.c:576-598 cl_json_import_current *)
Definition import_current (c : cl B) (j : json) : outcome (cl B) :=
  let m := match item j "current_match" with Some (JBool b) => b | _ => c_m c end in
  let a := int_item j "current_action" (c_action c) in
  (p <- import_doubles (c_prediction c) (y_dim K) (array j "current_prediction") ;;
   Ok (mkCl (c_err c) (c_fit c) (c_num c) (c_exp c) (c_size c) (c_time c) m p a (c_age c) (c_mtotal c) (c_body c)))%out.
Definition set_both (b : B) (p : list f64) (c : cl B) : cl B :=
  mkCl (c_err c) (c_fit c) (c_num c) (c_exp c) (c_size c) (c_time c) (c_m c) p (c_action c) (c_age c) (c_mtotal c) b.
(** cl.c:607-626 cl_json_import; [num]: the numerosity of the population. *)
Definition cl_json_import (num time : Z) (j : json) : RM (cl B) :=
  (c <- cl_rand V (cl_init V K (of_Z num) time) ;;
   c <- lift (import_current (import_properties c j) j) ;;
   b1 <- match item j "action" with Some a => im_act I (c_body c) a | None => ret (c_body c) end ;;
   r <- match item j "prediction" with Some p => im_pred I b1 (c_prediction c) p | None => ret (b1, c_prediction c) end ;;
   b3 <- match item j "condition" with Some d => im_cond I (fst r) d | None => ret (fst r) end ;;
   ret (set_both b3 (snd r) c))%rng.

(** clset.c:779-788 clset_json_insert_cl; the population's numerosity is an int (clset_add,
    clset.c:525). *)
Definition json_insert_cl (j : json) : M B unit :=
  (ps <~ mget s_pset ;; t <~ mget s_time ;;
   c <~ mrand (cl_json_import (set_nm ps) t j) ;;
   _ <~ mlift (cint (set_nm ps + c_num c)) ;;
   insert_cl V K c)%m.
(** json->child *)
Definition first_child (j : json) : option json :=
  match j with
  | JArr (x :: _) => Some x
  | JObj ((_, x) :: _) => Some x
  | _ => None
  end.
(** clset.c:795-812 clset_json_insert after parsing: [tail->prev] is written before the test for
    an empty array. *)
Definition json_insert (doc : json) : M B unit :=
  match first_child doc with
  | Some (JArr []) => mub NullDeref
  | Some (JArr l) => miter json_insert_cl (rev l)
  | _ => mret tt
  end.
End Model.
