(** * DGP graphs as JSON: dgp.c:161-195 and 345-516, the functions of cond_dgp.c and rule_dgp.c that
    use them.

    A document is a tree as in Json.v and RuleJson.v.  Allocation succeeds (DESIGN.md). *)
From Coq Require Import ZArith Bool List String Ascii.
From Verif Require Import Outcome F64 Rng Arr Sam Cond Pop Clock Comp Dgp Json ParJson RuleJson.
From Verif Require Net.
Import ListNotations.
Open Scope string_scope.
Open Scope Z_scope.

(** dgp.c:34-36 and 161-176 *)
Definition function_string (f : Z) : outcome string :=
  if f =? FUZZY_NOT then Ok "Fuzzy NOT"
  else if f =? FUZZY_CFMQVS_AND then Ok "Fuzzy AND"
  else if f =? FUZZY_CFMQVS_OR then Ok "Fuzzy OR"
  else Exit.
(** dgp.c:183-195 *)
Definition function_int (s : string) : outcome Z :=
  if same s "Fuzzy NOT" 10 then Ok FUZZY_NOT
  else if same s "Fuzzy AND" 10 then Ok FUZZY_CFMQVS_AND
  else if same s "Fuzzy OR" 9 then Ok FUZZY_CFMQVS_OR
  else Exit.

(** dgp.c:345-369 graph_json_export; cJSON_CreateIntArray makes a number of each int. *)
Definition graph_export (g : graph) : outcome json :=
  (ist <- doubles (d_initial g) (d_n g) ;;
   st <- doubles (d_state g) (d_n g) ;;
   fs <- Net.omap (fun i => f <- rd (d_func g) (Z.of_nat i) ;; s <- function_string f ;; Ok (JStr s))
           (seq 0 (Z.to_nat (d_n g))) ;;
   cs <- Net.omap (fun i => c <- rd (d_conn g) (Z.of_nat i) ;; Ok (num (of_Z c))) (seq 0 (Z.to_nat (d_klen g))) ;;
   mu <- doubles (d_mu g) 3 ;;
   Ok (JObj [("n", num (of_Z (d_n g))); ("t", num (of_Z (d_t g))); ("n_inputs", num (of_Z (d_n_inputs g)));
             ("initial_state", ist); ("current_state", st); ("functions", JArr fs); ("connectivity", JArr cs);
             ("mutation", mu)]))%out.

(** dgp.c:376-394, 401-419: the loop is the one of sam_json_import. *)
Definition import_unit (name : string) (dst : list f64) (n : Z) (j : json) : outcome (list f64) :=
  sam_json_import dst n (option_map (map valuedouble) (array j name)).
(** dgp.c:426-442: elements that are not strings are skipped. *)
Definition import_functions (dst : list Z) (n : Z) (j : json) : outcome (list Z) :=
  match array j "functions" with
  | None => Ok dst
  | Some l =>
      if negb (Z.of_nat (List.length l) =? n) then Exit
      else ofor n (fun i d => (e <- rd l i ;;
                               match e with JStr s => (f <- function_int s ;; wr d i f)%out | _ => Ok d end)%out) dst
  end.
(** dgp.c:449-468; import_connectivity of Dgp.v is the same on integers. *)
Definition import_conns (dst : list Z) (klen n n_inputs : Z) (j : json) : outcome (list Z) :=
  match array j "connectivity" with
  | None => Ok dst
  | Some l =>
      if negb (Z.of_nat (List.length l) =? klen) then Exit
      else (max_c <- cint (n + n_inputs) ;;
            ofor klen (fun i d => (e <- rd l i ;;
              if (valueint e <? 0) || (max_c <? valueint e) then Exit else wr d i (valueint e))%out) dst)%out
  end.
(** dgp.c:480-488 and 502-510: a positive int, if given. *)
Definition positive (j : json) (name : string) (d : Z) : outcome Z :=
  match item j name with
  | None => Ok d
  | Some (JNum _ i) => if i <? 1 then Exit else Ok i
  | Some _ => Exit
  end.
(** dgp.c:476-516 graph_json_import; [t0] is the value of the member t before, which graph_free
    leaves.  The new array of rates is written only if the document has rates: otherwise it is []
    here, so that reading a rate is an error outcome. *)
Definition graph_import (a : dargs) (t0 : Z) (j : json) : RM graph :=
  (n <- lift (positive j "n" (da_n a)) ;;
   klen <- lift (cint (n * da_max_k a)) ;;
   g <- graph_rand (mkGraph (da_evolve a) [] [] [] [] klen (da_max_k a) (da_max_t a) n (da_n_inputs a) t0 []) ;;
   lift (t <- positive j "t" (d_t g) ;;
         st <- import_unit "current_state" (d_state g) n j ;;
         ist <- import_unit "initial_state" (d_initial g) n j ;;
         fs <- import_functions (d_func g) n j ;;
         cs <- import_conns (d_conn g) klen n (da_n_inputs a) j ;;
         mu <- (match array j "mutation" with None => Ok [] | Some _ => import_mu (repeat f0 3) 3 j end) ;;
         Ok (mkGraph (d_evolve g) ist st cs fs klen (d_max_k g) (d_max_t g) n (d_n_inputs g) t mu))%out)%rng.

(** cond_dgp.c:237-251 and, with the other name, rule_dgp.c:154-168 *)
Definition dgp_export (type : string) (g : graph) : outcome json :=
  (gj <- graph_export g ;; Ok (JObj [("type", JStr type); ("graph", gj)]))%out.
(** cond_dgp.c:259-270, rule_dgp.c:170-182: [c] is the graph of the new rule. *)
Definition dgp_import (a : dargs) (c : graph) (j : json) : RM graph :=
  match item j "graph" with
  | None => rexit
  | Some gj => graph_import a (d_t c) gj
  end.
Definition rdgp_import (a : dargs) (c : rgraph) (j : json) : RM rgraph :=
  (g <- dgp_import a (rg_graph c) j ;; ret (mkRgraph g (rg_outputs c)))%rng.
