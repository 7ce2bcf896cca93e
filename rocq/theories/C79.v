(** * C79 What is reported about the rules of a set is their mean. *)
From Coq Require Import ZArith Bool List Reals Lia.
From Flocq Require Import Core BinarySingleNaN.
From Verif Require Import Outcome F64 F64Facts F64Bounds Rng Arr ArrFacts Sam Pop PopSpec PopInv Clock Comp Act Layer LayerFacts MutFacts PropMut Net NetFacts NetChain RuleJson Stats Demo PropStats PropTight.
Import ListNotations.
Open Scope Z_scope.

(** Neural conditions (or rules) of any set, in any state of the system: nothing changes, and the
    number of layers, and for any position the numbers of neurons and of active connections, is the
    exact mean over the rules, rounded once ([reports]). If the sum does not fit an int, it
    overflows. *)
Theorem C79_conditions :
  forall (A P : Type) (t : Z) (set : cset) (s : st (payload (nn f64) A P))
    (cs : list (cl (payload (nn f64) A P))) (ns : list (nn f64)),
  t = COND_TYPE_NEURAL \/ t = RULE_TYPE_NEURAL ->
  holds s set cs ->
  Forall2 (fun (c : cl (payload (nn f64) A P)) (n : nn f64) => y_cond (c_body c) = Some n) cs ns ->
  (countable (map layers_of ns) -> reports (clset_mean_cond_layers t set) (map layers_of ns) s) /\
  (forall k : Z,
   (countable (map (fun n : nn f64 => neurons_of n k) ns) ->
    reports (clset_mean_cond_neurons t set k) (map (fun n : nn f64 => neurons_of n k) ns) s) /\
   (countable (map (fun n : nn f64 => connections_of n k) ns) ->
    reports (clset_mean_cond_connections t set k) (map (fun n : nn f64 => connections_of n k) ns) s)).
Proof. exact @cond_means. Qed.
Print Assumptions C79_conditions.

(** The same for neural predictions; the mean of rates of learning between zero and one is between
    zero and one. *)
Theorem C79_predictions :
  forall (C A : Type) (set : cset) (s : st (payload C A (nn f64))) (cs : list (cl (payload C A (nn f64))))
    (ns : list (nn f64)),
  holds s set cs ->
  Forall2 (fun (c : cl (payload C A (nn f64))) (n : nn f64) => y_pred (c_body c) = Some n) cs ns ->
  (countable (map layers_of ns) ->
   reports (clset_mean_pred_layers PRED_TYPE_NEURAL set) (map layers_of ns) s) /\
  (forall k : Z,
   (countable (map (fun n : nn f64 => neurons_of n k) ns) ->
    reports (clset_mean_pred_neurons PRED_TYPE_NEURAL set k) (map (fun n : nn f64 => neurons_of n k) ns) s) /\
   (countable (map (fun n : nn f64 => connections_of n k) ns) ->
    reports (clset_mean_pred_connections PRED_TYPE_NEURAL set k)
      (map (fun n : nn f64 => connections_of n k) ns) s) /\
   (Forall unit_rate (map (fun n : nn f64 => eta_of n k) ns) ->
    Z.of_nat (length ns) < 2 ^ 31 ->
    exists r : f64, clset_mean_pred_eta PRED_TYPE_NEURAL set k s = Ok (r, s) /\ unit_rate r)).
Proof. exact @pred_means. Qed.
Print Assumptions C79_predictions.

(** Such a mean is between the least and the greatest of the numbers. *)
Theorem C79_between :
  forall (lo hi : Z) (vs : list Z) (r : f64),
  Forall (fun v : Z => lo <= v <= hi) vs ->
  vs <> [] ->
  0 <= lo ->
  hi < 2 ^ 31 ->
  total vs < 2 ^ 31 -> Z.of_nat (length vs) < 2 ^ 31 -> mean_of vs r -> (IZR lo <= B2R r <= IZR hi)%R.
Proof. exact @mean_between. Qed.
Print Assumptions C79_between.

(** With other types of conditions and predictions, zero is reported. *)
Theorem C79_other :
  forall (A P C : Type) (t : Z) (set : cset) (k : Z) (s : st (payload (nn f64) A P))
    (s' : st (payload C A (nn f64))),
  (t <> COND_TYPE_NEURAL ->
   t <> RULE_TYPE_NEURAL ->
   clset_mean_cond_layers t set s = Ok (f0, s) /\
   clset_mean_cond_neurons t set k s = Ok (f0, s) /\ clset_mean_cond_connections t set k s = Ok (f0, s)) /\
  (t <> PRED_TYPE_NEURAL ->
   clset_mean_pred_layers t set s' = Ok (f0, s') /\
   clset_mean_pred_neurons t set k s' = Ok (f0, s') /\
   clset_mean_pred_connections t set k s' = Ok (f0, s') /\ clset_mean_pred_eta t set k s' = Ok (f0, s')).
Proof. exact @other_types. Qed.
Print Assumptions C79_other.

(** The mean size of conditions or predictions of a set that is not empty is exact up to one
    rounding. *)
Theorem C79_sizes :
  forall (B : Type) (f : cl B -> f64) (set : cset) (s : st B) (cs : list (cl B)) (vs : list Z),
  holds s set cs ->
  Forall2 (fun (c : cl B) (v : Z) => f c = of_Z v) cs vs ->
  Forall (Z.le 0) vs ->
  vs <> [] ->
  Z.of_nat (length vs) < 2 ^ 31 ->
  total vs <= 2 ^ 53 -> exists r : f64, mean_sizes f set s = Ok (r, s) /\ mean_of vs r.
Proof. exact @mean_sizes_ok. Qed.
Print Assumptions C79_sizes.

(** In particular the two means reported are those of the sizes of conditions and of predictions. *)
Theorem C79_part_sizes :
  forall (B : Type) (V : vtab B) (set : cset) (s : st B) (cs : list (cl B)) (vs ws : list Z),
  holds s set cs ->
  vs <> [] ->
  Z.of_nat (length vs) < 2 ^ 31 ->
  Forall2 (fun (c : cl B) (v : Z) => v_cond_size V (c_body c) = of_Z v) cs vs ->
  Forall (Z.le 0) vs ->
  total vs <= 2 ^ 53 ->
  Forall2 (fun (c : cl B) (v : Z) => v_pred_size V (c_body c) = of_Z v) cs ws ->
  Forall (Z.le 0) ws ->
  total ws <= 2 ^ 53 ->
  (exists r : f64, clset_mean_cond_size V set s = Ok (r, s) /\ mean_of vs r) /\
  (exists r : f64, clset_mean_pred_size V set s = Ok (r, s) /\ mean_of ws r).
Proof. exact @mean_part_sizes. Qed.
Print Assumptions C79_part_sizes.

(** REFUTED for empty sets: the mean size is not a number (0 / 0), where the other functions report
    zero. *)
Theorem C79_refuted_empty :
  forall (B : Type) (f : cl B -> f64) (set : cset) (s : st B),
  set_list set = [] -> mean_sizes f set s = Ok (fnan, s).
Proof. exact @empty_sizes. Qed.
Print Assumptions C79_refuted_empty.

(** REFUTED for large networks: the int sum of connections overflows for 140 rules whose networks
    are within all limits. *)
Theorem C79_refuted_large :
  forall C A : Type,
  exists
    (s : st (payload C A (nn f64))) (set : cset) (cs : list (cl (payload C A (nn f64)))) 
  (ns : list (nn f64)),
    holds s set cs /\
    Forall2 (fun (c : cl (payload C A (nn f64))) (n : nn f64) => y_pred (c_body c) = Some n) cs ns /\
    Forall (fun n : nn f64 => net_ok n /\ faces n) ns /\
    length ns = 140%nat /\ clset_mean_pred_connections PRED_TYPE_NEURAL set 0 s = UB IntOverflow.
Proof. exact @large_overflow. Qed.
Print Assumptions C79_refuted_large.

(** Two rules with networks of different sizes. *)
Definition C79_rule (ls : list (layer f64)) : cl (payload unit unit (nn f64)) :=
  mkCl f0 f0 1 0 f0 0 false [] 0 0 0 (mkPay None None (Some (mkNn ls 2 2))).
Definition C79_a : cl (payload unit unit (nn f64)) := C79_rule [large_layer 2 4].
Definition C79_b : cl (payload unit unit (nn f64)) := C79_rule [large_layer 3 9; large_layer 2 4].
Definition C79_set : cset := mkSet [1%nat; 0%nat] 2 2.
Definition C79_st : st (payload unit unit (nn f64)) :=
  with_set PSET C79_set (with_heap (upd (upd (fun _ => None) 0%nat (Some C79_a)) 1%nat (Some C79_b)) 2%nat (blank_state 5)).
Definition C79_twice (m : M (payload unit unit (nn f64)) f64) : option Z :=
  match m C79_st with Ok (r, _) => to_int (fmul (of_Z 2) r) | _ => None end.
(** Twice the means: 1.5 layers; 2.5 neurons in the first layer, 1 in the second (which one of them
    lacks), 6.5 connections. *)
Example C79_example :
  holds C79_st C79_set [C79_b; C79_a] /\
  C79_twice (clset_mean_pred_layers PRED_TYPE_NEURAL C79_set) = Some 3 /\
  C79_twice (clset_mean_pred_neurons PRED_TYPE_NEURAL C79_set 0) = Some 5 /\
  C79_twice (clset_mean_pred_neurons PRED_TYPE_NEURAL C79_set 1) = Some 2 /\
  C79_twice (clset_mean_pred_connections PRED_TYPE_NEURAL C79_set 0) = Some 13 /\
  C79_twice (clset_mean_pred_neurons PRED_TYPE_NEURAL C79_set 7) = Some 0 /\
  C79_twice (mean_sizes (fun c => of_Z (c_num c)) C79_set) = Some 2.
Proof. repeat split; vm_compute; reflexivity. Qed.
Example C79_example_cond : C79_twice (clset_mean_pred_layers 1 C79_set) = Some 0 /\
  countable (map layers_of [mkNn [large_layer 3 9; large_layer 2 4] 2 2; mkNn [large_layer 2 4] 2 2]) /\
  mean_of [2; 1] (fdiv (of_Z 3) (of_Z 2)).
Proof.
  split; [vm_compute; reflexivity|]. split; [split; [repeat (constructor; [vm_compute; discriminate|]); constructor|vm_compute; reflexivity]|].
  destruct (quotient_in 0 2 3 2) as (F1 & F2 & _); [vm_compute; discriminate|vm_compute; discriminate|vm_compute; discriminate|split; [reflexivity|vm_compute; discriminate]|split; vm_compute; discriminate|].
  split; [exact F1|exact F2].
Qed.
(** Two rules with intervals over two inputs and linear predictions. *)
Definition C79_K : cfg := demo_cfg 2 1 10 false false false false.
Definition C79_V : vtab (payload Cond.rect Cond.actint Pred.nlms) :=
  join (rect_cond C79_K (demo_cpar Cond.COND_TYPE_HYPERRECTANGLE_CSR)) (integer_act C79_K) (nlms_pred C79_K (demo_ppar Pred.PRED_TYPE_NLMS_LINEAR)).
Definition C79_c (n : Z) : cl (payload Cond.rect Cond.actint Pred.nlms) :=
  mkCl fhalf f1 1 3 (of_Z 2) 7 true [f1] 0 5 4
    (mkPay (Some (Cond.mkRect [f0; f1] [f1; fhalf] [fhalf])) None (Some (Pred.mkNlms n (repeat f1 (Z.to_nat n)) [fhalf] fhalf []))).
Definition C79_st2 : st (payload Cond.rect Cond.actint Pred.nlms) :=
  with_set PSET C79_set (with_heap (upd (upd (fun _ => None) 0%nat (Some (C79_c 3))) 1%nat (Some (C79_c 5))) 2%nat (blank_state 5)).
Example C79_sizes_example : holds C79_st2 C79_set [C79_c 5; C79_c 3] /\
  Forall2 (fun c v => v_cond_size C79_V (c_body c) = of_Z v) [C79_c 5; C79_c 3] [2; 2] /\
  Forall2 (fun c v => v_pred_size C79_V (c_body c) = of_Z v) [C79_c 5; C79_c 3] [5; 3] /\
  match clset_mean_cond_size C79_V C79_set C79_st2, clset_mean_pred_size C79_V C79_set C79_st2 with
  | Ok (a, _), Ok (b, _) => (to_int a, to_int b) | _, _ => (None, None) end = (Some 2, Some 4).
Proof. split; [reflexivity|]. do 2 (split; [do 2 (constructor; [reflexivity|]); constructor|]). vm_compute. reflexivity. Qed.
