(** * C34 Save followed by load restores the system. *)
From Coq Require Import ZArith Bool List Lia.
From Verif Require Import Outcome F64 Rng Pop PopTrial Cond Pred Demo Arr ArrFacts Act Layer LayerFacts MutFacts PropMut Net NetFacts NetLayer NetChain PropNet RangeFacts PropRange Param File FileFacts PropFile FileNet FileOver.
Import ListNotations.
Open Scope Z_scope.

(** xcsf_save followed by xcsf_load over any existing system whose population can be freed and which
    has room for the GP constants: exactly the elements written are consumed, every parameter, the
    running statistics and the rules are restored in their order ([rule_restored]: scratch arrays
    are fresh, see C34_network for networks), the old population is freed and nothing else is
    touched. *)
Theorem C34_round_trip :
  forall (K : cfg) (log2 : f64 -> f64) (y y0 : system) (s s0 : st body) (h : shape) (rs : list (cl body)),
  savable y ->
  (forall n : Z, ints (y_par y) i_GP_N_CONSTANTS = Some n -> n <= len (y_constants y0)) ->
  shape_of (y_par y) = Ok h ->
  population s rs ->
  Forall (rule_fits K log2 h) rs ->
  disposable s0 ->
  exists cells : list cell,
    xcsf_save y s = Ok cells /\
    (forall rest : list cell,
     exists (y1 : system) (s1 : st body),
       xcsf_load K log2 y0 (cells ++ rest) s0 = Ok (y1, rest, s1) /\
       params_restored y y0 y1 /\
       stats s1 = stats s /\
       population s1 (map rule_restored rs) /\
       untouched s0 s1 /\
       NoDup (set_list (s_pset s1)) /\
       (forall l : loc, In l (set_list (s_pset s1)) -> s_heap s0 l = None) /\
       (forall l : loc, In l (set_list (s_pset s0)) -> s_heap s1 l = None) /\
       (forall l : loc,
        ~ In l (set_list (s_pset s1)) -> ~ In l (set_list (s_pset s0)) -> s_heap s1 l = s_heap s0 l) /\
       (forall l : nat, (s_next s1 <= l)%nat -> s_heap s1 l = None)).
Proof. exact @C34_lemma. Qed.
Print Assumptions C34_round_trip.

(** Networks of connected, softmax, dropout and noise layers: what is read back is a sound network
    with the same outputs for every input (outside of training). *)
Theorem C34_network :
  forall n : nn f64,
  net_ok n ->
  faces n ->
  exists (cells : list cell) (n' : nn f64),
    net_save n = Ok cells /\
    (forall (rest : list cell) (g : rng), exists g' : rng, net_load (cells ++ rest) g = Ok (n', rest, g')) /\
    net_ok n' /\
    faces n' /\
    nn_inputs n' = nn_inputs n /\
    nn_outputs n' = nn_outputs n /\
    (forall (lm : libm) (x : list f64) (g : rng),
     nn_inputs n <= len x ->
     exists a a' : nn f64,
       neural_propagate lm false n x g = Ok (a, g) /\
       neural_propagate lm false n' x g = Ok (a', g) /\
       (forall i : Z,
        0 <= i < nn_outputs n -> exists y : f64, neural_output a i = Ok y /\ neural_output a' i = Ok y)).
Proof. exact @C34_network_lemma. Qed.
Print Assumptions C34_network.

(** Without room for the constants loading always writes outside of their array (gp.c:528). *)
Theorem C34_overflow :
  forall (K : cfg) (log2 : f64 -> f64) (y y0 : system) (s s0 : st body) (h : shape) 
    (rs : list (cl body)) (n : Z),
  savable y ->
  ints (y_par y) i_GP_N_CONSTANTS = Some n ->
  len (y_constants y0) < n ->
  shape_of (y_par y) = Ok h ->
  population s rs ->
  Forall (rule_fits K log2 h) rs ->
  disposable s0 ->
  exists cells : list cell,
    xcsf_save y s = Ok cells /\
    (forall rest : list cell, xcsf_load K log2 y0 (cells ++ rest) s0 = UB OutOfBounds).
Proof. exact @C34_overflow_lemma. Qed.
Print Assumptions C34_overflow.

(** REFUTED as stated (any existing system): one GP constant in the existing system, three in the
    file. *)
Theorem C34_refuted :
  exists
    (K : cfg) (log2 : f64 -> f64) (y y0 : system) (s s0 : st body) (h : shape) 
  (rs : list (cl body)) (cells : list cell),
    savable y /\
    savable y0 /\
    shape_of (y_par y) = Ok h /\
    population s rs /\
    Forall (rule_fits K log2 h) rs /\
    disposable s0 /\ xcsf_save y s = Ok cells /\ xcsf_load K log2 y0 cells s0 = UB OutOfBounds.
Proof. exact @C34_refuted_lemma. Qed.
Print Assumptions C34_refuted.

(** The hypotheses are met; loading over a system with another population and other parameters. *)
Example C34_example : savable (small_sys 3 2 1) /\ shape_of (small_par 3 2 1) = Ok small_shape /\
  population (small_state [rule_a; rule_b] [1; 0]%nat) [rule_b; rule_a] /\ Forall (rule_fits K0 small_log2 small_shape) [rule_b; rule_a] /\
  disposable (small_state [rule_b] [0]%nat) /\
  match xcsf_save (small_sys 3 2 1) (small_state [rule_a; rule_b] [1; 0]%nat) with
  | Ok cells => match xcsf_load K0 small_log2 (small_sys 5 4 2) (cells ++ [int_ 9]) (small_state [rule_b] [0]%nat) with
     | Ok ((y, rest), s) => rest = [int_ 9] /\ ints (y_par y) i_X_DIM = Some 2 /\ set_list (s_pset s) = [1; 2]%nat /\ set_nm (s_pset s) = 5 /\
         map (fun l => option_map (fun c => (c_num c, c_action c)) (s_heap s l)) [0; 1; 2]%nat = [None; Some (2, 0); Some (3, 1)]
     | _ => False end
  | _ => False
  end.
Proof.
  split; [apply small_savable; lia|]. split; [apply small_shape_of|]. split; [exact small_population|].
  split; [apply Forall_cons; [apply small_fits|]; apply Forall_cons; [apply small_fits|apply Forall_nil]|].
  split; [exact small_disposable|]. vm_compute. repeat split.
Qed.
Example C34_network_example : net_ok two_layers /\ faces two_layers /\
  match net_save two_layers with Ok cells => 20 <? Z.of_nat (length cells) | _ => false end = true.
Proof. split; [exact two_layers_ok|]. split; [eexists; split; reflexivity|]. vm_compute. reflexivity. Qed.
