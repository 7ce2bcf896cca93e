(** * Specification vocabulary for the population model.

    Nothing here refers to the model's functions: only to its data (heap, sets, rules). *)
From Coq Require Import ZArith Bool List Reals.
From Flocq Require Import Core BinarySingleNaN.
From Verif Require Import Outcome F64 F64Facts F64Bounds Rng Pop.
Import ListNotations.
Open Scope Z_scope.

(** A run that may only end normally with [Q], by exit(), or - if [FO] - by exhausting
    fuel; never by undefined behaviour. *)
Definition hpost {B A} (FO : Prop) (m : outcome (A * st B)) (Q : A -> st B -> Prop) : Prop :=
  match m with
  | Ok (a, s') => Q a s'
  | Exit => True
  | UB _ => False
  | OutOfFuel => FO
  end.

(** The same for computations that only draw random numbers; for every generator state. *)
Definition rpost {A} (FO : Prop) (m : RM A) (Q : A -> Prop) : Prop :=
  forall g, match m g with
            | Ok (a, _) => Q a
            | Exit => True
            | UB _ => False
            | OutOfFuel => FO
            end.

(** [m] can return [a] for some sequence of random numbers. *)
Definition rout {A} (m : RM A) (a : A) : Prop := exists g g', m g = Ok (a, g').

(** Numerosity stored at a location, and total numerosity of a list of locations. *)
Definition num_of {B} (h : loc -> option (cl B)) (l : loc) : Z :=
  match h l with Some c => c_num c | None => 0 end.
Fixpoint sum_nums {B} (h : loc -> option (cl B)) (ls : list loc) : Z :=
  match ls with [] => 0 | l :: r => num_of h l + sum_nums h r end.

(** ** What is required of the parameters: the ranges the setters enforce, minus NaN and
    negative zero for the initial fitness.  [kf] bounds the initial fitness by 2^kf. *)
Record cfg_ok (K : cfg) (kf : Z) : Prop := {
  ok_kf : 0 <= kf <= 400;
  ok_n_actions : 1 <= n_actions K <= int_max;
  ok_x_dim : 1 <= x_dim K;
  ok_y_dim : 1 <= y_dim K;
  ok_pop : 1 <= POP_SIZE K <= int_max;
  ok_beta : fin_in 0 1 (BETA K);
  ok_alpha : fin_in 0 1 (ALPHA K);
  ok_delta : fpos (DELTA K);
  ok_e0 : fpos (E0 K);
  ok_nu : fpos (NU K);
  ok_init_fitness : fin_p (bpow radix2 kf) (INIT_FITNESS K);
  ok_fit_reduc : fin_p 1 (ea_fit_reduc K);
  ok_pow : pow_ok (m_pow (lm K))
}.

(** ** The vtable contract.  [wf]: the payload is well formed; [mt b x]: the rule's
    condition matches x; [dom]: the inputs the condition can be evaluated on
    (e.g. no NaN for ternary conditions). *)
Definition xok (K : cfg) (dom : list f64 -> Prop) (x : list f64) : Prop :=
  Z.of_nat (length x) = x_dim K /\ dom x.

Record vt_ok {B} {dom : list f64 -> Prop} (FO : Prop) (V : vtab B) (K : cfg) (wf : B -> Prop)
  (mt : B -> list f64 -> Prop) : Prop := {
  vo_rand : rpost FO (b1 <- v_cond_init V (v_blank V) ;; b2 <- v_pred_init V b1 ;;
                      v_act_init V b2)%rng wf;
  vo_copy : forall src, wf src ->
    rpost FO (b1 <- v_act_copy V (v_blank V) src ;; b2 <- v_cond_copy V b1 src ;;
              v_pred_copy V b2 src)%rng wf;
  vo_copy_reset : forall src, wf src ->
    rpost FO (b1 <- v_act_copy V (v_blank V) src ;; b2 <- v_cond_copy V b1 src ;;
              v_pred_init V b2)%rng wf;
  vo_cond_cover : forall b x, wf b -> xok K dom x ->
    rpost FO (v_cond_cover V b x) (fun b' => wf b' /\ mt b' x);
  vo_act_cover : forall b x a, wf b -> xok K dom x ->
    0 <= a < n_actions K -> mt b x ->
    rpost FO (v_act_cover V b x a) (fun b' => wf b' /\ mt b' x);
  vo_match : forall b x, wf b -> xok K dom x ->
    rpost FO (v_cond_match V b x) (fun r => wf (fst r) /\ (snd r = true <-> mt (fst r) x));
  vo_compute : forall b x, wf b -> xok K dom x -> mt b x ->
    rpost FO (v_act_compute V b x)
      (fun r => wf (fst r) /\ 0 <= snd r < n_actions K /\ mt (fst r) x);
  vo_predict : forall b p x, wf b -> Z.of_nat (length p) = y_dim K ->
    xok K dom x ->
    rpost FO (v_pred_compute V b p x)
      (fun r => wf (fst r) /\ Z.of_nat (length (snd r)) = y_dim K);
  vo_cond_update : forall b x y, wf b -> xok K dom x ->
    Z.of_nat (length y) = y_dim K -> rpost FO (v_cond_update V b x y) wf;
  vo_act_update : forall b x y, wf b -> xok K dom x ->
    Z.of_nat (length y) = y_dim K -> rpost FO (v_act_update V b x y) wf;
  vo_pred_update : forall b e p x y, wf b -> 1 <= e -> Z.of_nat (length p) = y_dim K ->
    xok K dom x -> Z.of_nat (length y) = y_dim K ->
    rpost FO (v_pred_update V b e p x y)
      (fun r => wf (fst r) /\ Z.of_nat (length (snd r)) = y_dim K);
  vo_cond_crossover : forall b1 b2, wf b1 -> wf b2 ->
    rpost FO (v_cond_crossover V b1 b2) (fun r => wf (fst (fst r)) /\ wf (snd (fst r)));
  vo_act_crossover : forall b1 b2, wf b1 -> wf b2 ->
    rpost FO (v_act_crossover V b1 b2) (fun r => wf (fst (fst r)) /\ wf (snd (fst r)));
  vo_pred_crossover : forall b1 b2, wf b1 -> wf b2 ->
    rpost FO (v_pred_crossover V b1 b2) (fun r => wf (fst (fst r)) /\ wf (snd (fst r)));
  vo_cond_mutate : forall b, wf b -> rpost FO (v_cond_mutate V b) (fun r => wf (fst r));
  vo_act_mutate : forall b, wf b -> rpost FO (v_act_mutate V b) (fun r => wf (fst r));
  vo_pred_mutate : forall b, wf b -> rpost FO (v_pred_mutate V b) (fun r => wf (fst r))
}.

Section Inv.
Context {B : Type} (K : cfg) (kf : Z) (N : Z) (wf : B -> Prop).

(** ** A well-formed rule.  [N] bounds the number of updates any rule has received. *)
Record rule_ok (c : cl B) : Prop := {
  ro_fit : fin_p (bpow radix2 kf) (c_fit c);
  ro_size : fin_in 1 (bpow radix2 33) (c_size c);
  ro_action : 0 <= c_action c < n_actions K;
  ro_pred : Z.of_nat (length (c_prediction c)) = y_dim K;
  ro_exp : 0 <= c_exp c <= N;
  ro_body : wf (c_body c)
}.

(** ** A set whose counters are exact and whose rules all have numerosity >= 1. *)
Record set_ok (h : loc -> option (cl B)) (S : cset) : Prop := {
  so_size : set_sz S = Z.of_nat (length (set_list S));
  so_num : set_nm S = sum_nums h (set_list S);
  so_pos : forall l, In l (set_list S) -> 1 <= num_of h l
}.

(** Everything that owns a rule: population, kill set, stored population, and rules just
    allocated but not yet placed ([ex]). *)
Definition owned (P Kl Q : cset) (ex : list loc) : list loc :=
  set_list P ++ set_list Kl ++ set_list Q ++ ex.

(** ** The bookkeeping invariant. *)
Record inv (h : loc -> option (cl B)) (n : loc) (P Kl Q : cset) (ex : list loc) : Prop := {
  i_nodup : NoDup (owned P Kl Q ex);
  i_live : forall l, h l <> None <-> In l (owned P Kl Q ex);
  i_next : forall l, h l <> None -> (l < n)%nat;
  i_ok : forall l c, h l = Some c -> rule_ok c;
  i_p : set_ok h P;
  i_k : set_sz Kl = Z.of_nat (length (set_list Kl)) /\ set_nm Kl = 0 /\
        forall l, In l (set_list Kl) -> num_of h l = 0;
  i_q : set_ok h Q;
  i_ex : forall l, In l ex -> num_of h l = 1
}.
Definition Inv (s : st B) (ex : list loc) : Prop :=
  inv (s_heap s) (s_next s) (s_pset s) (s_kset s) (s_prev_pset s) ex.

(** A set that refers only to rules of the population ([act_ok]), or to rules of the
    population or of the kill set ([sub_ok]), each once. *)
Definition sub_ok (s : st B) (S : cset) : Prop :=
  NoDup (set_list S) /\ set_sz S = Z.of_nat (length (set_list S)) /\
  forall l, In l (set_list S) -> In l (set_list (s_pset s)) \/ In l (set_list (s_kset s)).
Definition act_ok (s : st B) (S : cset) : Prop :=
  NoDup (set_list S) /\ set_sz S = Z.of_nat (length (set_list S)) /\
  forall l, In l (set_list S) -> In l (set_list (s_pset s)).

(** ** Between trials. *)
Record Good (s : st B) : Prop := {
  g_inv : inv (s_heap s) (s_next s) (s_pset s) empty_set (s_prev_pset s) [];
  g_lim : set_nm (s_pset s) <= POP_SIZE K;
  g_lim_prev : set_nm (s_prev_pset s) <= POP_SIZE K
}.
End Inv.

Arguments ro_fit {B K kf N wf c} _.
Arguments ro_size {B K kf N wf c} _.
Arguments ro_action {B K kf N wf c} _.
Arguments ro_pred {B K kf N wf c} _.
Arguments ro_exp {B K kf N wf c} _.
Arguments ro_body {B K kf N wf c} _.
Arguments so_size {B h S} _.
Arguments so_num {B h S} _.
Arguments so_pos {B h S} _ _ _.
Arguments i_nodup {B K kf N wf h n P Kl Q ex} _.
Arguments i_live {B K kf N wf h n P Kl Q ex} _ _.
Arguments i_next {B K kf N wf h n P Kl Q ex} _ _ _.
Arguments i_ok {B K kf N wf h n P Kl Q ex} _ _ _ _.
Arguments i_p {B K kf N wf h n P Kl Q ex} _.
Arguments i_k {B K kf N wf h n P Kl Q ex} _.
Arguments i_q {B K kf N wf h n P Kl Q ex} _.
Arguments i_ex {B K kf N wf h n P Kl Q ex} _ _ _.
Arguments g_inv {B K kf N wf s} _.
Arguments g_lim {B K kf N wf s} _.
Arguments g_lim_prev {B K kf N wf s} _.
