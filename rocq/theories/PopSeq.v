(** * Arbitrary sequences of public operations. *)
From Coq Require Import ZArith Bool List Reals Lia Lra Permutation.
From Flocq Require Import Core BinarySingleNaN.
From Verif Require Import Outcome F64 F64Facts F64Bounds Rng RngFacts Pop PopSpec PopInv PopSel PopDel
  PopCover PopMatch PopMset PopUpdate PopEA PopPA PopTrial PopFit PopRL PopOps.
Import ListNotations.
Open Scope Z_scope.

Section Seq.
Context {B : Type} (FO : Prop) (V : vtab B) (K : cfg) (kf : Z) (wf : B -> Prop) (mt : B -> list f64 -> Prop).
Hypothesis CO : cfg_ok K kf.
Context {dom : list f64 -> Prop}.
Hypothesis VO : vt_ok (dom := dom) FO V K wf mt.
Hypothesis HT : ea_tournament K = true -> FO.
Context {E : Type} (VE : env E) (einv : E -> Prop) (EO : env_ok FO K (dom := dom) VE einv).
Notation Good N := (Good K kf N wf).

(** The public operations on an initialised system. *)
Inductive op :=
| OFit (d : input) (test : option input) (shuffle : bool) (start trials : Z)
| OPredict (xs : list (list f64)) (cover : option (list f64))
| OScore (d : input) (n : Z) (cover : option (list f64))
| ORlFit (state : list f64) (action : Z) (reward : f64)
| ORlTrial (e : E) (explore : bool)
| OInsert (c : cl B)
| OStore
| ORetrieve.

Definition run_op (o : op) : M B unit :=
  match o with
  | OFit d test shuffle start trials => _ <~ supervised_fit V K d test shuffle start trials ;; mret tt
  | OPredict xs cover => _ <~ supervised_predict V K xs cover ;; mret tt
  | OScore d n cover => _ <~ supervised_score_n V K d n cover ;; mret tt
  | ORlFit x a r => _ <~ rl_fit V K x a r ;; mret tt
  | ORlTrial e ex => _ <~ rl_trial V K VE e ex ;; mret tt
  | OInsert c => insert_cl V K c
  | OStore => store_pset V K
  | ORetrieve => retrieve_pset
  end.
Fixpoint run_ops (os : list op) : M B unit :=
  match os with [] => mret tt | o :: r => run_op o ;;; run_ops r end.

(** How much experience an operation can add to a rule. *)
Definition cost (o : op) : Z :=
  match o with
  | OFit _ _ _ _ trials => trials
  | ORlFit _ _ _ => 2
  | ORlTrial _ _ => 2 * TELETRANSPORTATION K
  | OInsert c => c_exp c
  | _ => 0
  end.
Definition costs (os : list op) : Z := fold_right (fun o z => cost o + z) 0 os.

(** Arguments the operations accept: arrays of the configured sizes; for reinforcement
    learning one output, and a compiler that tolerates an empty variable-length array;
    inserted rules are well formed. *)
Definition op_ok (o : op) : Prop :=
  match o with
  | OFit d test _ start trials => data_ok K (dom := dom) d /\ (forall t, test = Some t -> data_ok K (dom := dom) t) /\ 0 <= start /\ 0 <= trials
  | OPredict xs cover => Forall (fun x => xok K dom x) xs /\ cover_ok K cover
  | OScore d n cover => data_ok K (dom := dom) d /\ cover_ok K cover /\ 0 <= n
  | ORlFit x _ _ => xok K dom x /\ y_dim K = 1 /\ vla0_is_ub K = false
  | ORlTrial e _ => einv e /\ y_dim K = 1 /\ vla0_is_ub K = false /\ 0 <= TELETRANSPORTATION K /\ FO
  | OInsert c => rule_ok K kf (c_exp c) wf c /\ 1 <= c_num c
  | _ => True
  end.

Lemma cost_nonneg o : op_ok o -> 0 <= cost o.
Proof.
  destruct o; cbn [op_ok cost]; intros H; try lia.
  destruct H as ([] & _). lia.
Qed.

Lemma drop_result {A} (m : M B A) s (P : A -> st B -> Prop) (Q : st B -> Prop) :
  hpost FO (m s) P -> (forall a s', P a s' -> Q s') -> hpost FO ((_ <~ m ;; mret tt) s) (fun _ s' => Q s').
Proof. intros H H2. eapply hp_bind; [exact H|]. intros a s' HP. apply hp_ret. eapply H2, HP. Qed.

Lemma run_op_spec N o s : 0 <= N -> op_ok o -> N + cost o <= 2 ^ 53 -> Good N s ->
  hpost FO (run_op o s) (fun _ s' => Good (N + cost o) s').
Proof.
  intros N0 OK LE G. destruct o as [d test shuffle start trials|xs cover|d n cover|x a r|e ex|c| |]; cbn [run_op op_ok cost] in *.
  - destruct OK as (D & DT & S0 & T0).
    eapply drop_result; [apply (fit_spec FO V K kf wf mt CO VO HT N); assumption|]. intros e s' (es & _ & _ & _ & G'). exact G'.
  - destruct OK as (D & C). rewrite Z.add_0_r.
    eapply drop_result; [apply (predict_call_spec FO V K kf wf mt CO VO HT N); assumption|]. intros e s' (_ & G'). exact G'.
  - destruct OK as (D & C & n0). rewrite Z.add_0_r.
    eapply drop_result; [apply (score_n_spec FO V K kf wf mt CO VO HT N); assumption|]. intros e s' (_ & G'). exact G'.
  - destruct OK as (Lx & Y1 & HV). destruct (Z_le_dec 0 a) as [A1|A1]; [destruct (Z_lt_dec a (n_actions K)) as [A2|A2]|].
    + eapply drop_result; [apply (rl_fit_spec FO V K kf wf mt CO VO HT Y1 HV N); auto; lia|]. intros e s' (_ & G'). exact G'.
    + eapply drop_result; [apply (rl_fit_bad_action FO V K kf wf mt CO VO Y1 N); auto; lia|]. intros e s' [].
    + eapply drop_result; [apply (rl_fit_bad_action FO V K kf wf mt CO VO Y1 N); auto; lia|]. intros e s' [].
  - destruct OK as (He & Y1 & HV & T0 & F).
    eapply drop_result; [apply (rl_trial_spec FO V K kf wf mt CO VO HT Y1 HV VE einv EO N); assumption|].
    intros ((e', p), er) s' (_ & _ & G'). exact G'.
  - destruct OK as (R & NP). pose proof (ro_exp R).
    eapply hp_mono; [apply (insert_spec FO V K kf wf CO (N + c_exp c)); [|eapply rule_ok_mono; [|exact R]; lia|exact NP]|].
    + eapply Good_mono; [|exact G]. lia.
    + intros [] s' (_ & G'). exact G'.
  - rewrite Z.add_0_r. eapply hp_mono; [apply (store_spec FO V K kf wf mt CO VO N s G)|]. intros [] s' (_ & G'). exact G'.
  - rewrite Z.add_0_r. destruct (retrieve_spec K kf wf CO N s G) as (s' & E1 & _ & G'). rewrite E1. exact G'.
Qed.

Lemma run_ops_spec os : forall N s, 0 <= N -> Forall op_ok os -> N + costs os <= 2 ^ 53 -> Good N s ->
  hpost FO (run_ops os s) (fun _ s' => Good (N + costs os) s').
Proof.
  induction os as [|o r IH]; intros N s N0 F LE G; cbn [run_ops costs fold_right].
  - apply hp_ret. rewrite Z.add_0_r. exact G.
  - inversion F as [|? ? F1 F2]; subst. cbn [costs fold_right] in LE. fold (costs r) in LE.
    assert (CR : 0 <= costs r).
    { clear -F2. induction F2 as [|o r H _ IH]; cbn [costs fold_right]; [lia|]. fold (costs r). pose proof (cost_nonneg _ H). lia. }
    pose proof (cost_nonneg _ F1).
    eapply hp_bind; [apply (run_op_spec N o s N0 F1); [lia|exact G]|].
    intros [] s1 G1. eapply hp_mono; [apply (IH (N + cost o) s1); [lia|exact F2|lia|exact G1]|].
    intros [] s' G'. fold (costs r). rewrite Z.add_assoc. exact G'.
Qed.

(** The whole life of a system: created on an empty heap, used, freed. *)
Lemma life_spec os s : (forall l, s_heap s l = None) -> Forall op_ok os -> costs os <= 2 ^ 53 ->
  hpost FO ((xcsf_init V K ;;; run_ops os) s) (fun _ s' => Good (costs os) s').
Proof.
  intros HE F LE. eapply hp_bind; [apply (init_spec FO V K kf wf mt CO VO s HE)|].
  intros [] s1 (_ & G). apply (run_ops_spec os 0 s1 ltac:(lia) F LE G).
Qed.
Lemma life_free_spec os s : (forall l, s_heap s l = None) -> Forall op_ok os -> costs os <= 2 ^ 53 ->
  hpost FO ((xcsf_init V K ;;; run_ops os ;;; xcsf_free K) s) (fun _ s' => forall l, s_heap s' l = None).
Proof.
  intros HE F LE. eapply hp_bind; [apply (init_spec FO V K kf wf mt CO VO s HE)|].
  intros [] s1 (_ & G). eapply hp_bind; [apply (run_ops_spec os 0 s1 ltac:(lia) F LE G)|].
  intros [] s2 G2. destruct (free_spec K kf wf _ s2 G2) as (s3 & E1 & H & _). rewrite E1. exact H.
Qed.
End Seq.
