(** * Properties that do not hold of the code as stated: concrete executions. *)
From Coq Require Import ZArith Bool List Reals Lia.
From Flocq Require Import Core BinarySingleNaN.
From Verif Require Import Outcome F64 F64Facts F64Bounds Rng RngFacts Pop PopSpec PopTrial PopFit PopRL PopOps PopSeq
  Arr Cond Blas Pred Loss Comp CompFacts PropPop Demo DemoEx.
Import ListNotations.
Open Scope Z_scope.

Lemma run_ok {B T} (m : M B T) s {U} (f : T -> st B -> U) v : run m s f = Some v -> exists a s', m s = Ok (a, s') /\ f a s' = v.
Proof. unfold run. destruct (m s) as [[a s']| | |]; try discriminate. intros H. exists a, s'. split; [reflexivity|congruence]. Qed.

(** C13: three offspring asked for, four created. *)
Lemma C13_state : exists s, Inv (Kl 3 f1) 0 (cost 3 f1 six) (rect_wf (Kl 3 f1)) s [] /\ PopSpec.act_ok s (s_mset s) /\
  set_nm (s_pset s) <= POP_SIZE (Kl 3 f1) /\
  run (ea (rect_tab (Kl 3 f1)) (Kl 3 f1) MSET) s (fun _ s' => Nat.eqb (s_next s') (s_next s + 4)) = Some true.
Proof.
  apply (look_match 3 f1 six x1 false (fun s => run (ea (rect_tab (Kl 3 f1)) (Kl 3 f1) MSET) s (fun _ s' => Nat.eqb (s_next s') (s_next s + 4))) _);
  [apply six_fine|vm_compute; discriminate|reflexivity|vm_compute; reflexivity].
Qed.
Lemma C13_refuted_lemma :
  exists (B : Type) (V : vtab B) (K : cfg) (wf : B -> Prop) (mt : B -> list f64 -> Prop) (N : Z) (s s' : st B),
    cfg_ok K 0 /\ vt_ok (dom := any_x) True V K wf mt /\ Inv K 0 N wf s [] /\ PopSpec.act_ok s (s_mset s) /\
    ea_lambda K = 3 /\ ea V K MSET s = Ok (tt, s') /\ s_next s' = (s_next s + 4)%nat.
Proof.
  destruct C13_state as (s & I & A & P & H). destruct (run_ok _ _ _ _ H) as ([] & s' & E & F).
  exists body, (rect_tab (Kl 3 f1)), (Kl 3 f1), (rect_wf (Kl 3 f1)), (rect_mt (Kl 3 f1)), (cost 3 f1 six), s, s'.
  split; [apply Kl_ok|]. split; [apply Vl_ok|]. split; [exact I|]. split; [exact A|]. split; [reflexivity|]. split; [exact E|].
  apply Nat.eqb_eq, F.
Qed.

(** C17: covering takes a micro-rule from a rule in the match set. *)
Notation K0 := (Kl 2 (of_Z 2)).
Lemma C17_state : exists s, is_ready 2 (of_Z 2) (cost 2 (of_Z 2) eight) s /\
  run (clset_match (rect_tab K0) K0 x3 true) s (fun _ s' => (set_nm (s_mset s'), sum_nums (s_heap s') (set_list (s_mset s')))) = Some (9, 8).
Proof.
  apply (look_stage 2 (of_Z 2) eight (fun s => run (clset_match (rect_tab K0) K0 x3 true) s (fun _ s' => (set_nm (s_mset s'), sum_nums (s_heap s') (set_list (s_mset s'))))) _);
  [apply eight_fine|vm_compute; discriminate|vm_compute; reflexivity].
Qed.
Lemma C17_refuted_lemma :
  exists (B : Type) (V : vtab B) (K : cfg) (wf : B -> Prop) (mt : B -> list f64 -> Prop) (N : Z) (x : list f64) (s s' : st B),
    cfg_ok K 0 /\ vt_ok (dom := any_x) True V K wf mt /\ xok K any_x x /\ Inv K 0 N wf s [] /\ s_mset s = empty_set /\
    set_nm (s_pset s) <= POP_SIZE K /\ clset_match V K x true s = Ok (tt, s') /\
    set_nm (s_mset s') = 9 /\ sum_nums (s_heap s') (set_list (s_mset s')) = 8.
Proof.
  destruct C17_state as (s & (I & P & G & M & A & Ks) & H). destruct (run_ok _ _ _ _ H) as ([] & s' & E & F).
  exists body, (rect_tab K0), K0, (rect_wf K0), (rect_mt K0), (cost 2 (of_Z 2) eight), x3, s, s'.
  split; [apply Kl_ok|]. split; [apply Vl_ok|]. split; [split; [reflexivity|exact Logic.I]|]. split; [exact I|].
  split; [exact M|]. split; [exact P|]. split; [exact E|]. injection F as F1 F2. auto.
Qed.
