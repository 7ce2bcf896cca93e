(** * Connected layers: what the passes compute, in any arithmetic. *)
From Coq Require Import ZArith Bool List Lia.
From Verif Require Import Outcome F64 Rng Sam Arr ArrFacts Blas BlasFacts Clock Dgp Act Image Layer.
Import ListNotations.
Open Scope Z_scope.

(** ** Arrays *)
Lemma at_repeat {A} (d x : A) n i : 0 <= i < n -> at_ d (repeat x (Z.to_nat n)) i = x.
Proof.
  intros H. unfold at_. assert (L : (Z.to_nat i < Z.to_nat n)%nat) by lia. revert L. generalize (Z.to_nat i) as k.
  induction (Z.to_nat n) as [|m IH]; intros k L; [lia|]. destruct k; [reflexivity|]. cbn. apply IH. lia.
Qed.
Lemma len_zeros {A} (z : A) n : 0 <= n -> len (zeros z n) = n.
Proof. intros H. apply len_repeat. exact H. Qed.
Lemma at_zeros {A} (z : A) n i d : 0 <= i < n -> at_ d (zeros z n) i = z.
Proof. apply at_repeat. Qed.
Lemma len_realloc {A} (j : A) n l : 0 <= n -> len (realloc j n l) = n.
Proof. intros H. unfold len, realloc. rewrite app_length, firstn_length, repeat_length. lia. Qed.
Lemma at_realloc {A} (d j : A) n l i : 0 <= i < n -> i < len l -> at_ d (realloc j n l) i = at_ d l i.
Proof.
  intros H L. unfold len in L. unfold at_, realloc. rewrite app_nth1 by (rewrite firstn_length; lia).
  rewrite <- (firstn_skipn (Z.to_nat n) l) at 2. rewrite app_nth1 by (rewrite firstn_length; lia). reflexivity.
Qed.
Lemma copy_n_ok {A} (d : A) n src dst : 0 <= n <= len src -> n <= len dst ->
  exists dst', copy_n n src dst = Ok dst' /\ len dst' = len dst /\
    (forall i, 0 <= i < n -> at_ d dst' i = at_ d src i) /\ (forall i, n <= i -> at_ d dst' i = at_ d dst i).
Proof.
  intros N D. unfold copy_n.
  destruct (ofor_ind (fun i (d' : list A) => len d' = len dst /\ (forall k, 0 <= k < i -> at_ d d' k = at_ d src k) /\
      (forall k, i <= k -> at_ d d' k = at_ d dst k))
    (fun i d0 => obind (rd src i) (fun x => wr d0 i x)) n dst) as (d' & E & L & H1 & H2).
  - lia.
  - split; [reflexivity|]. split; [intros; lia|auto].
  - intros i d1 I (L & H1 & H2). rewrite (rd_ok d) by lia. cbn [obind].
    destruct (wr_ok d1 i (at_ d src i) ltac:(lia)) as (d2 & W & W1 & W2 & W3 & _).
    exists d2. split; [exact W|]. split; [lia|]. split.
    + intros k K. destruct (Z.eq_dec k i) as [->|NE]; [apply W2|rewrite W3 by lia; apply H1; lia].
    + intros k K. rewrite W3 by lia. apply H2. lia.
  - exists d'. auto.
Qed.
Lemma copy_all {A} n (src dst : list A) : 0 <= n -> len src = n -> len dst = n -> copy_n n src dst = Ok src.
Proof.
  intros N S D. destruct src as [|x src']; [cbn in S; subst n; unfold copy_n; destruct dst; [reflexivity|discriminate D]|].
  destruct (copy_n_ok x n (x :: src') dst ltac:(lia) ltac:(lia)) as (d' & E & L & H & _).
  rewrite E. f_equal. apply (list_ext x); [lia|]. intros i I. apply H. lia.
Qed.
Lemma set_nth_at {A} (d : A) (l : list A) k v i : 0 <= k -> 0 <= i < len l -> at_ d (set_nth l (Z.to_nat k) v) i = if i =? k then v else at_ d l i.
Proof.
  intros K I. unfold at_, len in *. destruct (Z.eqb_spec i k) as [->|NE]; [apply nth_set_eq; lia|apply nth_set_ne; lia].
Qed.
Lemma set_nth_len {A} (l : list A) k v : len (set_nth l k v) = len l.
Proof. unfold len. now rewrite len_set_nth. Qed.

(** ** Layers *)

(** The arrays of a connected layer have the sizes the fields say. *)
Record conn_shape {T} (l : layer T) : Prop := {
  cs_in : 0 <= l_n_inputs l; cs_out : 0 <= l_n_outputs l;
  cs_w : l_n_weights l = l_n_inputs l * l_n_outputs l; cs_b : l_n_biases l = l_n_outputs l;
  cs_state : len (l_state l) = l_n_outputs l; cs_output : len (l_output l) = l_n_outputs l;
  cs_biases : len (l_biases l) = l_n_outputs l; cs_bu : len (l_bias_updates l) = l_n_outputs l;
  cs_delta : len (l_delta l) = l_n_outputs l;
  cs_weights : len (l_weights l) = l_n_weights l; cs_wu : len (l_weight_updates l) = l_n_weights l;
  cs_active : len (l_active l) = l_n_weights l
}.

Section Any.
Context {T : Type} (A : arith T).
Let Q := a_num A.
Let d := n0 Q.

Lemma activate_ok state output n a (f : T -> T) : (forall x, neural_activate A a x = Ok (f x)) ->
  0 <= n <= len state -> n <= len output ->
  exists st out, neural_activate_array A state output n a = Ok (st, out) /\ len st = len state /\ len out = len output /\
    (forall i, 0 <= i < n -> at_ d st i = aclamp A (at_ d state i) (a_Z A NEURON_MIN) (a_Z A NEURON_MAX) /\ at_ d out i = f (at_ d st i)) /\
    (forall i, n <= i -> at_ d st i = at_ d state i /\ at_ d out i = at_ d output i).
Proof.
  intros F N O. unfold neural_activate_array.
  destruct (ofor_ind (fun i (so : list T * list T) => len (fst so) = len state /\ len (snd so) = len output /\
      (forall k, 0 <= k < i -> at_ d (fst so) k = aclamp A (at_ d state k) (a_Z A NEURON_MIN) (a_Z A NEURON_MAX) /\ at_ d (snd so) k = f (at_ d (fst so) k)) /\
      (forall k, i <= k -> at_ d (fst so) k = at_ d state k /\ at_ d (snd so) k = at_ d output k))
    (fun i so => obind (rd (fst so) i) (fun s => let s1 := aclamp A s (a_Z A NEURON_MIN) (a_Z A NEURON_MAX) in
       obind (wr (fst so) i s1) (fun st => obind (neural_activate A a s1) (fun o => obind (wr (snd so) i o) (fun out => Ok (st, out))))))
    n (state, output)) as ((st & out) & E & L1 & L2 & H1 & H2).
  - lia.
  - cbn [fst snd]. split; [reflexivity|]. split; [reflexivity|]. split; [intros; lia|auto].
  - intros i (st & out) I (L1 & L2 & H1 & H2). cbn [fst snd] in *. rewrite (rd_ok d) by lia. cbn [obind]. cbv zeta.
    destruct (wr_ok st i (aclamp A (at_ d st i) (a_Z A NEURON_MIN) (a_Z A NEURON_MAX)) ltac:(lia)) as (st2 & -> & W1 & W2 & W3 & _). cbn [obind].
    rewrite F. cbn [obind].
    destruct (wr_ok out i (f (aclamp A (at_ d st i) (a_Z A NEURON_MIN) (a_Z A NEURON_MAX))) ltac:(lia)) as (o2 & -> & V1 & V2 & V3 & _). cbn [obind].
    exists (st2, o2). cbn [fst snd]. split; [reflexivity|]. split; [lia|]. split; [lia|]. split.
    + intros k K. destruct (Z.eq_dec k i) as [->|NE].
      * rewrite V2, W2. destruct (H2 i ltac:(lia)) as (-> & _). auto.
      * rewrite W3, V3 by lia. apply H1. lia.
    + intros k K. rewrite W3, V3 by lia. apply H2. lia.
  - exists st, out. split; [exact E|]. cbn [fst snd] in *. auto.
Qed.
Lemma gradient_ok state delta n a (g : T -> T) : (forall x, neural_gradient A a x = Ok (g x)) ->
  0 <= n <= len state -> n <= len delta ->
  exists delta', neural_gradient_array A state delta n a = Ok delta' /\ len delta' = len delta /\
    (forall i, 0 <= i < n -> at_ d delta' i = nmul Q (at_ d delta i) (g (at_ d state i))) /\
    (forall i, n <= i -> at_ d delta' i = at_ d delta i).
Proof.
  intros F N O. unfold neural_gradient_array.
  destruct (ofor_ind (fun i (d' : list T) => len d' = len delta /\
     (forall k, 0 <= k < i -> at_ d d' k = nmul Q (at_ d delta k) (g (at_ d state k))) /\
     (forall k, i <= k -> at_ d d' k = at_ d delta k))
    (fun i delta => obind (rd state i) (fun s => obind (neural_gradient A a s) (fun g => modify_at delta i (fun d => nmul Q d g)))) n delta)
    as (d' & E1 & L & H1 & H2).
  - lia.
  - split; [reflexivity|]. split; [intros k K; lia|auto].
  - intros i d1 I (L & H1 & H2). rewrite (rd_ok d) by lia. cbn [obind]. rewrite F. cbn [obind].
    unfold modify_at. rewrite (rd_ok d) by lia. cbn [obind].
    destruct (wr_ok d1 i (nmul Q (at_ d d1 i) (g (at_ d state i))) ltac:(lia)) as (d2 & W & W1 & W2 & W3 & _).
    exists d2. split; [exact W|]. split; [lia|]. split.
    + intros k K. destruct (Z.eq_dec k i) as [->|NE]; [rewrite W2, H2 by lia; reflexivity|rewrite W3 by lia; apply H1; lia].
    + intros k K. rewrite W3 by lia. apply H2. lia.
  - exists d'. auto.
Qed.

(** The weighted sum of neuron i, in the order of the code. *)
Definition net_in (l : layer T) (input : list T) (i : Z) : T :=
  gemm_entry Q false true (l_n_inputs l) (a_Z A 1) input (l_n_inputs l) (l_weights l) (l_n_inputs l) (a_Z A 1) 0 i (at_ d (l_biases l) i).

Lemma connected_forward_ok l input (f : T -> T) : conn_shape l -> l_n_inputs l <= len input ->
  (forall x, neural_activate A (l_function l) x = Ok (f x)) ->
  exists st out, connected_forward A l input = Ok (set_state st (set_output out l)) /\ len st = l_n_outputs l /\ len out = l_n_outputs l /\
    (forall i, 0 <= i < l_n_outputs l -> at_ d st i = aclamp A (net_in l input i) (a_Z A NEURON_MIN) (a_Z A NEURON_MAX) /\ at_ d out i = f (at_ d st i)).
Proof.
  intros C LI F. destruct C. unfold connected_forward. rewrite copy_all by (assumption || lia). cbn [obind].
  destruct (blas_gemm_ok Q false true 1 (l_n_outputs l) (l_n_inputs l) (a_Z A 1) input (l_n_inputs l) (l_weights l) (l_n_inputs l)
    (a_Z A 1) (l_biases l) (l_n_outputs l)) as (C' & EC & L' & B1 & B2).
  - split; [lia|]. split; [lia|]. intros i j Hi Hj. nia.
  - lia.
  - intros i k Hi Hk. nia.
  - intros k j Hk Hj. nia.
  - fold Q. rewrite EC. cbn [obind].
    destruct (activate_ok C' (l_output l) (l_n_outputs l) (l_function l) f F ltac:(lia) ltac:(lia)) as (st & out & EA & LS & LO & H1 & _).
    rewrite EA. cbn [obind fst snd]. exists st, out. split; [reflexivity|]. split; [lia|]. split; [lia|].
    intros i I. destruct (H1 i I) as (E1 & E2). split; [|exact E2]. rewrite E1. f_equal.
    specialize (B1 0 i ltac:(lia) I). change (0 * l_n_outputs l + i) with i in B1. exact B1.
Qed.

Lemma connected_backward_ok l input od (g : T -> T) : conn_shape l -> l_n_inputs l <= len input ->
  (forall x, neural_gradient A (l_function l) x = Ok (g x)) ->
  (forall dl, od = Some dl -> l_n_inputs l <= len dl) ->
  exists l' od', connected_backward A l input od = Ok (l', od') /\
    (exists dd bu wu, l' = set_delta dd (set_bias_updates bu (set_weight_updates wu l)) /\
       len dd = l_n_outputs l /\ len bu = l_n_outputs l /\ len wu = l_n_weights l /\
       (forall i, 0 <= i < l_n_outputs l -> at_ d dd i = nmul Q (at_ d (l_delta l) i) (g (at_ d (l_state l) i))) /\
       (if has l SGD_WEIGHTS then
          (forall i, 0 <= i < l_n_outputs l -> at_ d bu i = nadd Q (at_ d (l_bias_updates l) i)
             (if nne Q (a_Z A 1) (n1 Q) then nmul Q (a_Z A 1) (at_ d dd i) else at_ d dd i)) /\
          (forall i j, 0 <= i < l_n_outputs l -> 0 <= j < l_n_inputs l -> at_ d wu (i * l_n_inputs l + j) =
             gemm_entry Q true false 1 (a_Z A 1) dd (l_n_outputs l) input (l_n_inputs l) (a_Z A 1) i j (at_ d (l_weight_updates l) (i * l_n_inputs l + j)))
        else bu = l_bias_updates l /\ wu = l_weight_updates l) /\
       match od with
       | None => od' = None
       | Some dl => exists dl', od' = Some dl' /\ len dl' = len dl /\
           (forall j, 0 <= j < l_n_inputs l -> at_ d dl' j =
              gemm_entry Q false false (l_n_outputs l) (a_Z A 1) dd (l_n_outputs l) (l_weights l) (l_n_inputs l) (a_Z A 1) 0 j (at_ d dl j)) /\
           (forall j, l_n_inputs l <= j -> at_ d dl' j = at_ d dl j)
       end).
Proof.
  intros C LI G LD. destruct C. unfold connected_backward.
  destruct (gradient_ok (l_state l) (l_delta l) (l_n_outputs l) (l_function l) g G ltac:(lia) ltac:(lia)) as (dd & -> & Ldd & Hdd & _).
  cbn [obind]. fold Q.
  assert (STEP : exists bu wu,
    (if has (set_delta dd l) SGD_WEIGHTS then
       obind (blas_axpy Q (l_n_outputs (set_delta dd l)) (a_Z A 1) (l_delta (set_delta dd l)) 1 (l_bias_updates (set_delta dd l)) 0 1) (fun bu =>
       obind (blas_gemm Q true false (l_n_outputs (set_delta dd l)) (l_n_inputs (set_delta dd l)) 1 (a_Z A 1) (l_delta (set_delta dd l)) (l_n_outputs (set_delta dd l))
               input (l_n_inputs (set_delta dd l)) (a_Z A 1) (l_weight_updates (set_delta dd l)) (l_n_inputs (set_delta dd l))) (fun wu =>
       Ok (set_bias_updates bu (set_weight_updates wu (set_delta dd l)))))
     else Ok (set_delta dd l)) = Ok (set_delta dd (set_bias_updates bu (set_weight_updates wu l))) /\
    len bu = l_n_outputs l /\ len wu = l_n_weights l /\
    (if has l SGD_WEIGHTS then
          (forall i, 0 <= i < l_n_outputs l -> at_ d bu i = nadd Q (at_ d (l_bias_updates l) i)
             (if nne Q (a_Z A 1) (n1 Q) then nmul Q (a_Z A 1) (at_ d dd i) else at_ d dd i)) /\
          (forall i j, 0 <= i < l_n_outputs l -> 0 <= j < l_n_inputs l -> at_ d wu (i * l_n_inputs l + j) =
             gemm_entry Q true false 1 (a_Z A 1) dd (l_n_outputs l) input (l_n_inputs l) (a_Z A 1) i j (at_ d (l_weight_updates l) (i * l_n_inputs l + j)))
        else bu = l_bias_updates l /\ wu = l_weight_updates l)).
  { change (has (set_delta dd l) SGD_WEIGHTS) with (has l SGD_WEIGHTS). destruct (has l SGD_WEIGHTS).
    - cbn [l_n_outputs l_n_inputs l_delta l_bias_updates l_weight_updates l_n_weights l_weights set_delta set_bias_updates set_weight_updates] in *.
      match goal with |- context [blas_axpy Q ?N ?a dd 1 ?Y 0 1] => destruct (blas_axpy_ok Q N a dd 1 Y 0 1) as (bu & -> & SB1 & SB2 & _) end;
        [lia|lia|intros i Hi; lia|intros i Hi; lia|]. cbn [obind].
      match goal with |- context [blas_gemm Q true false ?M ?N 1 ?a dd ?lda input ?ldb ?b ?C ?ldc] =>
        destruct (blas_gemm_ok Q true false M N 1 a dd lda input ldb b C ldc) as (wu & -> & SW1 & SW2 & _) end;
        [split; [lia|split; [lia|intros; nia]]|lia|intros i k Hi Hk; nia|intros k j Hk Hj; nia|]. cbn [obind].
      exists bu, wu. split; [reflexivity|]. split; [lia|]. split; [lia|]. split.
      + intros i Hi. specialize (SB2 i Hi). replace (0 + i * 1) with i in SB2 by lia. replace (i * 1) with i in SB2 by lia. exact SB2.
      + intros i j Hi Hj. exact (SW2 i j Hi Hj).
    - exists (l_bias_updates l), (l_weight_updates l). split; [reflexivity|]. auto. }
  destruct STEP as (bu & wu & -> & Lbu & Lwu & HS). cbn [obind].
  destruct od as [dl|].
  - specialize (LD dl eq_refl). cbn [l_n_outputs l_n_inputs l_delta l_bias_updates l_weight_updates l_n_weights l_weights set_delta set_bias_updates set_weight_updates] in *.
    match goal with |- context [blas_gemm Q false false ?M ?N ?K ?a dd ?lda ?B ?ldb ?b dl ?ldc] =>
        destruct (blas_gemm_ok Q false false M N K a dd lda B ldb b dl ldc) as (dl' & -> & L' & SW2 & SW3) end;
      [split; [lia|split; [lia|intros; nia]]|lia|intros i k Hi Hk; nia|intros k j Hk Hj; nia|]. cbn [obind].
    eexists _, _. split; [reflexivity|]. exists dd, bu, wu. split; [reflexivity|]. split; [lia|]. split; [lia|]. split; [lia|]. split; [exact Hdd|].
    split; [exact HS|]. exists dl'. split; [reflexivity|]. split; [lia|]. split.
    + intros j Hj. specialize (SW2 0 j ltac:(lia) Hj). rewrite Z.mul_0_l, Z.add_0_l in SW2. exact SW2.
    + intros j Hj. apply SW3; [lia|]. intros i k Hi Hk. nia.
  - eexists _, _. split; [reflexivity|]. exists dd, bu, wu. split; [reflexivity|]. split; [lia|]. split; [lia|]. split; [lia|]. split; [exact Hdd|].
    split; [exact HS|reflexivity].
Qed.
End Any.
