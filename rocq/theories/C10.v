(** * C10 Accuracy is positive and ordered by error. *)
From Coq Require Import ZArith Bool List Reals.
From Flocq Require Import Core BinarySingleNaN.
From Verif Require Import Outcome F64 F64Facts F64Bounds Rng Pop PopSpec PopSel PopDel PopMset PopUpdate PopEA PopPA PopTrial PopFit PopRL PropTrial PropFrame PropSel PropRef Cond Pred Comp PropTrial Demo DemoEx.
Import ListNotations.
Open Scope Z_scope.

(** Accuracy is 1 up to the error threshold, otherwise the power function with a floor; always in
    [2^-52, 1]. *)
Theorem C10_accuracy :
  forall (B : Type) (K : cfg) (kf : Z),
  cfg_ok K kf ->
  forall c : cl B,
  (fgt (c_err c) (E0 K) = false -> cl_acc K c = f1) /\
  (fgt (c_err c) (E0 K) = true ->
   cl_acc K c = fmax (fmul (ALPHA K) (m_pow (lm K) (fdiv (c_err c) (E0 K)) (fneg (NU K)))) dbl_epsilon /\
   fin_in (bpow radix2 (-52)) (Rmax (B2R (ALPHA K)) (bpow radix2 (-52))) (cl_acc K c)) /\
  fin_in (bpow radix2 (-52)) 1 (cl_acc K c).
Proof. exact @C10_lemma. Qed.
Print Assumptions C10_accuracy.

(** A rule's share of the accuracy sum is in [0, 1] and the sum is positive. *)
Theorem C10_share :
  forall (B : Type) (K : cfg) (kf : Z),
  cfg_ok K kf ->
  forall (cs : list (cl B)) (c : cl B),
  In c cs ->
  Forall (fun d : cl B => 1 <= c_num d <= 2 ^ 53) cs ->
  flt f0 (acc_sum K cs) = true /\ fin_in 0 1 (fdiv (fmul (cl_acc K c) (of_Z (c_num c))) (acc_sum K cs)).
Proof. exact @C10_share_lemma. Qed.
Print Assumptions C10_share.

(** A larger error never gives a larger accuracy, if the power function of the platform is antitone
    where it should be. *)
Theorem C10_order :
  forall (B : Type) (K : cfg) (kf : Z),
  cfg_ok K kf ->
  forall c1 c2 : cl B,
  (forall a b y : f64,
   fle f1 a = true ->
   fle a b = true -> fle y f0 = true -> fle (m_pow (lm K) b y) (m_pow (lm K) a y) = true) ->
  is_finite (E0 K) = true ->
  flt f0 (E0 K) = true ->
  is_finite (c_err c1) = true ->
  is_finite (c_err c2) = true ->
  fle (c_err c1) (c_err c2) = true -> fle (cl_acc K c2) (cl_acc K c1) = true.
Proof. exact @C10_order_lemma. Qed.
Print Assumptions C10_order.

(** Errors 1/2 (the threshold) and 3/4. *)
Example C10_example :
  cfg_ok (Kl 2 (of_Z 2)) 0 /\ vt_ok (dom := any_x) True (rect_tab (Kl 2 (of_Z 2))) (Kl 2 (of_Z 2)) (rect_wf (Kl 2 (of_Z 2))) (rect_mt (Kl 2 (of_Z 2))) /\
  exists s : st body, is_ready 2 (of_Z 2) (cost 2 (of_Z 2) six) s /\
    option_map (fun c => map (fun e => parts (cl_acc (Kl 2 (of_Z 2)) (set_err e c))) [lit 1 2; lit 3 4]) (s_heap s 0%nat) =
      (Some [Some (false, 4503599627370496%positive, -52); Some (false, 7205759403792794%positive, -57)]).
Proof.
  split; [apply Kl_ok|split; [apply Vl_ok|]].
  apply (look_stage 2 (of_Z 2) six (fun s => option_map (fun c => map (fun e => parts (cl_acc (Kl 2 (of_Z 2)) (set_err e c))) [lit 1 2; lit 3 4]) (s_heap s 0%nat)) _);
    [apply six_fine|vm_compute; discriminate|vm_compute; reflexivity].
Qed.
