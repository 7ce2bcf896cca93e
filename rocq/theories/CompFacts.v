(** * The contracts of the parts, and that every combination of parts meets [vt_ok]. *)
From Coq Require Import ZArith Bool List Lia Reals.
From Flocq Require Import Core BinarySingleNaN.
From Verif Require Import Outcome F64 Rng F64Facts RngFacts Pop F64Bounds PopSpec PopInv Arr Sam Cond Blas Pred ArrFacts SamFacts
  TernFacts RectFacts EllipFacts BlasFacts PredFacts Comp.
Import ListNotations.
Open Scope Z_scope.

Section Contract.
Context (dom : list f64 -> Prop) (FO : Prop) (K : cfg).

Record cond_ok {C} (V : condT C) (wf : C -> Prop) (mt : C -> list f64 -> Prop) : Prop := {
  ko_init : rpost FO (k_init V) wf;
  ko_copy : forall c, wf c -> rpost FO (k_copy V c) wf;
  ko_cover : forall c x, wf c -> xok K dom x -> rpost FO (k_cover V c x) (fun c' => wf c' /\ mt c' x);
  ko_match : forall c x, wf c -> xok K dom x ->
    rpost FO (k_match V c x) (fun r => wf (fst r) /\ (snd r = true <-> mt (fst r) x));
  ko_update : forall c x y, wf c -> xok K dom x -> Z.of_nat (length y) = y_dim K -> rpost FO (k_update V c x y) wf;
  ko_general : forall c1 c2, wf c1 -> wf c2 -> exists b, k_general V c1 c2 = Ok b;
  ko_crossover : forall c1 c2, wf c1 -> wf c2 -> rpost FO (k_crossover V c1 c2) (fun r => wf (fst (fst r)) /\ wf (snd (fst r)));
  ko_mutate : forall c, wf c -> rpost FO (k_mutate V c) (fun r => wf (fst r))
}.
Record act_ok {A} (V : actT A) (wf : A -> Prop) : Prop := {
  io_init : rpost FO (i_init V) wf;
  io_copy : forall a, wf a -> rpost FO (i_copy V a) wf;
  io_cover : forall a x n, wf a -> xok K dom x -> 0 <= n < n_actions K -> rpost FO (i_cover V a x n) wf;
  io_compute : forall a x, wf a -> xok K dom x -> rpost FO (i_compute V a x) (fun r => wf (fst r) /\ 0 <= snd r < n_actions K);
  io_update : forall a x y, wf a -> xok K dom x -> Z.of_nat (length y) = y_dim K -> rpost FO (i_update V a x y) wf;
  io_general : forall a1 a2, wf a1 -> wf a2 -> exists b, i_general V a1 a2 = Ok b;
  io_crossover : forall a1 a2, wf a1 -> wf a2 -> rpost FO (i_crossover V a1 a2) (fun r => wf (fst (fst r)) /\ wf (snd (fst r)));
  io_mutate : forall a, wf a -> rpost FO (i_mutate V a) (fun r => wf (fst r))
}.
Record pred_ok {P} (V : predT P) (wf : P -> Prop) : Prop := {
  qo_init : rpost FO (q_init V) wf;
  qo_copy : forall p, wf p -> rpost FO (q_copy V p) wf;
  qo_compute : forall p v x, wf p -> Z.of_nat (length v) = y_dim K -> xok K dom x ->
    rpost FO (q_compute V p v x) (fun r => wf (fst r) /\ Z.of_nat (length (snd r)) = y_dim K);
  qo_update : forall p e v x y, wf p -> 1 <= e -> Z.of_nat (length v) = y_dim K -> xok K dom x -> Z.of_nat (length y) = y_dim K ->
    rpost FO (q_update V p e v x y) (fun r => wf (fst r) /\ Z.of_nat (length (snd r)) = y_dim K);
  qo_crossover : forall p1 p2, wf p1 -> wf p2 -> rpost FO (q_crossover V p1 p2) (fun r => wf (fst (fst r)) /\ wf (snd (fst r)));
  qo_mutate : forall p, wf p -> rpost FO (q_mutate V p) (fun r => wf (fst r))
}.

Context {C A P : Type} (VC : condT C) (VA : actT A) (VP : predT P)
  (wc : C -> Prop) (mt : C -> list f64 -> Prop) (wa : A -> Prop) (wp : P -> Prop).
Notation pay := (payload C A P).
Definition wf_pay (b : pay) : Prop :=
  (exists c, y_cond b = Some c /\ wc c) /\ (exists a, y_act b = Some a /\ wa a) /\ (exists p, y_pred b = Some p /\ wp p).
Definition mt_pay (b : pay) (x : list f64) : Prop := exists c, y_cond b = Some c /\ mt c x.

Lemma rp_bind {T U} (m : RM T) (k : T -> RM U) (P1 : T -> Prop) (Q : U -> Prop) :
  rpost FO m P1 -> (forall a, P1 a -> rpost FO (k a) Q) -> rpost FO (bind m k) Q.
Proof.
  intros Hm Hk g. unfold bind. pose proof (Hm g) as H. destruct (m g) as [[a g1]| | |]; try exact H. apply (Hk a H g1).
Qed.
Lemma rp_need {T U} (o : option T) t (k : T -> RM U) (Q : U -> Prop) : o = Some t -> rpost FO (k t) Q -> rpost FO (bind (need o) k) Q.
Proof. intros -> H g. exact (H g). Qed.
Lemma rp_then {T U} (m : RM T) (P1 : T -> Prop) (f : T -> U) (Q : U -> Prop) :
  rpost FO m P1 -> (forall a, P1 a -> Q (f a)) -> rpost FO (bind m (fun a => ret (f a))) Q.
Proof. intros H HQ. eapply rp_bind; [exact H|]. intros a Ha. apply rp_ret, HQ, Ha. Qed.

Lemma join_ok : cond_ok VC wc mt -> act_ok VA wa -> pred_ok VP wp -> vt_ok (dom := dom) FO (join VC VA VP) K wf_pay mt_pay.
Proof.
  intros HC HA HP. split; cbn [join v_blank v_cond_init v_act_init v_pred_init v_cond_copy v_act_copy v_pred_copy v_cond_cover v_act_cover
    v_cond_match v_act_compute v_pred_compute v_cond_update v_act_update v_pred_update v_cond_crossover v_act_crossover v_pred_crossover
    v_cond_mutate v_act_mutate v_pred_mutate].
  - eapply rp_bind with (P1 := fun b => exists c, b = mkPay (Some c) None None /\ wc c).
    { eapply rp_then; [apply (ko_init _ _ _ HC)|]. intros c Hc. exists c. auto. }
    intros b1 (c & -> & Hc). eapply rp_bind with (P1 := fun b => exists p, b = mkPay (Some c) None (Some p) /\ wp p).
    { eapply rp_then; [apply (qo_init _ _ HP)|]. intros p Hp. exists p. auto. }
    intros b2 (p & -> & Hp). eapply rp_then; [apply (io_init _ _ HA)|]. intros a Ha. split; [exists c; auto|]. split; [exists a; auto|exists p; auto].
  - intros src ((c & Ec & Hc) & (a & Ea & Ha) & (p & Ep & Hp)).
    eapply rp_bind with (P1 := fun b => exists a, b = mkPay None (Some a) None /\ wa a).
    { eapply rp_need; [exact Ea|]. eapply rp_then; [apply (io_copy _ _ HA), Ha|]. intros a' Ha'. exists a'. auto. }
    intros b1 (a' & -> & Ha'). eapply rp_bind with (P1 := fun b => exists c, b = mkPay (Some c) (Some a') None /\ wc c).
    { eapply rp_need; [exact Ec|]. eapply rp_then; [apply (ko_copy _ _ _ HC), Hc|]. intros c' Hc'. exists c'. auto. }
    intros b2 (c' & -> & Hc'). eapply rp_need; [exact Ep|]. eapply rp_then; [apply (qo_copy _ _ HP), Hp|].
    intros p' Hp'. split; [exists c'; auto|]. split; [exists a'; auto|exists p'; auto].
  - intros src ((c & Ec & Hc) & (a & Ea & Ha) & (p & Ep & Hp)).
    eapply rp_bind with (P1 := fun b => exists a, b = mkPay None (Some a) None /\ wa a).
    { eapply rp_need; [exact Ea|]. eapply rp_then; [apply (io_copy _ _ HA), Ha|]. intros a' Ha'. exists a'. auto. }
    intros b1 (a' & -> & Ha'). eapply rp_bind with (P1 := fun b => exists c, b = mkPay (Some c) (Some a') None /\ wc c).
    { eapply rp_need; [exact Ec|]. eapply rp_then; [apply (ko_copy _ _ _ HC), Hc|]. intros c' Hc'. exists c'. auto. }
    intros b2 (c' & -> & Hc'). eapply rp_then; [apply (qo_init _ _ HP)|].
    intros p' Hp'. split; [exists c'; auto|]. split; [exists a'; auto|exists p'; auto].
  - intros b x ((c & Ec & Hc) & WA & WP) HX. eapply rp_need; [exact Ec|]. eapply rp_then; [apply (ko_cover _ _ _ HC); eassumption|].
    intros c' (Hc' & M). split; [split; [exists c'; auto|split; assumption]|exists c'; auto].
  - intros b x n (WC & (a & Ea & Ha) & WP) HX Hn M. eapply rp_need; [exact Ea|]. eapply rp_then; [apply (io_cover _ _ HA); eassumption|].
    intros a' Ha'. split; [split; [exact WC|split; [exists a'; auto|exact WP]]|exact M].
  - intros b x ((c & Ec & Hc) & WA & WP) HX. eapply rp_need; [exact Ec|]. eapply rp_then; [apply (ko_match _ _ _ HC); eassumption|].
    intros r (Hr & M). split; [split; [exists (fst r); auto|split; assumption]|]. cbn [fst snd]. rewrite M. unfold mt_pay, set_cond. cbn [y_cond]. split.
    + intros H. exists (fst r). auto.
    + intros (c' & E & H). injection E as <-. exact H.
  - intros b x (WC & (a & Ea & Ha) & WP) HX M. eapply rp_need; [exact Ea|]. eapply rp_then; [apply (io_compute _ _ HA); eassumption|].
    intros r (Hr & Hn). split; [split; [exact WC|split; [exists (fst r); auto|exact WP]]|]. split; [exact Hn|exact M].
  - intros b v x (WC & WA & (p & Ep & Hp)) HV HX. eapply rp_need; [exact Ep|]. eapply rp_then; [apply (qo_compute _ _ HP); eassumption|].
    intros r (Hr & Hl). split; [split; [exact WC|split; [exact WA|exists (fst r); auto]]|exact Hl].
  - intros b x y ((c & Ec & Hc) & WA & WP) HX HY. eapply rp_need; [exact Ec|]. eapply rp_then; [apply (ko_update _ _ _ HC); eassumption|].
    intros c' Hc'. split; [exists c'; auto|split; assumption].
  - intros b x y (WC & (a & Ea & Ha) & WP) HX HY. eapply rp_need; [exact Ea|]. eapply rp_then; [apply (io_update _ _ HA); eassumption|].
    intros a' Ha'. split; [exact WC|split; [exists a'; auto|exact WP]].
  - intros b e v x y (WC & WA & (p & Ep & Hp)) HE HV HX HY. eapply rp_need; [exact Ep|]. eapply rp_then; [apply (qo_update _ _ HP); eassumption|].
    intros r (Hr & Hl). split; [split; [exact WC|split; [exact WA|exists (fst r); auto]]|exact Hl].
  - intros b1 b2 ((c1 & E1 & H1) & WA1 & WP1) ((c2 & E2 & H2) & WA2 & WP2). eapply rp_need; [exact E1|]. eapply rp_need; [exact E2|].
    eapply rp_then; [apply (ko_crossover _ _ _ HC); eassumption|]. intros r (R1 & R2). split; (split; [eexists; split; [reflexivity|assumption]|split; assumption]).
  - intros b1 b2 (WC1 & (c1 & E1 & H1) & WP1) (WC2 & (c2 & E2 & H2) & WP2). eapply rp_need; [exact E1|]. eapply rp_need; [exact E2|].
    eapply rp_then; [apply (io_crossover _ _ HA); eassumption|]. intros r (R1 & R2). split; (split; [assumption|split; [eexists; split; [reflexivity|assumption]|assumption]]).
  - intros b1 b2 (WC1 & WA1 & (c1 & E1 & H1)) (WC2 & WA2 & (c2 & E2 & H2)). eapply rp_need; [exact E1|]. eapply rp_need; [exact E2|].
    eapply rp_then; [apply (qo_crossover _ _ HP); eassumption|]. intros r (R1 & R2). split; (split; [assumption|split; [assumption|eexists; split; [reflexivity|assumption]]]).
  - intros b ((c & Ec & Hc) & WA & WP). eapply rp_need; [exact Ec|]. eapply rp_then; [apply (ko_mutate _ _ _ HC), Hc|].
    intros r Hr. split; [exists (fst r); auto|split; assumption].
  - intros b (WC & (a & Ea & Ha) & WP). eapply rp_need; [exact Ea|]. eapply rp_then; [apply (io_mutate _ _ HA), Ha|].
    intros r Hr. split; [exact WC|split; [exists (fst r); auto|exact WP]].
  - intros b (WC & WA & (p & Ep & Hp)). eapply rp_need; [exact Ep|]. eapply rp_then; [apply (qo_mutate _ _ HP), Hp|].
    intros r Hr. split; [exact WC|split; [exact WA|exists (fst r); auto]].
Qed.
(** Subsumption tests never fail, so [truth] hides nothing. *)
Lemma join_general_ok : cond_ok VC wc mt -> act_ok VA wa -> forall b1 b2, wf_pay b1 -> wf_pay b2 ->
  exists c1 c2 a1 a2 r s, y_cond b1 = Some c1 /\ y_cond b2 = Some c2 /\ y_act b1 = Some a1 /\ y_act b2 = Some a2 /\
    k_general VC c1 c2 = Ok r /\ i_general VA a1 a2 = Ok s /\
    v_cond_general (join VC VA VP) b1 b2 = r /\ v_act_general (join VC VA VP) b1 b2 = s.
Proof.
  intros HC HA b1 b2 ((c1 & E1 & H1) & (a1 & F1 & G1) & _) ((c2 & E2 & H2) & (a2 & F2 & G2) & _).
  destruct (ko_general _ _ _ HC c1 c2 H1 H2) as (r & ER). destruct (io_general _ _ HA a1 a2 G1 G2) as (s & ES).
  exists c1, c2, a1, a2, r, s. do 7 (split; try assumption); cbn; rewrite ?E1, ?E2, ?F1, ?F2, ?ER, ?ES; reflexivity.
Qed.
End Contract.

(** ** NLMS and RLS predictions. *)
Section Preds.
Context (J : rng -> Prop) (K : cfg) (R : ppar) (Zok : f64 -> Prop) (SR : src (lm K) J Zok).
Context (HX : 1 <= x_dim K) (HY : 1 <= y_dim K).
Notation rt := (rt J).
Notation nf q := (n_features (x_dim K) q).
Lemma nf_pos q : 1 <= nf q.
Proof. unfold n_features. destruct q; [|lia]. pose proof (Z.quot_pos (x_dim K * (x_dim K - 1)) 2). nia. Qed.

Definition fresh_weights (n : Z) (w : list f64) : Prop :=
  forall i k, 0 <= i < y_dim K -> 0 <= k < n -> at_ f0 w (i * n + k) = if k =? 0 then pp_x0 R else f0.
Lemma fresh_weights_ok n : 1 <= n -> exists w, init_weights f64_num (y_dim K) n (pp_x0 R) = Ok w /\ len w = n * y_dim K /\ fresh_weights n w.
Proof. intros H. destruct (init_weights_ok f64_num (y_dim K) n (pp_x0 R)) as (w & E & L & S); [lia|lia|]. exists w. split; [exact E|]. split; [exact L|exact S]. Qed.

Notation nq := (pp_type R =? PRED_TYPE_NLMS_QUADRATIC).
Definition wf_nlms (c : nlms) : Prop :=
  nl_n c = nf nq /\ len (nl_weights c) = nl_n c * y_dim K /\ length (nl_mu c) = 1%nat /\ len (nl_tmp c) = nl_n c.
(** A fresh learning rate: the configured one, or drawn between the two bounds. *)
Definition eta_init (eta : f64) : Prop :=
  if pp_evolve_eta R then drawn (pp_eta_min R) (pp_eta R) eta else eta = pp_eta R.
Lemma nlms_init_ok : rt (nlms_init K R) (fun c => wf_nlms c /\ fresh_weights (nl_n c) (nl_weights c) /\ eta_init (nl_eta c) /\
  if pp_evolve_eta R then Forall rate_ok (nl_mu c) else nl_mu c = [f0]).
Proof.
  unfold nlms_init, eta_init. pose proof (nf_pos nq) as HN. destruct (fresh_weights_ok (nf nq) HN) as (w & E & L & F).
  eapply rt_bind_lift; [exact E|]. destruct (pp_evolve_eta R).
  - eapply rt_bind; [apply (sam_init_ok J (lm K) Zok SR nlms_mu_type); repeat constructor|]. intros mu (L1 & F1).
    eapply rt_bind; [apply (rt_drawn J K Zok SR)|]. intros eta He. apply rt_ret. cbn [nl_n nl_weights nl_eta nl_mu].
    split; [|split; [exact F|split; [exact He|exact F1]]]. split; [reflexivity|]. split; [exact L|]. split; [exact L1|]. apply len_repeat. cbn [nl_n]. lia.
  - apply rt_ret. cbn [nl_n nl_weights nl_eta nl_mu]. split; [|split; [exact F|split; reflexivity]].
    split; [reflexivity|]. split; [exact L|]. split; [reflexivity|]. apply len_repeat. cbn [nl_n]. lia.
Qed.
Lemma overwrite_ok (d s : list f64) : len d = len s -> overwrite d s = Ok s.
Proof.
  intros H. unfold overwrite, len in *. destruct (Nat.ltb_spec (length d) (length s)); [lia|].
  rewrite skipn_all2 by lia. now rewrite app_nil_r.
Qed.
Lemma nlms_copy_ok c : wf_nlms c -> rt (nlms_copy K R c)
  (fun d => wf_nlms d /\ nl_weights d = nl_weights c /\ nl_mu d = nl_mu c /\ nl_eta d = nl_eta c).
Proof.
  intros (W1 & W2 & W3 & W4). unfold nlms_copy. eapply rt_bind; [apply nlms_init_ok|]. intros d ((D1 & D2 & D3 & D4) & _).
  eapply rt_bind_lift; [apply overwrite_ok; congruence|]. apply rt_ret. split; [|split; [reflexivity|split; reflexivity]].
  split; [exact D1|]. split; [cbn [nl_weights nl_n]; congruence|]. split; [exact W3|exact D4].
Qed.
Hypothesis NT : pp_type R = PRED_TYPE_NLMS_LINEAR \/ pp_type R = PRED_TYPE_NLMS_QUADRATIC.
Lemma nlms_quad : quad R = nq.
Proof. unfold quad. destruct NT as [-> | ->]; reflexivity. Qed.
(** The prediction: weights times features, one output at a time. *)
Lemma nlms_compute_ok c v x : wf_nlms c -> len v = y_dim K -> len x = x_dim K ->
  exists c' v', nlms_compute K R c v x = Ok (c', v') /\ wf_nlms c' /\ len v' = y_dim K /\
    nl_weights c' = nl_weights c /\ nl_mu c' = nl_mu c /\ nl_eta c' = nl_eta c /\
    nl_tmp c' = features f64_num nq (pp_x0 R) x /\
    forall i, 0 <= i < y_dim K -> at_ f0 v' i = predicted f64_num (nf nq) (nl_weights c) (features f64_num nq (pp_x0 R) x) i.
Proof.
  intros (W1 & W2 & W3 & W4) LV LX. unfold nlms_compute. rewrite nlms_quad, (transform_dim f64_num (x_dim K) nq x (pp_x0 R)) by congruence. cbn [obind]. pose proof (nf_pos nq) as HN.
  destruct (inner_products_ok f64_num (y_dim K) (nl_n c) (nl_weights c) (features f64_num nq (pp_x0 R) x) v) as (v' & E & L & S & _).
  - lia.
  - rewrite n_features_ok, LX, W1. lia.
  - exact W2.
  - rewrite E. cbn [obind]. eexists _, v'. split; [reflexivity|]. split.
    { split; [exact W1|]. split; [exact W2|]. split; [exact W3|]. cbn [nl_tmp nl_n]. rewrite n_features_ok, LX. congruence. }
    split; [congruence|]. do 4 (split; [reflexivity|]). intros i Hi. rewrite <- W1. exact (S i Hi).
Qed.
(** The update: every weight moves by step(i) times its feature, nothing else changes. *)
Lemma nlms_update_ok c v x y : wf_nlms c -> len v = y_dim K -> len x = x_dim K -> len y = y_dim K ->
  exists c', nlms_update K R c v x y = Ok c' /\ wf_nlms c' /\ nl_mu c' = nl_mu c /\ nl_eta c' = nl_eta c /\ nl_tmp c' = nl_tmp c /\
    forall i k, 0 <= i < y_dim K -> 0 <= k < nl_n c ->
      at_ f0 (nl_weights c') (i * nl_n c + k) =
      axpy1 f64_num (nlms_step f64_num (pp_x0 R) (nl_eta c) x y v i) (at_ f0 (nl_tmp c) k) (at_ f0 (nl_weights c) (i * nl_n c + k)).
Proof.
  intros (W1 & W2 & W3 & W4) LV LX LY. unfold nlms_update. rewrite <- LX. pose proof (nf_pos nq) as HN.
  destruct (nlms_weights_ok f64_num (y_dim K) (nl_n c) (pp_x0 R) (nl_eta c) x y v (nl_tmp c) (nl_weights c)) as (w & E & (L & S1 & _)).
  - lia.
  - lia.
  - rewrite W4, W1. lia.
  - exact W2.
  - rewrite E. cbn [obind]. eexists. split; [reflexivity|]. split; [split; [exact W1|split; [cbn [nl_weights nl_n]; congruence|split; [exact W3|exact W4]]]|].
    do 3 (split; [reflexivity|]). exact S1.
Qed.
Lemma nlms_mutate_gen (Qm : list f64 -> Prop) c : wf_nlms c ->
  (pp_evolve_eta R = true -> rt (sam_adapt (lm K) nlms_mu_type (nl_mu c)) (fun mu => length mu = 1%nat /\ Qm mu)) ->
  rt (nlms_mutate K R c) (fun r => let '(d, ch) := r in wf_nlms d /\ nl_weights d = nl_weights c /\ nl_tmp d = nl_tmp c /\
    (ch = true <-> pp_evolve_eta R = true /\ feq (nl_eta c) (nl_eta d) = false) /\
    if pp_evolve_eta R then Qm (nl_mu d) /\
      nudged Zok (fun v => clamp v (pp_eta_min R) (pp_eta R)) (at_ f0 (nl_mu d) 0) (nl_eta c) (nl_eta d)
    else d = c).
Proof.
  intros W HS. unfold nlms_mutate. destruct (pp_evolve_eta R).
  - eapply rt_bind; [apply HS; reflexivity|]. intros mu (L & Q). eapply rt_bind_lift; [apply (rd_ok f0); unfold len; rewrite L; lia|].
    eapply rt_bind; [apply (rt_normal J (lm K) Zok SR)|]. intros z (z0 & Hz & ->). apply rt_ret. destruct W as (W1 & W2 & W3 & W4).
    split; [split; [exact W1|split; [exact W2|split; [exact L|exact W4]]]|]. do 2 (split; [reflexivity|]). split.
    + cbn [nl_eta]. match goal with |- fne _ ?e = true <-> _ => set (v := e) end. unfold fne. fold (feq (nl_eta c) v). destruct (feq (nl_eta c) v); cbn [negb]; split; try discriminate; auto. intros (_ & H). discriminate H.
    + split; [exact Q|]. exists z0. split; [exact Hz|reflexivity].
  - apply rt_ret. split; [exact W|]. do 2 (split; [reflexivity|]). split; [|reflexivity]. split; [discriminate|]. intros (H & _). discriminate H.
Qed.

Notation rq := (pp_type R =? PRED_TYPE_RLS_QUADRATIC).
Definition wf_rls (c : rls) : Prop := let n := rl_n c in
  n = nf rq /\ len (rl_weights c) = n * y_dim K /\ len (rl_matrix c) = n * n /\ len (rl_tmp c) = n /\
  len (rl_vec c) = n /\ len (rl_mat1 c) = n * n /\ len (rl_mat2 c) = n * n.
Definition fresh_matrix (n : Z) (m : list f64) : Prop :=
  forall i j, 0 <= i < n -> 0 <= j < n -> at_ f0 m (i * n + j) = if i =? j then pp_scale_factor R else f0.
Lemma rls_init_ok : exists c, rls_init K R = Ok c /\ wf_rls c /\ fresh_weights (rl_n c) (rl_weights c) /\ fresh_matrix (rl_n c) (rl_matrix c).
Proof.
  unfold rls_init. pose proof (nf_pos rq) as HN. destruct (fresh_weights_ok (nf rq) HN) as (w & E & L & F). rewrite E. cbn [obind].
  destruct (init_matrix_ok f64_num (nf rq) (pp_scale_factor R)) as (m & EM & LM & SM); [lia|]. rewrite EM. cbn [obind].
  eexists. split; [reflexivity|]. split; [|split; [exact F|exact SM]]. unfold wf_rls. cbn [rl_n rl_weights rl_matrix rl_tmp rl_vec rl_mat1 rl_mat2].
  unfold alloc_tmp. rewrite !len_repeat by nia. auto 10.
Qed.
Lemma rls_copy_ok c : wf_rls c -> exists d, rls_copy K R c = Ok d /\ wf_rls d /\ rl_weights d = rl_weights c /\ fresh_matrix (rl_n d) (rl_matrix d).
Proof.
  intros (W1 & W2 & _). unfold rls_copy. destruct rls_init_ok as (d & E & (D1 & D2 & D3) & _ & F). rewrite E. cbn [obind].
  rewrite overwrite_ok by congruence. cbn [obind]. eexists. split; [reflexivity|]. split; [|split; [reflexivity|exact F]].
  split; [exact D1|]. cbn [rl_weights rl_n]. split; [congruence|exact D3].
Qed.
Hypothesis RT : pp_type R = PRED_TYPE_RLS_LINEAR \/ pp_type R = PRED_TYPE_RLS_QUADRATIC.
Lemma rls_quad : quad R = rq.
Proof. unfold quad. destruct RT as [-> | ->]; reflexivity. Qed.
Lemma rls_compute_ok c v x : wf_rls c -> len v = y_dim K -> len x = x_dim K ->
  exists c' v', rls_compute K R c v x = Ok (c', v') /\ wf_rls c' /\ len v' = y_dim K /\
    rl_weights c' = rl_weights c /\ rl_matrix c' = rl_matrix c /\ rl_tmp c' = features f64_num rq (pp_x0 R) x /\
    rl_vec c' = rl_vec c /\ rl_mat1 c' = rl_mat1 c /\ rl_mat2 c' = rl_mat2 c /\
    forall i, 0 <= i < y_dim K -> at_ f0 v' i = predicted f64_num (nf rq) (rl_weights c) (features f64_num rq (pp_x0 R) x) i.
Proof.
  intros (W1 & W2 & W3 & W4 & W5) LV LX. unfold rls_compute. rewrite rls_quad, (transform_dim f64_num (x_dim K) rq x (pp_x0 R)) by congruence. cbn [obind]. pose proof (nf_pos rq) as HN.
  destruct (inner_products_ok f64_num (y_dim K) (rl_n c) (rl_weights c) (features f64_num rq (pp_x0 R) x) v) as (v' & E & L & S & _).
  - lia.
  - rewrite n_features_ok, LX, W1. lia.
  - exact W2.
  - rewrite E. cbn [obind]. eexists _, v'. split; [reflexivity|]. split.
    { split; [exact W1|]. split; [exact W2|]. split; [exact W3|]. split; [|exact W5]. cbn [rl_tmp rl_n]. rewrite n_features_ok, LX. congruence. }
    split; [congruence|]. do 6 (split; [reflexivity|]). intros i Hi. rewrite <- W1. exact (S i Hi).
Qed.
Lemma rls_upd_ok c v y : wf_rls c -> len v = y_dim K -> len y = y_dim K ->
  exists c', rls_upd K R c v y = Ok c' /\ wf_rls c' /\ rl_tmp c' = rl_tmp c /\
    rls_result f64_num (y_dim K) (rl_n c) (pp_lambda R) y v (rl_tmp c) (rl_vec c) (rl_mat1 c) (rl_mat2 c) (rl_weights c) (rl_matrix c)
      (rl_weights c') (rl_matrix c') (rl_vec c') (rl_mat1 c') (rl_mat2 c').
Proof.
  intros (W1 & W2 & W3 & W4 & W5 & W6 & W7) LV LY. unfold rls_upd. pose proof (nf_pos rq) as HN.
  destruct (rls_update_ok f64_num (y_dim K) (rl_n c) (pp_lambda R) y v (rl_tmp c) (rl_vec c) (rl_mat1 c) (rl_mat2 c) (rl_weights c) (rl_matrix c))
    as (w & m & vv & a & b & E & H); try lia; try assumption.
  rewrite E. cbn [obind]. eexists. split; [reflexivity|]. split; [|split; [reflexivity|exact H]]. destruct H as [RV RA RB RW RP]. destruct RV as (RV & _), RA as (RA & _), RB as (RB & _), RW as (RW & _), RP as (RP & _).
  unfold wf_rls. cbn [rl_n rl_weights rl_matrix rl_tmp rl_vec rl_mat1 rl_mat2]. do 6 (split; [congruence|]). congruence.
Qed.
End Preds.

(** ** Every modelled part meets its contract. *)
Lemma rp_t {A} FO (m : RM A) (Q Q' : A -> Prop) : rt (fun _ => True) m Q -> (forall a, Q a -> Q' a) -> rpost FO m Q'.
Proof. intros H HQ. apply rt_rpost. eapply rt_mono; eassumption. Qed.
Lemma rp_lift {A} FO (o : outcome A) a (Q : A -> Prop) : o = Ok a -> Q a -> rpost FO (lift o) Q.
Proof. intros -> H g. exact H. Qed.

Section Instances.
Context (FO : Prop) (K : cfg) (P : cpar) (R : ppar).
Context (HX : 1 <= x_dim K) (HY : 1 <= y_dim K) (HN : 1 <= n_actions K <= int_max).
Notation any := (fun _ : list f64 => True).
Notation sany := (src_any (lm K)).

Lemma dummy_ok dom : cond_ok dom FO K dummy_cond (fun _ => True) (fun _ _ => True).
Proof.
  split; intros; try (eexists; reflexivity); apply rp_ret; cbn [fst snd]; auto. split; [exact I|]. split; auto.
Qed.
Lemma mu_len mu : length mu = 1%nat ->
  rt (fun _ => True) (sam_adapt (lm K) mu_type1 mu) (fun mu' => length mu' = 1%nat /\ True).
Proof.
  intros L. eapply rt_mono; [apply (sam_adapt_len _ _ _ sany mu_type1 mu); [repeat constructor|exact L]|]. intros mu' L'. auto.
Qed.
Lemma ternary_ok : 1 <= cp_bits P <= 31 -> m_pow (lm K) f2 (of_Z (cp_bits P)) = of_Z (2 ^ cp_bits P) ->
  cond_ok (Forall nn) FO K (ternary_cond K P) (wf_tern K P) (fun c x => accepts (x_dim K) (cp_bits P) (t_string c) x).
Proof.
  intros HB HP. split; cbn [ternary_cond k_init k_copy k_cover k_match k_update k_general k_crossover k_mutate].
  - eapply rp_t; [apply (ternary_init_ok _ K P _ sany); lia|]. intros c (W & _). exact W.
  - intros c W. apply rp_ret. destruct c. exact W.
  - intros c x W (LX & DX). eapply rp_t; [apply (ternary_cover_ok _ K P _ sany); try assumption; lia|].
    intros c' (W' & _ & H). split; [exact W'|apply (cover_accepts K P), H].
  - intros c x W (LX & DX). destruct (ternary_match_ok K P HX HB HP c x W LX DX) as (b & E & Hb).
    eapply rp_bind with (P1 := fun r => r = b); [eapply rp_lift; [exact E|reflexivity]|]. intros b' ->. apply rp_ret. auto.
  - intros c x y W _ _. apply rp_ret, W.
  - intros c1 c2 W1 W2. destruct (ternary_general_ok K P HB c1 c2 W1 W2) as (b & E & _). eauto.
  - intros c1 c2 W1 W2. eapply rp_t; [apply (ternary_crossover_ok _ K P _ sany); try assumption; lia|]. intros [[d1 d2] ch] (D1 & D2 & _). auto.
  - intros c W. eapply rp_t; [apply (ternary_mutate_gen _ K P _ sany) with (Qm := fun _ => True); try assumption; try lia; apply mu_len, W|]. intros [d ch] (D & _). exact D.
Qed.
Lemma rect_ok : flt (cp_spread_min P) f0 = false -> cond_ok any FO K (rect_cond K P) (wf_rect K) (box K P).
Proof.
  intros HS. split; cbn [rect_cond k_init k_copy k_cover k_match k_update k_general k_crossover k_mutate].
  - eapply rp_t; [apply (rect_init_ok _ K P _ sany); lia|]. intros c (W & _). exact W.
  - intros c W. eapply rp_lift; [apply rect_copy_ok; exact W|exact W].
  - intros c x W (LX & _). eapply rp_t; [apply (rect_cover_ok _ K P _ sany); try assumption; lia|].
    intros c' (W' & _ & H). split; [exact W'|apply covered_box; assumption].
  - intros c x W (LX & _). destruct (rect_match_ok K P HX c x W LX) as (b & E & Hb).
    eapply rp_bind with (P1 := fun r => r = b); [eapply rp_lift; [exact E|reflexivity]|]. intros b' ->. apply rp_ret. auto.
  - intros c x y W (LX & _) _. destruct (rect_update_ok K P HX c x W LX) as (c' & E & W' & _). eapply rp_lift; eassumption.
  - intros c1 c2 W1 W2. destruct (rect_general_ok K P HX c1 c2 W1 W2) as (b & E & _). eauto.
  - intros c1 c2 W1 W2. eapply rp_t; [apply (rect_crossover_ok _ K P _ sany); try assumption; lia|]. intros [[d1 d2] ch] (D1 & D2 & _). auto.
  - intros c W. eapply rp_t; [apply (rect_mutate_gen _ K P _ sany) with (Qm := fun _ => True); try assumption; try lia; apply mu_len, W|]. intros [d ch] (D & _). exact D.
Qed.
Notation fin := (fun v : f64 => is_finite v = true).
Lemma ellip_ok : fpos (cp_spread_min P) -> is_finite (cp_spread_min P) = true -> nn (spread_max P) ->
  (dbl_min <= B2R (cp_spread_min P))%R \/ (dbl_min <= X (spread_max P))%R ->
  cond_ok (Forall fin) FO K (ellip_cond K P) (wf_ellip K) (ball K).
Proof.
  intros H1 H2 H3 H4. split; cbn [ellip_cond k_init k_copy k_cover k_match k_update k_general k_crossover k_mutate].
  - eapply rp_t; [apply (ellip_init_ok _ K P _ sany); lia|]. intros c (W & _). exact W.
  - intros c W. eapply rp_lift; [apply ellip_copy_ok; exact W|exact W].
  - intros c x W (LX & DX). eapply rp_t; [apply (ellip_cover_ok _ K P _ sany); try assumption; lia|].
    intros c' (W' & _ & H). split; [exact W'|apply (ellip_covered_ball K P c' x); assumption].
  - intros c x W (LX & _). destruct (ellip_match_ok K HX c x W LX) as (b & E & Hb).
    eapply rp_bind with (P1 := fun r => r = b); [eapply rp_lift; [exact E|reflexivity]|]. intros b' ->. apply rp_ret. auto.
  - intros c x y W (LX & _) _. destruct (ellip_update_ok K P HX c x W LX) as (c' & E & W' & _). eapply rp_lift; eassumption.
  - intros c1 c2 W1 W2. destruct (ellip_general_ok K HX c1 c2 W1 W2) as (b & E & _). eauto.
  - intros c1 c2 W1 W2. eapply rp_t; [apply (ellip_crossover_ok _ K P _ sany); try assumption; lia|]. intros [[d1 d2] ch] (D1 & D2 & _). auto.
  - intros c W. eapply rp_t; [apply (ellip_mutate_gen _ K P _ sany) with (Qm := fun _ => True); try assumption; try lia; apply mu_len, W|]. intros [d ch] (D & _). exact D.
Qed.
Lemma integer_ok dom : act_ok dom FO K (integer_act K) (act_wf K).
Proof.
  split; cbn [integer_act i_init i_copy i_cover i_compute i_update i_general i_crossover i_mutate].
  - eapply rp_t; [apply (actint_init_ok _ K _ sany); lia|]. intros c (W & _). exact W.
  - intros a W. apply rp_ret. destruct a. exact W.
  - intros a x n W _ Hn. apply rp_ret. split; [exact Hn|apply W].
  - intros a x W _. apply rp_ret. split; [exact W|apply W].
  - intros a x y W _ _. apply rp_ret, W.
  - intros; eexists; reflexivity.
  - intros a1 a2 W1 W2. apply rp_ret. auto.
  - intros c W. eapply rp_t; [apply (actint_mutate_gen _ K _ sany) with (Qm := fun _ => True); try assumption; try lia; apply mu_len, W|]. intros [d ch] (D & _). exact D.
Qed.
Lemma constant_ok dom : pred_ok dom FO K (constant_pred K) (fun _ => True).
Proof.
  split; cbn [constant_pred q_init q_copy q_compute q_update q_crossover q_mutate].
  - now apply rp_ret.
  - intros. now apply rp_ret.
  - intros p v x _ L _. apply rp_ret. auto.
  - intros p e v x y _ He LV _ LY. unfold constant_upd.
    destruct (constant_update_ok f64_num (y_dim K) (flt (fmul (of_Z e) (BETA K)) f1) (of_Z e) (of_Z (e - 1)) (BETA K) v y) as (v' & E & L & _); [unfold len; lia|unfold len; lia|].
    eapply rp_bind with (P1 := fun r => r = v'); [eapply rp_lift; [exact E|reflexivity]|]. intros v1 ->. apply rp_ret. split; [exact I|].
    cbn [snd]. unfold len in L. congruence.
  - intros. now apply rp_ret.
  - intros. now apply rp_ret.
Qed.
Lemma nlms_ok dom : pp_type R = PRED_TYPE_NLMS_LINEAR \/ pp_type R = PRED_TYPE_NLMS_QUADRATIC -> pred_ok dom FO K (nlms_pred K R) (wf_nlms K R).
Proof.
  intros NT. split; cbn [nlms_pred q_init q_copy q_compute q_update q_crossover q_mutate].
  - eapply rp_t; [apply (nlms_init_ok _ K R _ sany HX HY)|]. intros c (W & _). exact W.
  - intros c W. eapply rp_t; [apply (nlms_copy_ok _ K R _ sany HX HY c W)|]. intros d (D & _). exact D.
  - intros c v x W LV (LX & _). destruct (nlms_compute_ok K R HX HY NT c v x W LV LX) as (c' & v' & E & W' & L & _). eapply rp_lift; [exact E|]. auto.
  - intros c e v x y W _ LV (LX & _) LY. destruct (nlms_update_ok K R HX HY c v x y W LV LX LY) as (c' & E & W' & _).
    eapply rp_bind with (P1 := fun r => r = c'); [eapply rp_lift; [exact E|reflexivity]|]. intros c1 ->. apply rp_ret. auto.
  - intros. apply rp_ret. auto.
  - intros c W. eapply rp_t; [apply (nlms_mutate_gen _ K R _ sany) with (Qm := fun _ => True); try assumption; intros; apply mu_len, W|]. intros [d ch] (D & _). exact D.
Qed.
Lemma rls_ok dom : pp_type R = PRED_TYPE_RLS_LINEAR \/ pp_type R = PRED_TYPE_RLS_QUADRATIC -> pred_ok dom FO K (rls_pred K R) (wf_rls K R).
Proof.
  intros NT. split; cbn [rls_pred q_init q_copy q_compute q_update q_crossover q_mutate].
  - destruct (rls_init_ok K R HX HY) as (c & E & W & _). eapply rp_lift; eassumption.
  - intros c W. destruct (rls_copy_ok K R HX HY c W) as (d & E & D & _). eapply rp_lift; eassumption.
  - intros c v x W LV (LX & _). destruct (rls_compute_ok K R HX HY NT c v x W LV LX) as (c' & v' & E & W' & L & _). eapply rp_lift; [exact E|]. auto.
  - intros c e v x y W _ LV _ LY. destruct (rls_upd_ok K R HX HY c v y W LV LY) as (c' & E & W' & _).
    eapply rp_bind with (P1 := fun r => r = c'); [eapply rp_lift; [exact E|reflexivity]|]. intros c1 ->. apply rp_ret. auto.
  - intros. apply rp_ret. auto.
  - intros c W. apply rp_ret. exact W.
Qed.
End Instances.
