(** * Pooling and upsampling layers, in any arithmetic (C47). *)
From Coq Require Import ZArith Bool List Lia Reals Lra.
From Verif Require Import Outcome F64 F64Facts Rng Sam Arr ArrFacts Blas BlasFacts Exact Clock Dgp Act ActFacts Image Layer LayerFacts.
Import ListNotations.
Open Scope Z_scope.

(** ** Loops *)
Lemma ofor_max {S} n (f : Z -> S -> outcome S) s : ofor n f s = ofor (Z.max 0 n) f s.
Proof. unfold ofor. replace (Z.to_nat (Z.max 0 n)) with (Z.to_nat n) by lia. reflexivity. Qed.
Lemma ofor_ext {S} n (f g : Z -> S -> outcome S) s : (forall i s, f i s = g i s) -> ofor n f s = ofor n g s.
Proof.
  intros H. unfold ofor. generalize 0 as z. revert s. induction (Z.to_nat n) as [|m IH]; intros s z; cbn [oloop]; [reflexivity|].
  rewrite H. destruct (g z s); cbn [obind]; auto.
Qed.
Lemma ofor_empty {S} n (f : Z -> S -> outcome S) s : n <= 0 -> ofor n f s = Ok s.
Proof. intros H. unfold ofor. replace (Z.to_nat n) with O by lia. reflexivity. Qed.

(** A loop each of whose steps either succeeds or exits with a reason [X]. *)
Definition okx {S} (m : outcome S) (P : S -> Prop) (X : Prop) : Prop := (exists s, m = Ok s /\ P s) \/ (m = Exit /\ X).
Lemma okx_bind {S U} (m : outcome S) (k : S -> outcome U) P Q X : okx m P X -> (forall s, P s -> okx (k s) Q X) -> okx (obind m k) Q X.
Proof. intros [(s & -> & H)|(-> & H)] K; [apply K, H|right; auto]. Qed.
Lemma okx_mono {S} (m : outcome S) (P Q : S -> Prop) (X Y : Prop) : okx m P X -> (forall s, P s -> Q s) -> (X -> Y) -> okx m Q Y.
Proof. intros [(s & -> & H)|(-> & H)] K L; [left; eauto|right; auto]. Qed.
Lemma oloop_x {S} (I : Z -> S -> Prop) (X : Prop) (f : Z -> S -> outcome S) (n : nat) : forall i s,
  (forall j s, i <= j < i + Z.of_nat n -> I j s -> okx (f j s) (I (j + 1)) X) ->
  I i s -> okx (oloop n i f s) (I (i + Z.of_nat n)) X.
Proof.
  induction n as [|n IH]; intros i s HF HI.
  - left. exists s. rewrite Z.add_0_r. auto.
  - cbn [oloop]. eapply okx_bind; [apply HF; [lia|exact HI]|]. intros s1 H1.
    replace (i + Z.of_nat (Datatypes.S n)) with (i + 1 + Z.of_nat n) by lia. apply IH; [|exact H1].
    intros j s2 Hj. apply HF. lia.
Qed.
Lemma ofor_x {S} (I : Z -> S -> Prop) (X : Prop) (f : Z -> S -> outcome S) n s : 0 <= n -> I 0 s ->
  (forall i s, 0 <= i < n -> I i s -> okx (f i s) (I (i + 1)) X) -> okx (ofor n f s) (I n) X.
Proof.
  intros N H0 HF. unfold ofor. replace n with (0 + Z.of_nat (Z.to_nat n)) at 2 by lia.
  apply oloop_x; [|exact H0]. intros j s1 Hj. apply HF. lia.
Qed.
(** Three nested loops, in terms of the number of steps done. *)
Lemma ofor3_x {S} (I : Z -> S -> Prop) (X : Prop) c h w (body : Z -> Z -> Z -> S -> outcome S) s : 0 <= c -> 0 <= h -> 0 <= w -> I 0 s ->
  (forall k i j s, 0 <= k < c -> 0 <= i < h -> 0 <= j < w -> I (j + w * (i + h * k)) s -> okx (body k i j s) (I (j + w * (i + h * k) + 1)) X) ->
  okx (ofor c (fun k s => ofor h (fun i s => ofor w (fun j s => body k i j s) s) s) s) (I (w * (h * c))) X.
Proof.
  intros C H W H0 HB.
  apply (ofor_x (fun k s => I (w * (h * k)) s)); [exact C|now rewrite !Z.mul_0_r|]. intros k s1 K H1.
  eapply okx_mono; [apply (ofor_x (fun i s => I (w * (i + h * k)) s) X _ h s1)| |].
  - exact H.
  - now rewrite Z.add_0_l.
  - intros i s2 Hi H2. eapply okx_mono; [apply (ofor_x (fun j s => I (j + w * (i + h * k)) s) X _ w s2)| |].
    + exact W.
    + now rewrite Z.add_0_l.
    + intros j s3 Hj H3. replace (j + 1 + w * (i + h * k)) with (j + w * (i + h * k) + 1) by lia. apply HB; assumption.
    + intros s3 H3. cbn beta in H3. replace (i + 1 + h * k) with (i + h * k + 1) by lia. replace (w * (i + h * k + 1)) with (w + w * (i + h * k)) by ring. exact H3.
    + auto.
  - intros s2 H2. cbn beta in H2. replace (h * (k + 1)) with (h + h * k) by ring. exact H2.
  - auto.
Qed.
Lemma ofor3 {S} (I : Z -> S -> Prop) c h w (body : Z -> Z -> Z -> S -> outcome S) s : 0 <= c -> 0 <= h -> 0 <= w -> I 0 s ->
  (forall k i j s, 0 <= k < c -> 0 <= i < h -> 0 <= j < w -> I (j + w * (i + h * k)) s -> exists s', body k i j s = Ok s' /\ I (j + w * (i + h * k) + 1) s') ->
  exists s', ofor c (fun k s => ofor h (fun i s => ofor w (fun j s => body k i j s) s) s) s = Ok s' /\ I (w * (h * c)) s'.
Proof.
  intros C H W H0 HB. destruct (ofor3_x I False c h w body s C H W H0) as [K|(_ & [])].
  - intros k i j s1 Hk Hi Hj H1. left. auto.
  - exact K.
Qed.
Lemma flat3 c h w k i j : 0 <= k < c -> 0 <= i < h -> 0 <= j < w -> 0 <= j + w * (i + h * k) < w * (h * c).
Proof.
  intros K I J. assert (0 <= i + h * k < h * c) by nia. nia.
Qed.
Lemma flat3_inj h w k i j k' i' j' : 0 <= i < h -> 0 <= j < w -> 0 <= i' < h -> 0 <= j' < w ->
  j + w * (i + h * k) = j' + w * (i' + h * k') -> k = k' /\ i = i' /\ j = j'.
Proof.
  intros I J I' J' E. assert (E1 : i + h * k = i' + h * k').
  { assert (j + w * (i + h * k) = w * (i + h * k) + j) by lia. assert (j' + w * (i' + h * k') = w * (i' + h * k') + j') by lia.
    rewrite (Z.div_unique (j + w * (i + h * k)) w (i + h * k) j), (Z.div_unique (j + w * (i + h * k)) w (i' + h * k') j') by lia. reflexivity. }
  assert (E2 : k = k').
  { rewrite (Z.div_unique (i + h * k) h k i), (Z.div_unique (i + h * k) h k' i') by lia. reflexivity. }
  subst k'. lia.
Qed.

Section Any.
Context {T : Type} (A : arith T).
Let Q := a_num A.
Let d := n0 Q.

(** [v] plus the terms [f q] of the steps q = 0..n-1 that concern [p], in this order. *)
Definition gathered (n : Z) (target : Z -> Z) (f : Z -> T) (p : Z) (v : T) : T :=
  fold_left (fun a q => if target q =? p then nadd Q a (f q) else a) (iota n) v.
Lemma gathered_S n target f p v : 0 <= n ->
  gathered (n + 1) target f p v = if target n =? p then nadd Q (gathered n target f p v) (f n) else gathered n target f p v.
Proof. intros N. unfold gathered. rewrite iota_S, fold_left_app by exact N. reflexivity. Qed.

(** ** Average pooling *)
Lemma avgpool_forward_ok l input n : cint (l_height l * l_width l) = Ok n -> 0 <= n -> 0 <= l_channels l ->
  l_channels l <= len (l_output l) -> n * l_channels l <= len input ->
  exists out, avgpool_forward A l input = Ok (set_output out l) /\ len out = len (l_output l) /\
    (forall k, 0 <= k < l_channels l -> at_ d out k = ndiv Q (sum_from Q (a_Z A 0) n (fun i => at_ d input (i + n * k))) (a_Z A n)) /\
    (forall k, l_channels l <= k -> at_ d out k = at_ d (l_output l) k).
Proof.
  intros EN N C LO LI. unfold avgpool_forward. fold Q. rewrite EN. cbn [obind].
  match goal with |- context [ofor (l_channels l) ?body (l_output l)] =>
    destruct (ofor_ind (fun k (o : list T) => len o = len (l_output l) /\
      (forall k', 0 <= k' < k -> at_ d o k' = ndiv Q (sum_from Q (a_Z A 0) n (fun i => at_ d input (i + n * k'))) (a_Z A n)) /\
      (forall k', k <= k' -> at_ d o k' = at_ d (l_output l) k')) body (l_channels l) (l_output l)) as (out & E & L & H1 & H2) end.
  - exact C.
  - split; [reflexivity|]. split; [intros; lia|auto].
  - intros k o K (L & H1 & H2). cbn beta.
    destruct (wr_ok o k (a_Z A 0) ltac:(lia)) as (o1 & -> & W1 & W2 & W3 & _). cbn [obind].
    match goal with |- context [ofor n ?body o1] =>
      destruct (ofor_ind (fun i (o2 : list T) => len o2 = len o1 /\ at_ d o2 k = sum_from Q (a_Z A 0) i (fun i => at_ d input (i + n * k)) /\
        (forall q, 0 <= q -> q <> k -> at_ d o2 q = at_ d o1 q)) body n o1) as (o2 & E2 & L2 & S2 & O2) end.
    + exact N.
    + split; [reflexivity|]. split; [apply W2|auto].
    + intros i o2 Hi (L2 & S2 & O2). rewrite (rd_ok d) by nia. cbn [obind].
      destruct (modify_ok Q o2 k (fun o => nadd Q o (at_ d input (i + n * k))) ltac:(lia)) as (o3 & -> & V1 & V2 & V3 & _).
      exists o3. split; [reflexivity|]. split; [lia|]. split.
      * rewrite V2. fold d. rewrite S2, sum_from_S by lia. reflexivity.
      * intros q Hq NE. rewrite V3 by lia. apply O2; assumption.
    + rewrite E2. cbn [obind].
      destruct (modify_ok Q o2 k (fun o => ndiv Q o (a_Z A n)) ltac:(lia)) as (o3 & -> & V1 & V2 & V3 & _).
      exists o3. split; [reflexivity|]. split; [lia|]. split.
      * intros k' K'. destruct (Z.eq_dec k' k) as [->|NE].
        -- rewrite V2. fold d. now rewrite S2.
        -- rewrite V3, O2, W3 by lia. apply H1. lia.
      * intros k' K'. rewrite V3, O2, W3 by lia. apply H2. lia.
  - rewrite E. cbn [obind]. exists out. auto.
Qed.

Lemma avgpool_backward_ok l dl n : cint (l_height l * l_width l) = Ok n -> 0 <= n -> 0 <= l_channels l ->
  l_channels l <= len (l_delta l) -> n * l_channels l <= len dl ->
  exists dl', avgpool_backward A l (Some dl) = Ok (Some dl') /\ len dl' = len dl /\
    (forall k i, 0 <= k < l_channels l -> 0 <= i < n ->
       at_ d dl' (i + n * k) = nadd Q (at_ d dl (i + n * k)) (ndiv Q (at_ d (l_delta l) k) (a_Z A n))) /\
    (forall p, n * l_channels l <= p -> at_ d dl' p = at_ d dl p).
Proof.
  intros EN N C LO LI. unfold avgpool_backward. fold Q. rewrite EN. cbn [obind].
  match goal with |- context [ofor (l_channels l) ?body dl] =>
    destruct (ofor_ind (fun k (o : list T) => len o = len dl /\
      (forall k' i, 0 <= k' < k -> 0 <= i < n -> at_ d o (i + n * k') = nadd Q (at_ d dl (i + n * k')) (ndiv Q (at_ d (l_delta l) k') (a_Z A n))) /\
      (forall p, n * k <= p -> at_ d o p = at_ d dl p)) body (l_channels l) dl) as (out & E & L & H1 & H2) end.
  - exact C.
  - split; [reflexivity|]. split; [intros; lia|auto].
  - intros k o K (L & H1 & H2). cbn beta.
    match goal with |- context [ofor n ?body o] =>
      destruct (ofor_ind (fun i (o2 : list T) => len o2 = len o /\
        (forall q, 0 <= q < i -> at_ d o2 (q + n * k) = nadd Q (at_ d dl (q + n * k)) (ndiv Q (at_ d (l_delta l) k) (a_Z A n))) /\
        (forall p, 0 <= p -> ~ (n * k <= p < i + n * k) -> at_ d o2 p = at_ d o p)) body n o) as (o2 & E2 & L2 & S2 & O2) end.
    + exact N.
    + split; [reflexivity|]. split; [intros; lia|auto].
    + intros i o2 Hi (L2 & S2 & O2). rewrite (rd_ok d) by lia. cbn [obind].
      destruct (modify_ok Q o2 (i + n * k) (fun o => nadd Q o (ndiv Q (at_ d (l_delta l) k) (a_Z A n))) ltac:(nia)) as (o3 & -> & V1 & V2 & V3 & _).
      exists o3. split; [reflexivity|]. split; [lia|]. split.
      * intros q Hq. destruct (Z.eq_dec q i) as [->|NE].
        -- rewrite V2. fold d. rewrite O2 by nia. rewrite H2 by lia. reflexivity.
        -- rewrite V3 by nia. apply S2. lia.
      * intros p Hp NP. rewrite V3 by lia. apply O2; lia.
    + exists o2. split; [exact E2|]. split; [lia|]. split.
      * intros k' i K' I. destruct (Z.eq_dec k' k) as [->|NE]; [apply S2, I|]. rewrite O2 by nia. apply H1; lia.
      * intros p Hp. rewrite O2 by nia. apply H2. nia.
  - rewrite E. cbn [obind]. exists out. split; [reflexivity|]. split; [exact L|]. split; [exact H1|exact H2].
Qed.

(** ** Upsampling *)
Lemma quot_div a b : 0 <= a -> 0 < b -> Z.quot a b = a / b.
Proof. intros. apply Z.quot_div_nonneg; lia. Qed.

(** Input cell read by output cell (k, j, i). *)
Definition up_in (h w s k j i : Z) : Z := i / s + w * (j / s + h * k).
Lemma up_in_range c h w s k j i : 0 < s -> 0 <= k < c -> 0 <= j < h * s -> 0 <= i < w * s ->
  0 <= up_in h w s k j i < w * (h * c).
Proof.
  intros S K J I. unfold up_in. apply flat3; [exact K| |].
  - split; [apply Z.div_pos; lia|apply Z.div_lt_upper_bound; lia].
  - split; [apply Z.div_pos; lia|apply Z.div_lt_upper_bound; lia].
Qed.

Lemma upsample_forward_ok l input : let w := l_width l in let h := l_height l in let c := l_channels l in let s := l_stride l in
  0 <= w -> 0 <= h -> 0 <= c -> 0 < s -> len (l_output l) = (w * s) * ((h * s) * c) -> w * (h * c) <= len input ->
  exists out, upsample_forward l input = Ok (set_output out l) /\ len out = len (l_output l) /\
    (forall k j i, 0 <= k < c -> 0 <= j < h * s -> 0 <= i < w * s ->
       at_ d out (i + (w * s) * (j + (h * s) * k)) = at_ d input (up_in h w s k j i)).
Proof.
  intros w h c s Hw Hh Hc Hs LO LI. unfold upsample_forward. fold w h c s.
  match goal with |- context [ofor c ?body (l_output l)] =>
    destruct (ofor3 (fun q (o : list T) => len o = len (l_output l) /\
      (forall k j i, 0 <= k < c -> 0 <= j < h * s -> 0 <= i < w * s -> i + (w * s) * (j + (h * s) * k) < q ->
         at_ d o (i + (w * s) * (j + (h * s) * k)) = at_ d input (up_in h w s k j i)))
      c (h * s) (w * s) (fun k j i out =>
        let in_index := k * w * h + Z.quot j s * w + Z.quot i s in
        let out_index := k * w * h * s * s + j * w * s + i in
        obind (rd input in_index) (fun x => wr out out_index x)) (l_output l)) as (out & E & L & H) end.
  - exact Hc.
  - nia.
  - nia.
  - split; [reflexivity|]. intros k j i K J I B. pose proof (flat3 c (h * s) (w * s) k j i K J I). lia.
  - intros k j i o K J I (L & H). cbv zeta.
    replace (k * w * h + Z.quot j s * w + Z.quot i s) with (up_in h w s k j i) by (unfold up_in; rewrite !quot_div by lia; ring).
    replace (k * w * h * s * s + j * w * s + i) with (i + (w * s) * (j + (h * s) * k)) by ring.
    pose proof (up_in_range c h w s k j i Hs K J I). rewrite (rd_ok d) by lia. cbn [obind].
    pose proof (flat3 c (h * s) (w * s) k j i K J I).
    destruct (wr_ok o (i + (w * s) * (j + (h * s) * k)) (at_ d input (up_in h w s k j i)) ltac:(lia)) as (o1 & -> & W1 & W2 & W3 & _).
    exists o1. split; [reflexivity|]. split; [lia|]. intros k' j' i' K' J' I' B.
    destruct (Z.eq_dec (i' + w * s * (j' + h * s * k')) (i + w * s * (j + h * s * k))) as [EQ|NE].
    + destruct (flat3_inj (h * s) (w * s) k' j' i' k j i J' I' J I EQ) as (-> & -> & ->). apply W2.
    + rewrite W3 by (first [exact NE|pose proof (flat3 c (h * s) (w * s) k' j' i' K' J' I'); lia]). apply H; assumption || lia.
  - cbv zeta in E. rewrite E. cbn [obind]. exists out. split; [reflexivity|]. split; [exact L|].
    intros k j i K J I. apply H; try assumption. apply (flat3 c (h * s) (w * s) k j i K J I).
Qed.

(** The input cell of the q-th output cell. *)
Definition up_target (h w s q : Z) : Z := up_in h w s (q / (w * s) / (h * s)) ((q / (w * s)) mod (h * s)) (q mod (w * s)).
Lemma up_target_eq h w s k j i : 0 <= j < h * s -> 0 <= i < w * s -> up_target h w s (i + (w * s) * (j + (h * s) * k)) = up_in h w s k j i.
Proof.
  intros J I. unfold up_target.
  rewrite <- (Z.div_unique (i + w * s * (j + h * s * k)) (w * s) (j + h * s * k) i), <- (Z.mod_unique (i + w * s * (j + h * s * k)) (w * s) (j + h * s * k) i) by lia.
  rewrite <- (Z.div_unique (j + h * s * k) (h * s) k j), <- (Z.mod_unique (j + h * s * k) (h * s) k j) by lia. reflexivity.
Qed.
Lemma upsample_backward_ok l dl : let w := l_width l in let h := l_height l in let c := l_channels l in let s := l_stride l in
  0 <= w -> 0 <= h -> 0 <= c -> 0 < s -> len (l_delta l) = (w * s) * ((h * s) * c) -> w * (h * c) <= len dl ->
  exists dl', upsample_backward A l (Some dl) = Ok (Some dl') /\ len dl' = len dl /\
    (forall p, 0 <= p -> at_ d dl' p = gathered ((w * s) * ((h * s) * c)) (up_target h w s) (at_ d (l_delta l)) p (at_ d dl p)).
Proof.
  intros w h c s Hw Hh Hc Hs LO LI. unfold upsample_backward. fold w h c s. fold Q.
  match goal with |- context [ofor c ?body dl] =>
    destruct (ofor3 (fun q (o : list T) => len o = len dl /\
      (forall p, 0 <= p -> at_ d o p = gathered q (up_target h w s) (at_ d (l_delta l)) p (at_ d dl p)))
      c (h * s) (w * s) (fun k j i dl =>
        let in_index := k * w * h + Z.quot j s * w + Z.quot i s in
        let out_index := k * w * h * s * s + j * w * s + i in
        obind (rd (l_delta l) out_index) (fun x => modify_at dl in_index (fun y => nadd Q y x))) dl) as (out & E & L & H) end.
  - exact Hc.
  - nia.
  - nia.
  - split; [reflexivity|]. intros p P. reflexivity.
  - intros k j i o K J I (L & H). cbv zeta.
    replace (k * w * h + Z.quot j s * w + Z.quot i s) with (up_in h w s k j i) by (unfold up_in; rewrite !quot_div by lia; ring).
    replace (k * w * h * s * s + j * w * s + i) with (i + (w * s) * (j + (h * s) * k)) by ring.
    pose proof (up_in_range c h w s k j i Hs K J I). pose proof (flat3 c (h * s) (w * s) k j i K J I).
    rewrite (rd_ok d) by lia. cbn [obind].
    destruct (modify_ok Q o (up_in h w s k j i) (fun y => nadd Q y (at_ d (l_delta l) (i + (w * s) * (j + (h * s) * k)))) ltac:(lia)) as (o1 & -> & W1 & W2 & W3 & _).
    exists o1. split; [reflexivity|]. split; [lia|]. intros p P. rewrite gathered_S by lia. rewrite up_target_eq by assumption.
    destruct (Z.eqb_spec (up_in h w s k j i) p) as [<-|NE].
    + rewrite W2. fold d. rewrite H by lia. reflexivity.
    + rewrite W3 by lia. apply H. exact P.
  - cbv zeta in E. rewrite E. cbn [obind]. exists out. split; [reflexivity|]. split; [exact L|]. exact H.
Qed.

(** ** Max pooling *)

(** Position (h, w) belongs to the window of output (i, j). *)
Definition in_window (l : layer T) (i j h w : Z) : Prop :=
  0 <= h < l_height l /\ 0 <= w < l_width l /\
  0 <= h - (i * l_stride l + Z.quot (- l_pad l) 2) < l_size l /\ 0 <= w - (j * l_stride l + Z.quot (- l_pad l) 2) < l_size l.
Definition cell (l : layer T) (k h w : Z) : Z := w + l_width l * (h + l_height l * k).

Context (IRR : forall x, a_lt A x x = false) (TR : forall x y z, a_lt A x y = true -> a_lt A y z = true -> a_lt A x z = true).

Lemma max_pool_ok l input i j k : 0 <= k < l_channels l -> 0 <= l_height l -> 0 <= l_width l ->
  l_n_inputs l = l_width l * (l_height l * l_channels l) -> l_n_inputs l <= len input ->
  okx (max_pool A l input i j k)
    (fun q => exists h w, in_window l i j h w /\ q = cell l k h w /\ a_lt A (a_lowest A) (at_ d input q) = true /\
       forall h' w', in_window l i j h' w' -> a_lt A (at_ d input q) (at_ d input (cell l k h' w')) = false)
    (forall h' w', in_window l i j h' w' -> a_lt A (a_lowest A) (at_ d input (cell l k h' w')) = false).
Proof.
  intros K Hh Hw NI LI. unfold max_pool. cbv zeta.
  set (off := Z.quot (- l_pad l) 2). fold d.
  set (seen := fun n m n' m' : Z => n' < n \/ (n' = n /\ m' < m)).
  set (INV := fun n m (r : T * Z) =>
    (forall h' w', in_window l i j h' w' -> seen n m (h' - (i * l_stride l + off)) (w' - (j * l_stride l + off)) ->
       a_lt A (fst r) (at_ d input (cell l k h' w')) = false) /\
    ((snd r = -1 /\ fst r = a_lowest A) \/
     (exists h w, in_window l i j h w /\ snd r = cell l k h w /\ fst r = at_ d input (snd r) /\ a_lt A (a_lowest A) (fst r) = true))).
  assert (CELL : forall h w, in_window l i j h w -> 0 <= cell l k h w < l_n_inputs l).
  { intros h w (H1 & H2 & _). rewrite NI. unfold cell. apply flat3; assumption. }
  rewrite ofor_max.
  match goal with |- context [ofor (Z.max 0 (l_size l)) ?body ?s0] =>
    destruct (ofor_ind (fun n r => INV n 0 r) body (Z.max 0 (l_size l)) s0) as (r & E & H1 & H2) end.
  - lia.
  - split; [|left; split; reflexivity]. intros h' w' (B1 & B2 & B3 & B4) [S|(S1 & S2)]; fold off in B3, B4; lia.
  - intros n r N HN. rewrite ofor_max.
    match goal with |- context [ofor (Z.max 0 (l_size l)) ?body r] =>
      destruct (ofor_ind (fun m r => INV n m r) body (Z.max 0 (l_size l)) r) as (r' & E' & H1' & H2') end.
    + lia.
    + exact HN.
    + intros m r1 M (I1 & I2). cbn beta.
      set (ch := off + i * l_stride l + n). set (cw := off + j * l_stride l + m). fold (cell l k ch cw).
      assert (ONLY : forall h' w', in_window l i j h' w' -> seen n (m + 1) (h' - (i * l_stride l + off)) (w' - (j * l_stride l + off)) ->
         seen n m (h' - (i * l_stride l + off)) (w' - (j * l_stride l + off)) \/ (h' = ch /\ w' = cw)).
      { intros h' w' _ [S|(S1 & S2)]; [left; left; exact S|].
        destruct (Z.eq_dec w' cw) as [->|NE]; [right; split; [unfold ch; lia|reflexivity]|left; right; unfold cw in NE; split; [exact S1|lia]]. }
      destruct ((0 <=? ch) && (ch <? l_height l) && (0 <=? cw) && (cw <? l_width l) && (cell l k ch cw <? l_n_inputs l)) eqn:B.
      * apply andb_prop in B. destruct B as (B & B5). apply andb_prop in B. destruct B as (B & B4). apply andb_prop in B. destruct B as (B & B3).
        apply andb_prop in B. destruct B as (B1 & B2).
        assert (W : in_window l i j ch cw).
        { unfold in_window. fold off. unfold ch, cw in *. repeat split; lia. }
        pose proof (CELL _ _ W) as CW. rewrite (rd_ok d) by lia. cbn [obind].
        destruct (a_lt A (fst r1) (at_ d input (cell l k ch cw))) eqn:LT.
        -- eexists. split; [reflexivity|]. split; cbn [fst snd].
           ++ intros h' w' W' S. destruct (ONLY h' w' W' S) as [S'|(-> & ->)]; [|apply IRR].
              specialize (I1 h' w' W' S'). destruct (a_lt A (at_ d input (cell l k ch cw)) (at_ d input (cell l k h' w'))) eqn:LT2; [|reflexivity].
              rewrite (TR _ _ _ LT LT2) in I1. discriminate I1.
           ++ right. exists ch, cw. split; [exact W|]. split; [reflexivity|]. split; [reflexivity|].
              destruct I2 as [(_ & I2)|(h & w & _ & _ & _ & I2)]; [now rewrite I2 in LT|]. eapply TR; [exact I2|exact LT].
        -- exists r1. split; [reflexivity|]. split; [|exact I2].
           intros h' w' W' S. destruct (ONLY h' w' W' S) as [S'|(-> & ->)]; [apply I1; assumption|exact LT].
      * exists r1. split; [reflexivity|]. split; [|exact I2].
        intros h' w' W' S. destruct (ONLY h' w' W' S) as [S'|(-> & ->)]; [apply I1; assumption|].
        exfalso. pose proof (CELL _ _ W') as CW. destruct W' as (Y1 & Y2 & _).
        rewrite (proj2 (Z.leb_le 0 ch)), (proj2 (Z.ltb_lt ch _)), (proj2 (Z.leb_le 0 cw)), (proj2 (Z.ltb_lt cw _)), (proj2 (Z.ltb_lt _ (l_n_inputs l))) in B by lia.
        discriminate B.
    + exists r'. split; [exact E'|]. split; [|exact H2'].
      intros h' w' W' S. apply H1'; [exact W'|]. destruct W' as (_ & _ & W3 & W4). fold off in W3, W4.
      destruct S as [S|(S1 & S2)]; [|lia]. destruct (Z.eq_dec (h' - (i * l_stride l + off)) n) as [EQ|NE]; [right; split; [exact EQ|lia]|left; lia].
  - rewrite E. cbn [obind].
    assert (ALL : forall h' w', in_window l i j h' w' -> a_lt A (fst r) (at_ d input (cell l k h' w')) = false).
    { intros h' w' W'. apply H1; [exact W'|]. destruct W' as (_ & _ & W3 & W4). fold off in W3, W4. left. lia. }
    destruct H2 as [(E1 & E2)|(h & w & W & E1 & E2 & E3)].
    + right. rewrite E1. cbn [Z.ltb orb]. split; [reflexivity|]. intros h' w' W'. rewrite <- E2. apply ALL, W'.
    + left. pose proof (CELL _ _ W) as CW. replace (snd r <? 0) with false by lia. replace (l_n_inputs l <=? snd r) with false by lia.
      cbn [orb]. exists (snd r). split; [reflexivity|]. exists h, w. split; [exact W|]. split; [exact E1|]. rewrite <- E2. split; [exact E3|exact ALL].
Qed.

(** Output cell (k, i, j) holds the maximum of its window, taken from the input that [ix] names. *)
Definition pooled (l : layer T) (input : list T) (ix : list Z) (out : list T) (k i j : Z) : Prop :=
  let o := j + l_out_w l * (i + l_out_h l * k) in
  at_ d out o = at_ d input (at_ 0 ix o) /\ a_lt A (a_lowest A) (at_ d out o) = true /\
  (exists h w, in_window l i j h w /\ at_ 0 ix o = cell l k h w) /\
  forall h' w', in_window l i j h' w' -> a_lt A (at_ d out o) (at_ d input (cell l k h' w')) = false.
(** A window without a number above the lowest double. *)
Definition dead_window (l : layer T) (input : list T) : Prop :=
  exists k i j, 0 <= k < l_channels l /\ 0 <= i < l_out_h l /\ 0 <= j < l_out_w l /\
    forall h w, in_window l i j h w -> a_lt A (a_lowest A) (at_ d input (cell l k h w)) = false.

Lemma maxpool_forward_ok l input : 0 <= l_channels l -> 0 <= l_height l -> 0 <= l_width l ->
  l_n_inputs l = l_width l * (l_height l * l_channels l) -> l_n_inputs l <= len input ->
  l_n_outputs l = l_out_w l * (l_out_h l * l_channels l) -> len (l_output l) = l_n_outputs l -> len (l_indexes l) = l_n_outputs l ->
  okx (maxpool_forward A l input)
    (fun l' => exists ix out, l' = set_indexes ix (set_output out l) /\ len ix = l_n_outputs l /\ len out = l_n_outputs l /\
       (forall k i j, 0 <= k < l_channels l -> 0 <= i < l_out_h l -> 0 <= j < l_out_w l -> pooled l input ix out k i j) /\
       (forall o, 0 <= o < l_n_outputs l -> 0 < l_n_inputs l -> Forall (fun x => 0 <= x < l_n_inputs l) (l_indexes l) -> 0 <= at_ 0 ix o < l_n_inputs l))
    (dead_window l input).
Proof.
  intros C Hh Hw NI LI NO LO LX. unfold maxpool_forward. set (OW := l_out_w l) in *. set (OH := l_out_h l) in *.
  assert (MX : forall {S} (body : Z -> Z -> Z -> S -> outcome S) s, ofor (l_channels l) (fun k s => ofor OH (fun i s => ofor OW (fun j s => body k i j s) s) s) s =
     ofor (l_channels l) (fun k s => ofor (Z.max 0 OH) (fun i s => ofor (Z.max 0 OW) (fun j s => body k i j s) s) s) s).
  { intros S body s. apply ofor_ext. intros k s1. rewrite (ofor_max OH). apply ofor_ext. intros i s2. apply ofor_max. }
  rewrite (MX (list Z * list T)%type (fun k i j io =>
     let out_index := j + OW * (i + OH * k) in
     if out_index <? l_n_outputs l then
       obind (max_pool A l input i j k) (fun max_index => obind (wr (fst io) out_index max_index) (fun ix =>
        obind (rd input max_index) (fun x => obind (wr (snd io) out_index x) (fun out => Ok (ix, out)))))
     else Ok io)).
  eapply okx_bind with (P := fun io => len (fst io) = l_n_outputs l /\ len (snd io) = l_n_outputs l /\
    (forall k i j, 0 <= k < l_channels l -> 0 <= i < OH -> 0 <= j < OW -> pooled l input (fst io) (snd io) k i j) /\
    (forall o, 0 <= o < l_n_outputs l -> 0 < l_n_inputs l -> Forall (fun x => 0 <= x < l_n_inputs l) (l_indexes l) -> 0 <= at_ 0 (fst io) o < l_n_inputs l)).
  - eapply okx_mono; [apply (ofor3_x (fun q io => len (fst io) = l_n_outputs l /\ len (snd io) = l_n_outputs l /\
      (forall k i j, 0 <= k < l_channels l -> 0 <= i < OH -> 0 <= j < OW -> j + OW * (i + OH * k) < q -> pooled l input (fst io) (snd io) k i j) /\
      (forall o, 0 <= o < l_n_outputs l -> 0 < l_n_inputs l -> Forall (fun x => 0 <= x < l_n_inputs l) (l_indexes l) -> 0 <= at_ 0 (fst io) o < l_n_inputs l)) (dead_window l input))| |].
    + exact C.
    + lia.
    + lia.
    + cbn [fst snd]. split; [exact LX|]. split; [exact LO|]. split.
      * intros k i j K I J B. pose proof (flat3 (l_channels l) OH OW k i j K I J). lia.
      * intros o O N F. apply (Forall_at _ 0) with (i := o) in F; [exact F|lia].
    + intros k i j (ix & out) K I J (L1 & L2 & H & HX). cbn [fst snd] in *. cbv zeta.
      replace (Z.max 0 OH) with OH in * by lia. replace (Z.max 0 OW) with OW in * by lia.
      pose proof (flat3 (l_channels l) OH OW k i j K I J) as FL. replace (j + OW * (i + OH * k) <? l_n_outputs l) with true by lia.
      eapply okx_bind; [eapply okx_mono; [apply (max_pool_ok l input i j k K Hh Hw NI LI)|intros s Hs; exact Hs|]|].
      * intros D. exists k, i, j. auto.
      * intros q (h & w & W & Eq & LQ & M).
        assert (CQ : 0 <= q < l_n_inputs l). { rewrite NI, Eq. unfold cell. destruct W as (W1 & W2 & _). apply flat3; assumption. }
        destruct (wr_ok ix (j + OW * (i + OH * k)) q ltac:(lia)) as (ix2 & -> & W1 & W2 & W3 & _). cbn [obind].
        rewrite (rd_ok d) by lia. cbn [obind].
        destruct (wr_ok out (j + OW * (i + OH * k)) (at_ d input q) ltac:(lia)) as (out2 & -> & V1 & V2 & V3 & _). cbn [obind].
        left. exists (ix2, out2). cbn [fst snd]. split; [reflexivity|]. split; [lia|]. split; [lia|]. split.
        -- intros k' i' j' K' I' J' B. destruct (Z.eq_dec (j' + OW * (i' + OH * k')) (j + OW * (i + OH * k))) as [EQ|NE].
           ++ destruct (flat3_inj OH OW k' i' j' k i j I' J' I J EQ) as (-> & -> & ->).
              unfold pooled. cbv zeta. fold OW OH. rewrite W2, V2. split; [reflexivity|]. split; [exact LQ|]. split; [|exact M]. exists h, w. auto.
           ++ unfold pooled. cbv zeta. fold OW OH. pose proof (flat3 (l_channels l) OH OW k' i' j' K' I' J').
              rewrite W3, V3 by lia. apply H; assumption || lia.
        -- intros o O N F. destruct (Z.eq_dec o (j + OW * (i + OH * k))) as [->|NE]; [rewrite W2; exact CQ|rewrite W3 by lia; apply HX; assumption].
    + intros (ix & out) (L1 & L2 & H & HX). cbn [fst snd] in *. split; [exact L1|]. split; [exact L2|]. split; [|exact HX].
      intros k i j K I J. apply H; try assumption. replace (Z.max 0 OH) with OH by lia. replace (Z.max 0 OW) with OW by lia.
      apply (flat3 (l_channels l) OH OW k i j K I J).
    + auto.
  - intros (ix & out) (L1 & L2 & H & HX). cbn [fst snd] in *. left. eexists. split; [reflexivity|]. exists ix, out. auto.
Qed.

Lemma maxpool_backward_ok l dl : 0 <= l_n_outputs l <= len (l_indexes l) -> l_n_outputs l <= len (l_delta l) ->
  (forall o, 0 <= o < l_n_outputs l -> 0 <= at_ 0 (l_indexes l) o < len dl) ->
  exists dl', maxpool_backward A l (Some dl) = Ok (Some dl') /\ len dl' = len dl /\
    (forall p, 0 <= p -> at_ d dl' p = gathered (l_n_outputs l) (at_ 0 (l_indexes l)) (at_ d (l_delta l)) p (at_ d dl p)).
Proof.
  intros N LD B. unfold maxpool_backward. fold Q.
  match goal with |- context [ofor ?n ?body dl] =>
    destruct (ofor_ind (fun q (o : list T) => len o = len dl /\
      (forall p, 0 <= p -> at_ d o p = gathered q (at_ 0 (l_indexes l)) (at_ d (l_delta l)) p (at_ d dl p))) body n dl) as (out & E & L & H) end.
  - lia.
  - split; [reflexivity|]. reflexivity.
  - intros q o Hq (L & H). rewrite (rd_ok 0) by lia. cbn [obind]. rewrite (rd_ok d) by lia. cbn [obind].
    pose proof (B q Hq). destruct (modify_ok Q o (at_ 0 (l_indexes l) q) (fun y => nadd Q y (at_ d (l_delta l) q)) ltac:(lia)) as (o1 & -> & W1 & W2 & W3 & _).
    exists o1. split; [reflexivity|]. split; [lia|]. intros p P. rewrite gathered_S by lia.
    destruct (Z.eqb_spec (at_ 0 (l_indexes l) q) p) as [<-|NE].
    + rewrite W2. fold d. rewrite H by lia. reflexivity.
    + rewrite W3 by lia. apply H. exact P.
  - rewrite E. cbn [obind]. exists out. auto.
Qed.
End Any.
