(** * Inserting rules given as JSON (C28). *)
From Coq Require Import ZArith Bool List String Ascii Reals Lia.
From Flocq Require Import Core BinarySingleNaN.
From Verif Require Import Outcome F64 F64Facts F64Bounds Rng RngFacts Arr ArrFacts Sam SamFacts Cond TernFacts RectFacts EllipFacts Pred
  Pop PopSpec PopInv PopFit PopRL PopCover PopOps Clock Comp CompFacts Json.
Import ListNotations.
Open Scope Z_scope.

(** ** Arrays *)
Lemma nth_first {A} (l : list A) d n : forall k, (k < n)%nat -> nth k (firstn n l) d = nth k l d.
Proof. revert n. induction l as [|a l IH]; intros n k H; [rewrite firstn_nil; reflexivity|]. destruct n; [lia|]. destruct k; [reflexivity|]. cbn. apply IH. lia. Qed.
Lemma import_doubles_ok dst n src : len dst = n ->
  import_doubles dst n src =
  match src with None => Ok dst | Some l => if Z.of_nat (List.length l) =? n then Ok (map valuedouble l) else Exit end.
Proof.
  intros L. unfold import_doubles. destruct src as [l|]; [|reflexivity]. destruct (Z.eqb_spec (Z.of_nat (List.length l)) n) as [E|E]; [|reflexivity]. cbn [negb].
  destruct (ofor_ind (fun i d => len d = n /\ forall k, 0 <= k < i -> at_ f0 d k = at_ f0 (map valuedouble l) k)
    (fun i d => (v <- rd l i ;; wr d i (valuedouble v))%out) n dst) as (r & Er & Lr & Ar).
  - unfold len in L. lia.
  - split; [exact L|]. intros k Hk. lia.
  - intros i d Hi (Ld & Ad). rewrite (rd_ok JNull) by (unfold len; lia). cbn [obind].
    destruct (wr_ok d i (valuedouble (at_ JNull l i))) as (d' & -> & W); [lia|]. destruct W as (W1 & W2 & W3 & _).
    exists d'. split; [reflexivity|]. split; [unfold len in *; lia|]. intros k Hk. destruct (Z.eq_dec k i) as [->|N].
    + rewrite W2. unfold at_. rewrite nth_indep with (d' := valuedouble JNull) by (rewrite map_length; lia). rewrite map_nth. reflexivity.
    + rewrite W3 by lia. apply Ad. lia.
  - rewrite Er. f_equal. apply (list_ext f0).
    + unfold len in *. rewrite map_length. lia.
    + intros k Hk. apply Ar. lia.
Qed.
Definition share (v : f64) : bool := negb (flt v f0 || fgt v f1).
Lemma import_mu_ok mu n j : len mu = n ->
  import_mu mu n j = match array j "mutation" with
                     | None => Ok mu
                     | Some l => if (Z.of_nat (List.length l) =? n) && forallb (fun e => share (valuedouble e)) l then Ok (map valuedouble l) else Exit
                     end.
Proof.
  intros L. unfold import_mu, sam_json_import. destruct (array j "mutation") as [l|]; [|reflexivity]. cbn [option_map]. rewrite map_length.
  destruct (Z.eqb_spec (Z.of_nat (List.length l)) n) as [E|E]; [|reflexivity]. cbn [negb andb]. unfold ofor. rewrite <- E, Nat2Z.id. 
  assert (G : forall p q d, l = p ++ q -> len d = n -> firstn (List.length p) d = map valuedouble p ->
    oloop (List.length q) (Z.of_nat (List.length p)) (fun i m => (v <- rd (map valuedouble l) i ;; if flt v f0 || fgt v f1 then Exit else wr m i v)%out) d =
    if forallb (fun e => share (valuedouble e)) q then Ok (map valuedouble l) else Exit).
  { intros p q. revert p. induction q as [|e q IH]; intros p d El Ld Fd; cbn [List.length oloop forallb].
    - f_equal. rewrite El, app_nil_r in *. rewrite <- Fd. symmetry. apply firstn_all2. unfold len in Ld. lia.
    - rewrite (rd_ok f0) by (unfold len; rewrite map_length, El, app_length; cbn [List.length]; lia). cbn [obind].
      assert (A : at_ f0 (map valuedouble l) (Z.of_nat (List.length p)) = valuedouble e).
      { unfold at_. rewrite Nat2Z.id, El, map_app, app_nth2 by (rewrite map_length; lia). rewrite map_length, Nat.sub_diag. reflexivity. }
      rewrite A. unfold share at 1. destruct (flt (valuedouble e) f0 || fgt (valuedouble e) f1); [reflexivity|]. cbn [negb andb].
      destruct (wr_ok d (Z.of_nat (List.length p)) (valuedouble e)) as (d' & -> & W); [unfold len in *; rewrite El, app_length in E; cbn [List.length] in E; lia|].
      cbn [obind]. destruct W as (W1 & W2 & W3 & _). specialize (IH (p ++ [e]) d'). rewrite app_length in IH. cbn [List.length] in IH.
      replace (Z.of_nat (List.length p) + 1) with (Z.of_nat (List.length p + 1)) by lia. apply IH.
      + rewrite <- app_assoc. exact El.
      + unfold len in *. lia.
      + rewrite map_app. cbn [map]. rewrite El, app_length in E. cbn [List.length] in E. apply (list_ext f0).
        * unfold len in *. rewrite firstn_length, app_length, map_length. cbn [List.length]. lia.
        * intros k Hk. unfold len in Hk, W1, Ld. rewrite firstn_length in Hk. unfold at_ in *. rewrite nth_first by lia.
          destruct (Z.eq_dec k (Z.of_nat (List.length p))) as [->|N].
          { rewrite W2, app_nth2 by (rewrite map_length; lia). rewrite map_length, Nat2Z.id, Nat.sub_diag. reflexivity. }
          rewrite W3 by lia. rewrite app_nth1 by (rewrite map_length; lia). rewrite <- Fd, nth_first by lia. reflexivity. }
  specialize (G [] l mu eq_refl ltac:(unfold len in *; lia) eq_refl). exact G.
Qed.

(** ** The parts of a rule *)
(** What an import does to a part that satisfies [w], if the item satisfies [d]: an error, or a part
    that satisfies [w]. *)
Definition part_ok {T} (f : T -> json -> outcome T) (w : T -> Prop) (d : json -> Prop) : Prop :=
  forall c j, w c -> d j -> match f c j with Ok c' => w c' | Exit => True | UB _ => False | OutOfFuel => False end.
Definition pred_part_ok {T} (n : Z) (f : T -> list f64 -> json -> outcome (T * list f64)) (w : T -> Prop) (d : json -> Prop) : Prop :=
  forall c v j, w c -> len v = n -> d j ->
    match f c v j with Ok (c', v') => w c' /\ len v' = n | Exit => True | UB _ => False | OutOfFuel => False end.
Definition any_item (j : json) : Prop := True.
Lemma doubles_len dst n src : len dst = n -> match import_doubles dst n src with Ok r => len r = n | Exit => True | UB _ => False | OutOfFuel => False end.
Proof.
  intros L. rewrite import_doubles_ok by exact L. destruct src as [l|]; [|exact L]. destruct (Z.eqb_spec (Z.of_nat (List.length l)) n) as [E|E]; [|exact I].
  unfold len. rewrite map_length. exact E.
Qed.
Lemma mu_len mu n j : len mu = n -> match import_mu mu n j with Ok r => len r = n | Exit => True | UB _ => False | OutOfFuel => False end.
Proof.
  intros L. rewrite import_mu_ok by exact L. destruct (array j "mutation") as [l|]; [|exact L].
  destruct (Z.eqb_spec (Z.of_nat (List.length l)) n) as [E|E]; [|exact I]. cbn [andb]. destruct (forallb _ l); [|exact I]. unfold len. rewrite map_length. exact E.
Qed.
Ltac doubles := match goal with |- context [import_doubles ?d ?n ?s] => let H := fresh "D" in
  assert (H := doubles_len d n s); destruct (import_doubles d n s) as [?| | |]; cbn [obind]; [|exact Logic.I|exfalso; apply H; first [assumption|reflexivity]..]; cbv beta iota in H end.
Ltac rates := match goal with |- context [import_mu ?d ?n ?s] => let H := fresh "D" in
  assert (H := mu_len d n s); destruct (import_mu d n s) as [?| | |]; cbn [obind]; [|exact Logic.I|exfalso; apply H; unfold len; lia..]; cbv beta iota in H end.
Section Parts.
Context (K : cfg) (P : cpar) (R : ppar).
Lemma rect_part : part_ok (rect_import K P) (wf_rect K) any_item.
Proof.
  intros c j (W1 & W2 & W3) _. unfold rect_import. doubles. doubles. rates. split; [|split]; cbn [r_b1 r_b2 r_mu]; [auto..|]. unfold len in *. lia.
Qed.
Lemma ellip_part : part_ok (ellip_import K) (wf_ellip K) any_item.
Proof.
  intros c j (W1 & W2 & W3) _. unfold ellip_import. doubles. doubles. rates. split; [|split]; cbn [e_center e_spread e_mu]; [auto..|]. unfold len in *. lia.
Qed.
(** The characters of a given string, as far as they are read. *)
Definition trits (n : Z) (j : json) : Prop :=
  forall s, item j "string" = Some (JStr s) -> Forall trit (firstn (Z.to_nat n) (map code (list_ascii_of_string s))).
Lemma tern_loop (w : Z -> Prop) n l d : len d = n -> Forall w (firstn (Z.to_nat n) l) -> 0 <= n -> Forall w d ->
  match ofor n (fun i d => (bit <- rd (l ++ [0]) i ;; if bit =? 0 then Exit else wr d i bit)%out) d with
  | Ok r => len r = n /\ Forall w r | Exit => True | UB _ => False | OutOfFuel => False end.
Proof.
  intros L F Hn Fd. unfold ofor.
  assert (G : forall m i d, Z.of_nat m + i = n -> 0 <= i -> i <= len l -> len d = n -> Forall w d ->
    match oloop m i (fun i d => (bit <- rd (l ++ [0]) i ;; if bit =? 0 then Exit else wr d i bit)%out) d with
    | Ok r => len r = n /\ Forall w r | Exit => True | UB _ => False | OutOfFuel => False end).
  { induction m as [|m IH]; intros i e Hm Hi Hl Le Fe; cbn [oloop]; [split; assumption|].
    rewrite (rd_ok 0) by (unfold len in *; rewrite app_length; cbn [List.length]; lia). cbn [obind]. unfold at_.
    destruct (Z.eq_dec i (len l)) as [->|N].
    - rewrite app_nth2 by (unfold len; lia). unfold len. rewrite Nat2Z.id, Nat.sub_diag. cbn. exact I.
    - rewrite app_nth1 by (unfold len in *; lia). destruct (nth (Z.to_nat i) l 0 =? 0) eqn:Z0; [exact I|].
      destruct (wr_ok e i (nth (Z.to_nat i) l 0)) as (e' & -> & W); [lia|]. cbn [obind]. destruct W as (W1 & W2 & W3 & _). apply IH; try lia.
      apply (Forall_at _ 0). intros k Hk. destruct (Z.eq_dec k i) as [->|Nk].
      + rewrite W2. assert (X := proj1 (Forall_at _ 0 _) F i). unfold at_, len in X. rewrite firstn_length, nth_first in X by lia. apply X. unfold len in *. lia.
      + rewrite W3 by lia. apply (proj1 (Forall_at _ 0 _) Fe). unfold len in *. lia. }
  apply G; unfold len; lia || assumption.
Qed.
Lemma tern_part : part_ok tern_import (wf_tern K P) (trits (x_dim K * cp_bits P)).
Proof.
  intros c j (W1 & W2 & W3) T. unfold tern_import.
  assert (S : match match item j "string" with
    | Some (JStr s) => ofor (Z.of_nat (List.length (t_string c))) (fun i d =>
        bit <- rd (map code (list_ascii_of_string s) ++ [0]) i ;; if bit =? 0 then Exit else wr d i bit)%out (t_string c)
    | _ => Ok (t_string c) end with Ok r => len r = x_dim K * cp_bits P /\ Forall trit r | Exit => True | UB _ => False | OutOfFuel => False end).
  { destruct (item j "string") as [[| | |s| |]|] eqn:E; try (split; assumption). specialize (T s E).
    unfold len in W1. rewrite W1. apply tern_loop; [exact W1|exact T|lia|exact W2]. }
  destruct (match item j "string" with | Some (JStr s) => _ | _ => Ok (t_string c) end) as [r| | |]; cbn [obind]; [|exact I|exact S|exact S].
  destruct S as (S1 & S2). rates. split; [exact S1|]. split; [exact S2|]. cbn [t_mu]. unfold len in *. lia.
Qed.
Lemma dummy_part : part_ok dummy_import (fun _ => True) any_item.
Proof. intros c j _ _. exact I. Qed.
Lemma refuse_part {T} (w : T -> Prop) : part_ok refuse w any_item.
Proof. intros c j _ _. exact I. Qed.
(** The action must be in range. *)
Definition legal_action (j : json) : Prop := forall v i, number j "action" = Some (v, i) -> 0 <= i < n_actions K.
Lemma integer_part : part_ok integer_import (act_wf K) legal_action.
Proof.
  intros a j (W1 & W2) L. unfold integer_import. rates. split; cbn [a_action a_mu]; [|unfold len in *; lia].
  destruct (number j "action") as [[v i]|] eqn:E; [exact (L v i E)|exact W1].
Qed.
Lemma nlms_part : pred_part_ok (y_dim K) nlms_import (wf_nlms K R) any_item.
Proof.
  intros p v j (W1 & W2 & W3 & W4) L _. unfold nlms_import. doubles. rates. split; [|exact L]. split; [exact W1|]. cbn [nl_weights nl_n nl_mu nl_tmp].
  split; [unfold len in *; lia|]. split; [unfold len in *; lia|exact W4].
Qed.
Lemma rls_part : pred_part_ok (y_dim K) rls_import (wf_rls K R) any_item.
Proof.
  intros p v j (W1 & W2 & W3 & W4 & W5 & W6 & W7) L _. unfold rls_import. doubles. split; [|exact L]. unfold wf_rls. cbn [rl_n rl_weights rl_matrix rl_tmp rl_vec rl_mat1 rl_mat2].
  repeat split; try assumption. unfold len in *. lia.
Qed.
Lemma constant_part : pred_part_ok (y_dim K) (constant_import K) (fun _ => True) any_item.
Proof. intros p v j _ L _. unfold constant_import. doubles. split; [exact I|auto]. Qed.
End Parts.

(** ** Decoding a rule *)
Section Rule.
Context {B : Type} (FO : Prop) (V : vtab B) (I : imports B) (K : cfg) (kf : Z) (wf : B -> Prop) (mt : B -> list f64 -> Prop).
Context {dom : list f64 -> Prop}.
Hypothesis CO : cfg_ok K kf.
Hypothesis VO : vt_ok (dom := dom) FO V K wf mt.
(** The imports of the three parts, as [part_ok]. *)
Record imports_ok (w : B -> Prop) (da dp dc : json -> Prop) : Prop := {
  mo_act : forall b j, w b -> da j -> rpost FO (im_act I b j) w;
  mo_pred : forall b v j, w b -> len v = y_dim K -> dp j -> rpost FO (im_pred I b v j) (fun r => w (fst r) /\ len (snd r) = y_dim K);
  mo_cond : forall b j, w b -> dc j -> rpost FO (im_cond I b j) w
}.
(** Every attribute is the one of the document, if given, or that of a new rule. *)
Definition decoded (num time : Z) (j : json) (c : cl B) : Prop :=
  c_err c = dbl_item j "error" (INIT_ERROR K) /\ c_fit c = dbl_item j "fitness" (INIT_FITNESS K) /\
  c_num c = int_item j "numerosity" 1 /\ c_exp c = int_item j "experience" 0 /\ c_size c = dbl_item j "set_size" (of_Z num) /\
  c_time c = int_item j "time" time /\ c_age c = int_item j "samples_seen" 0 /\ c_mtotal c = int_item j "samples_matched" 0 /\
  c_action c = int_item j "current_action" 0 /\
  c_m c = match item j "current_match" with Some (JBool b) => b | _ => false end /\
  len (c_prediction c) = y_dim K /\
  (item j "prediction" = None -> c_prediction c = match array j "current_prediction" with Some l => map valuedouble l | None => repeat f0 (Z.to_nat (y_dim K)) end).
Definition when (d : json -> Prop) (o : option json) : Prop := forall j, o = Some j -> d j.
(** Decoding never faults, whatever the document. *)
Lemma import_spec (w : B -> Prop) da dp dc num time j : (forall b, wf b -> w b) -> imports_ok w da dp dc ->
  when da (item j "action") -> when dp (item j "prediction") -> when dc (item j "condition") ->
  rpost FO (cl_json_import V I K num time j) (fun c => decoded num time j c /\ w (c_body c)).
Proof.
  intros WW MO HA HP HC. unfold cl_json_import. assert (YD := ok_y_dim _ _ CO).
  eapply rp_bind; [apply (cl_rand_spec FO V K wf mt VO); reflexivity|]. intros c (b1 & b2 & b & Wb & -> & _).
  set (c0 := import_properties _ j).
  assert (L0 : len (c_prediction c0) = y_dim K) by (apply zeros_len; lia).
  assert (IC : match import_current K c0 j with
    | Ok c1 => decoded num time j c1 /\ c_body c1 = b /\ c_prediction c1 = match array j "current_prediction" with Some l => map valuedouble l | None => repeat f0 (Z.to_nat (y_dim K)) end
    | Exit => True | UB _ => False | OutOfFuel => False end).
  { unfold import_current. rewrite import_doubles_ok by exact L0. destruct (array j "current_prediction") as [l|] eqn:EA.
    - destruct (Z.eqb_spec (Z.of_nat (List.length l)) (y_dim K)) as [E|E]; [|exact Logic.I]. cbn [obind]. unfold decoded. rewrite EA. cbn. unfold len. rewrite map_length.
      repeat split; auto.
    - cbn [obind]. unfold decoded. rewrite EA. cbn. repeat split; auto. }
  intros g. unfold bind at 1. unfold lift. destruct (import_current K c0 j) as [c1| | |]; [|exact Logic.I|exact IC|contradiction].
  destruct IC as (D & Bc & Pc). revert g. 
  apply (rp_bind FO _ _ w).
  { destruct (item j "action") as [a|] eqn:EA; [apply (mo_act _ _ _ _ MO); [rewrite Bc; apply WW, Wb|apply HA; reflexivity]|]. apply rp_ret. rewrite Bc. apply WW, Wb. }
  intros b1' W1. apply (rp_bind FO _ _ (fun r => w (fst r) /\ len (snd r) = y_dim K /\ (item j "prediction" = None -> snd r = c_prediction c1))).
  { destruct (item j "prediction") as [p|] eqn:EA.
    - intros g. pose proof (mo_pred _ _ _ _ MO b1' (c_prediction c1) p W1 ltac:(apply D) (HP p eq_refl) g) as X. destruct (im_pred I b1' (c_prediction c1) p g) as [[r g']| | |]; auto.
      destruct X as (X1 & X2). split; [exact X1|]. split; [exact X2|]. discriminate.
    - apply rp_ret. cbn [fst snd]. split; [exact W1|]. split; [apply D|reflexivity]. }
  intros r (W2 & L2 & N2). apply (rp_bind FO _ _ w).
  { destruct (item j "condition") as [d|] eqn:EA; [apply (mo_cond _ _ _ _ MO); [exact W2|apply HC; reflexivity]|apply rp_ret; exact W2]. }
  intros b3 W3. apply rp_ret. split; [|exact W3]. destruct D as (D1 & D2 & D3 & D4 & D5 & D6 & D7 & D8 & D9 & D10 & D11 & D12).
  unfold decoded, set_both. cbn [c_err c_fit c_num c_exp c_size c_time c_m c_prediction c_action c_age c_mtotal].
  do 10 (split; [assumption|]). split; [exact L2|]. intros N. rewrite (N2 N). apply D12, N.
Qed.

(** ** Inserting *)
Context (N : Z) (da dp dc : json -> Prop).
Hypothesis MO : imports_ok wf da dp dc.
Notation Good := (Good K kf N wf).
(** Documents of rules that keep the invariant; [num]: the numerosity of the population. *)
Record fine_rule (num : Z) (j : json) : Prop := {
  fr_num : 1 <= int_item j "numerosity" 1 <= int_max - POP_SIZE K;
  fr_fit : forall v i, number j "fitness" = Some (v, i) -> fin_p (bpow radix2 kf) v;
  fr_size : match number j "set_size" with Some (v, _) => fin_in 1 (bpow radix2 33) v | None => 1 <= num end;
  fr_action : 0 <= int_item j "current_action" 0 < n_actions K;
  fr_exp : 0 <= int_item j "experience" 0 <= N;
  fr_act : when da (item j "action");
  fr_pred : when dp (item j "prediction");
  fr_cond : when dc (item j "condition")
}.
Lemma set_nonneg h S : set_ok (B := B) h S -> 0 <= set_nm S.
Proof.
  intros [_ E P]. rewrite E. clear E. induction (set_list S) as [|l r IH]; [reflexivity|]. unfold sum_nums in *. cbn [map fold_right].
  assert (1 <= num_of h l) by (apply P; left; reflexivity). assert (HR : forall l, In l r -> 1 <= num_of h l) by (intros; apply P; right; assumption). specialize (IH HR). lia.
Qed.
Lemma good_rng g s : Good s -> Good (with_rng g s).
Proof. intros [G1 G2 G3]. constructor; assumption. Qed.
Lemma insert_cl_spec j s : Good s -> fine_rule (set_nm (s_pset s)) j ->
  hpost FO (json_insert_cl V I K j s) (fun _ s' => exists c g, decoded (set_nm (s_pset s)) (s_time s) j c /\
    insert_rel V K c (with_rng g s) s' /\ Good s' /\ 1 <= set_nm (s_pset s')).
Proof.
  intros G F. unfold json_insert_cl. apply hp_bind_get. apply hp_bind_get.
  assert (NN : 0 <= set_nm (s_pset s)) by (apply (set_nonneg (s_heap s)); exact (i_p (g_inv G))).
  assert (LIM := g_lim G). assert (PK := ok_pop _ _ CO).
  eapply hp_bind with (P := fun c s' => (exists g, s' = with_rng g s) /\ decoded (set_nm (s_pset s)) (s_time s) j c /\ wf (c_body c)).
  { eapply hp_rand; [apply (import_spec wf da dp dc _ _ j (fun b H => H) MO (fr_act _ _ F) (fr_pred _ _ F) (fr_cond _ _ F))|]. intros c g X. split; [exists g; reflexivity|exact X]. }
  intros c s' ((g & ->) & D & Wc). pose proof D as (D1 & D2 & D3 & D4 & D5 & D6 & D7 & D8 & D9 & D10 & D11 & D12).
  destruct (fr_num _ _ F) as (N1 & N2).
  unfold mbind at 1, mlift, cint. destruct (Z.leb_spec (-2 ^ 31) (set_nm (s_pset s) + c_num c)); [|unfold int_max in *; lia].
  destruct (Z.ltb_spec (set_nm (s_pset s) + c_num c) (2 ^ 31)); [|unfold int_max in *; lia]. cbn [andb].
  eapply hp_mono; [apply (insert_spec FO V K kf wf CO N c (with_rng g s))|].
  - apply good_rng, G.
  - constructor.
    + rewrite D2. unfold dbl_item. pose proof (fr_fit _ _ F) as X. destruct (number j "fitness") as [[v i]|]; [exact (X v i eq_refl)|]. apply (ok_init_fitness _ _ CO).
    + rewrite D5. unfold dbl_item. pose proof (fr_size _ _ F) as X. destruct (number j "set_size") as [[v i]|]; [exact X|]. cbn [option_map given]. apply of_Z_size. unfold int_max in *. lia.
    + rewrite D9. apply (fr_action _ _ F).
    + exact D11.
    + rewrite D4. apply (fr_exp _ _ F).
    + exact Wc.
  - lia.
  - intros [] s' (R & G'). exists c, g. split; [exact D|]. split; [exact R|]. split; [exact G'|].
    destruct R as (s0 & s1 & h' & _ & _ & _ & NM & _ & ->). change (1 <= set_nm (s_pset s1)). rewrite NM. change (s_pset (with_rng g s)) with (s_pset s). lia.
Qed.
Lemma fine_mono a b j : fine_rule a j -> 1 <= b -> fine_rule b j.
Proof. intros [] H. constructor; try assumption. destruct (number j "set_size") as [[v i]|]; assumption. Qed.
(** The rules inserted one after the other. *)
Fixpoint inserted (l : list json) (s s' : st B) : Prop :=
  match l with
  | [] => s' = s
  | j :: r => exists c g s1, decoded (set_nm (s_pset s)) (s_time s) j c /\ insert_rel V K c (with_rng g s) s1 /\ inserted r s1 s'
  end.
Lemma insert_all_spec l : forall s, Good s -> Forall (fine_rule (set_nm (s_pset s))) l ->
  hpost FO (miter (json_insert_cl V I K) l s) (fun _ s' => inserted l s s' /\ Good s').
Proof.
  induction l as [|j r IH]; intros s G F; cbn [miter]; [split; [reflexivity|exact G]|].
  inversion F as [|j' r' Fj Fr]; subst j' r'. eapply hp_bind; [apply insert_cl_spec; [exact G|exact Fj]|].
  intros [] s1 (c & g & D & R & G1 & P1). eapply hp_mono; [apply IH; [exact G1|]|].
  - eapply Forall_impl; [|exact Fr]. intros k Fk. exact (fine_mono _ _ k Fk P1).
  - intros [] s' (R' & G'). split; [|exact G']. cbn [inserted]. exists c, g, s1. auto.
Qed.
(** The rules of a document: the elements of the array that is its first child. *)
Definition rules_of (doc : json) : option (list json) := match first_child doc with Some (JArr l) => Some l | _ => None end.
Lemma C28_insert_lemma doc s : Good s -> rules_of doc <> Some [] -> (forall l, rules_of doc = Some l -> Forall (fine_rule (set_nm (s_pset s))) l) ->
  hpost FO (json_insert V I K doc s) (fun _ s' => Good s' /\
    match rules_of doc with Some l => inserted (rev l) s s' | None => s' = s end).
Proof.
  intros G NE F. unfold rules_of, json_insert in *. destruct (first_child doc) as [[| | | |l|]|]; try (split; [exact G|reflexivity]).
  destruct l as [|j l]; [congruence|]. eapply hp_mono; [apply insert_all_spec; [exact G|]|].
  - apply Forall_rev, F. reflexivity.
  - intros [] s' (R & G'). split; assumption.
Qed.
Lemma C28_empty_lemma doc s : rules_of doc = Some [] -> json_insert V I K doc s = UB NullDeref.
Proof. unfold rules_of, json_insert. destruct (first_child doc) as [[| | | |l|]|]; try discriminate. intros E. injection E as ->. reflexivity. Qed.
End Rule.

(** The parts put together. *)
Section Join.
Context {C A P : Type} (FO : Prop) (K : cfg).
Context (fc : C -> json -> outcome C) (fa : A -> json -> outcome A) (fp : P -> list f64 -> json -> outcome (P * list f64)).
Lemma C28_parts_lemma (wc : C -> Prop) (wa : A -> Prop) (wp : P -> Prop) da dp dc : part_ok fc wc dc -> part_ok fa wa da -> pred_part_ok (y_dim K) fp wp dp ->
  imports_ok FO (join_imports fc fa fp) K (wf_pay wc wa wp) da dp dc.
Proof.
  intros HC HA HP. constructor.
  - intros b j (WC & (a & Ea & Wa) & WP) D g. cbn [join_imports im_act]. unfold need. rewrite Ea. unfold bind, lift, ret.
    specialize (HA a j Wa D). destruct (fa a j) as [a'| | |]; auto; try contradiction. split; [exact WC|]. split; [exists a'; auto|exact WP].
  - intros b v j (WC & WA & (p & Ep & Wp)) L D g. cbn [join_imports im_pred]. unfold need. rewrite Ep. unfold bind, lift, ret.
    specialize (HP p v j Wp L D). destruct (fp p v j) as [[p' v']| | |]; auto; try contradiction. destruct HP as (H1 & H2). cbn [fst snd].
    split; [split; [exact WC|split; [exact WA|exists p'; auto]]|exact H2].
  - intros b j ((c & Ec & Wc) & WA & WP) D g. cbn [join_imports im_cond]. unfold need. rewrite Ec. unfold bind, lift, ret.
    specialize (HC c j Wc D). destruct (fc c j) as [c'| | |]; auto; try contradiction. split; [exists c'; auto|split; assumption].
Qed.
End Join.
(** The parts modelled.  Integer actions and ternary strings need a condition on the document to
    keep their contents valid; without it they keep their sizes, so decoding does not fault. *)
Definition act_shape (a : actint) : Prop := List.length (a_mu a) = 1%nat.
Definition tern_shape (K : cfg) (P : cpar) (c : ternary) : Prop := len (t_string c) = x_dim K * cp_bits P /\ List.length (t_mu c) = 1%nat.
Lemma integer_loose : part_ok integer_import act_shape any_item.
Proof. intros a j W _. unfold act_shape in W. unfold integer_import. rates. unfold act_shape. cbn [a_mu]. unfold len in *. lia. Qed.
Lemma tern_loose K P : part_ok tern_import (tern_shape K P) any_item.
Proof.
  intros c j (W1 & W3) _. unfold tern_import.
  assert (S : match match item j "string" with
    | Some (JStr s) => ofor (Z.of_nat (List.length (t_string c))) (fun i d =>
        bit <- rd (map code (list_ascii_of_string s) ++ [0]) i ;; if bit =? 0 then Exit else wr d i bit)%out (t_string c)
    | _ => Ok (t_string c) end with Ok r => len r = x_dim K * cp_bits P /\ Forall (fun _ => True) r | Exit => True | UB _ => False | OutOfFuel => False end).
  { assert (AT : forall l : list Z, Forall (fun _ => True) l) by (induction l; constructor; auto).
    destruct (item j "string") as [[| | |s| |]|] eqn:E; try (split; [assumption|apply AT]).
    unfold len in W1. rewrite W1. apply tern_loop; [exact W1|apply AT|lia|apply AT]. }
  destruct (match item j "string" with | Some (JStr s) => _ | _ => Ok (t_string c) end) as [r| | |]; cbn [obind]; [|exact I|exact S|exact S].
  destruct S as (S1 & S2). rates. split; [exact S1|]. cbn [t_mu]. unfold len in *. lia.
Qed.
Lemma C28_types_lemma K P R :
  part_ok (rect_import K P) (wf_rect K) any_item /\ part_ok (ellip_import K) (wf_ellip K) any_item /\
  part_ok tern_import (wf_tern K P) (trits (x_dim K * cp_bits P)) /\ part_ok tern_import (tern_shape K P) any_item /\
  part_ok integer_import (act_wf K) (legal_action K) /\ part_ok integer_import act_shape any_item /\
  pred_part_ok (y_dim K) nlms_import (wf_nlms K R) any_item /\ pred_part_ok (y_dim K) rls_import (wf_rls K R) any_item /\
  pred_part_ok (y_dim K) (constant_import K) (fun _ => True) any_item.
Proof.
  split; [apply rect_part|]. split; [apply ellip_part|]. split; [apply tern_part|]. split; [apply tern_loose|].
  split; [apply integer_part|]. split; [apply integer_loose|]. split; [apply nlms_part|]. split; [apply rls_part|apply constant_part].
Qed.
(** The numbers are those of the document. *)
Lemma C28_numbers_lemma dst n src : len dst = n ->
  import_doubles dst n src =
  match src with None => Ok dst | Some l => if Z.of_nat (List.length l) =? n then Ok (map valuedouble l) else Exit end.
Proof. apply import_doubles_ok. Qed.
Lemma C28_rates_lemma mu n j : len mu = n ->
  import_mu mu n j = match array j "mutation" with
                     | None => Ok mu
                     | Some l => if (Z.of_nat (List.length l) =? n) && forallb (fun e => share (valuedouble e)) l then Ok (map valuedouble l) else Exit
                     end.
Proof. apply import_mu_ok. Qed.
