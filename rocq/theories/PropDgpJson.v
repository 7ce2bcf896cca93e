(** * DGP graphs written as JSON and read again (C80). *)
From Coq Require Import ZArith Bool List String Ascii Reals Lia Lra.
From Flocq Require Import Core BinarySingleNaN.
From Verif Require Import Outcome F64 F64Facts F64Bounds Rng RngFacts RandInt Pop PopSpec PopInv Arr ArrFacts Sam SamFacts Cond TernFacts Comp CompFacts Dgp DgpFacts Names Json PropJson ParJson PropParJson RuleJson PropRuleJson Clock DgpJson PropDgp.
From Verif Require Net.
Import ListNotations.
Open Scope string_scope.
Open Scope Z_scope.

(** ** The loops *)
Lemma loop_all {X Y} (l : list X) (h : X -> Y -> Y) (ok : X -> bool) (dy : Y) dst : len dst = len l ->
  forall (f : X -> list Y -> Z -> outcome (list Y)),
  (forall i d e, 0 <= i < len l -> len d = len l -> nth_error l (Z.to_nat i) = Some e ->
     f e d i = if ok e then wr d i (h e (at_ dy d i)) else Exit) ->
  ofor (len l) (fun i d => (e <- rd l i ;; f e d i)%out) dst =
  if forallb ok l then Ok (map (fun p => h (fst p) (snd p)) (combine l dst)) else Exit.
Proof.
  intros L f H. unfold ofor, len. rewrite Nat2Z.id.
  assert (G : forall q p d1 d2, l = (p ++ q)%list -> List.length d1 = List.length p -> List.length d2 = List.length q ->
    oloop (List.length q) (Z.of_nat (List.length p)) (fun i d => (e <- rd l i ;; f e d i)%out) (d1 ++ d2)%list =
    if forallb ok q then Ok (d1 ++ map (fun r => h (fst r) (snd r)) (combine q d2))%list else Exit).
  { induction q as [|e q IH]; intros p d1 d2 El L1 L2; cbn [List.length oloop forallb].
    - destruct d2; [|discriminate]. reflexivity.
    - destruct d2 as [|v d2]; [discriminate|]. cbn [List.length] in L2.
      assert (R : rd l (Z.of_nat (List.length p)) = Ok e).
      { unfold rd. destruct (Z.ltb_spec (Z.of_nat (List.length p)) 0); [lia|]. rewrite Nat2Z.id, El, nth_error_app2, Nat.sub_diag by lia. reflexivity. }
      rewrite R. cbn [obind]. rewrite (H _ _ e).
      + destruct (ok e); [|reflexivity]. cbn [andb].
        assert (A : at_ dy (d1 ++ v :: d2) (Z.of_nat (List.length p)) = v).
        { unfold at_. rewrite Nat2Z.id, app_nth2 by lia. rewrite L1, Nat.sub_diag. reflexivity. }
        rewrite A. destruct (wr_ok (d1 ++ v :: d2) (Z.of_nat (List.length p)) (h e v)) as (d' & E' & LW & AW & OW & _).
        { unfold len. rewrite app_length. cbn [List.length]. lia. }
        rewrite E'. cbn [obind]. assert (D : d' = ((d1 ++ [h e v]) ++ d2)%list).
        { apply (list_ext dy).
          - rewrite LW. unfold len. rewrite !app_length. cbn [List.length]. lia.
          - intros k Hk. rewrite LW in Hk. destruct (Z.eq_dec k (Z.of_nat (List.length p))) as [->|N].
            + rewrite AW. unfold at_. rewrite Nat2Z.id, <- app_assoc, app_nth2 by lia. rewrite L1, Nat.sub_diag. reflexivity.
            + rewrite OW by lia. unfold at_. rewrite <- app_assoc. destruct (lt_dec (Z.to_nat k) (List.length d1)).
              * rewrite !app_nth1 by lia. reflexivity.
              * rewrite !app_nth2 by lia. cbn [app]. destruct (Z.to_nat k - List.length d1)%nat eqn:Q; [lia|reflexivity]. }
        rewrite D. replace (Z.of_nat (List.length p) + 1) with (Z.of_nat (List.length (p ++ [e]))) by (rewrite app_length; cbn [List.length]; lia).
        rewrite IH; [|rewrite <- app_assoc; exact El|rewrite !app_length; cbn [List.length]; lia|lia].
        destruct (forallb ok q); [|reflexivity]. rewrite <- app_assoc. reflexivity.
      + rewrite El. unfold len. rewrite app_length. cbn [List.length]. lia.
      + rewrite El. unfold len. rewrite !app_length. cbn [List.length]. lia.
      + rewrite Nat2Z.id, El, nth_error_app2, Nat.sub_diag by lia. reflexivity. }
  specialize (G l [] [] dst eq_refl eq_refl). cbn [List.length app] in G. apply G. unfold len in L. lia.
Qed.
Lemma wr_same {Y} (d : Y) l i : 0 <= i < len l -> wr l i (at_ d l i) = Ok l.
Proof.
  intros H. destruct (wr_ok l i (at_ d l i) H) as (l' & -> & LW & AW & OW & _). f_equal. apply (list_ext d); [exact LW|].
  intros k Hk. destruct (Z.eq_dec k i) as [->|N]; [apply AW|apply OW; lia].
Qed.
Lemma map_left {X Y} (h : X -> Y) (l : list X) : forall (d : list Y), len d = len l -> map (fun p => h (fst p)) (combine l d) = map h l.
Proof.
  induction l as [|x l IH]; intros d L; [reflexivity|]. destruct d as [|v d]; [unfold len in L; cbn in L; lia|]. cbn [combine map fst]. f_equal. apply IH.
  unfold len in *. cbn [List.length] in L. lia.
Qed.

(** ** What is accepted, and what is read *)
Definition size (a : dargs) (j : json) : Z := match item j "n" with Some (JNum _ i) => i | _ => da_n a end.
Definition with_n (a : dargs) (n : Z) : dargs := mkDargs (da_evolve a) (da_max_k a) (da_max_t a) n (da_n_inputs a).
Definition int_given (j : json) (name : string) : bool :=
  match item j name with None => true | Some (JNum _ i) => 1 <=? i | Some _ => false end.
Definition arr_given (j : json) (name : string) (n : Z) (ok : json -> bool) : bool :=
  match array j name with None => true | Some l => (len l =? n) && forallb ok l end.
Definition unit_given (e : json) : bool := share (valuedouble e).
(** The three names, and what is no string. *)
Definition known (e : json) : bool :=
  match e with JStr s => same s "Fuzzy NOT" 10 || same s "Fuzzy AND" 10 || same s "Fuzzy OR" 9 | _ => true end.
Definition called (e : json) (f : Z) : Z :=
  match e with JStr s => if same s "Fuzzy NOT" 10 then 0 else if same s "Fuzzy AND" 10 then 1 else 2 | _ => f end.
Definition conn_given (m : Z) (e : json) : bool := (0 <=? valueint e) && (valueint e <=? m).
Definition accepted (a : dargs) (j : json) : bool :=
  let n := size a j in
  int_given j "n" && (int_given j "t" && (arr_given j "current_state" n unit_given && (arr_given j "initial_state" n unit_given &&
  (arr_given j "functions" n known && (arr_given j "connectivity" (n * da_max_k a) (conn_given (n + da_n_inputs a)) &&
   arr_given j "mutation" 3 unit_given))))).
Definition read_graph (a : dargs) (j : json) (g : graph) : graph :=
  mkGraph (da_evolve a)
    (match array j "initial_state" with Some l => map valuedouble l | None => d_initial g end)
    (match array j "current_state" with Some l => map valuedouble l | None => d_state g end)
    (match array j "connectivity" with Some l => map valueint l | None => d_conn g end)
    (match array j "functions" with Some l => map (fun p => called (fst p) (snd p)) (combine l (d_func g)) | None => d_func g end)
    (size a j * da_max_k a) (da_max_k a) (da_max_t a) (size a j) (da_n_inputs a)
    (match item j "t" with Some (JNum _ i) => i | _ => d_t g end)
    (match array j "mutation" with Some l => map valuedouble l | None => [] end).
(** A random graph of [n] nodes, without rates. *)
Record drawn (a : dargs) (t0 n : Z) (g : graph) : Prop := {
  dr_initial : len (d_initial g) = n; dr_state : len (d_state g) = n; dr_func : len (d_func g) = n;
  dr_conn : len (d_conn g) = n * da_max_k a;
  dr_initial01 : Forall in01 (d_initial g); dr_state01 : Forall in01 (d_state g);
  dr_funcs : Forall (fun f => 0 <= f <= 2) (d_func g);
  dr_conns : Forall (fun c => 0 <= c < n + da_n_inputs a) (d_conn g);
  dr_t : if da_evolve a then 1 <= d_t g <= da_max_t a else d_t g = t0;
  dr_rest : d_evolve g = da_evolve a /\ d_max_k g = da_max_k a /\ d_max_t g = da_max_t a /\ d_n_inputs g = da_n_inputs a
}.

Lemma drawn_ok a n t0 r : dargs_ok (with_n a n) ->
  exists g r', graph_rand (mkGraph (da_evolve a) [] [] [] [] (n * da_max_k a) (da_max_k a) (da_max_t a) n (da_n_inputs a) t0 []) r = Ok (g, r') /\ drawn a t0 n g.
Proof.
  intros DA. set (lm := mkLibm (fun x => x) (fun x => x) (fun x => x) (fun x => x) (fun x => x) (fun x _ => x) (fun x => x) (fun x => x)).
  pose proof (src_any lm) as SR.
  assert (G : rt (fun _ => True) (graph_rand (mkGraph (da_evolve a) [] [] [] [] (n * da_max_k a) (da_max_k a) (da_max_t a) n (da_n_inputs a) t0 [])) (drawn a t0 n)).
  { unfold graph_rand. cbn [d_evolve d_initial d_state d_conn d_func d_klen d_max_k d_max_t d_n d_n_inputs d_t d_mu].
    eapply rt_bind with (P := fun t => if da_evolve a then 1 <= t <= da_max_t a else t = t0).
    { destruct (da_evolve a); [exact (rt_cycles _ DA _ lm _ SR)|apply rt_ret; reflexivity]. }
    intros t Ht. eapply rt_bind; [apply rt_tab with (P := fun p => 0 <= fst (fst p) <= 2 /\ in01 (snd (fst p)) /\ in01 (snd p))|].
    { eapply rt_bind; [apply (rt_func _ lm _ SR)|]. intros f Hf. eapply rt_bind; [apply (rt_01 _ lm _ SR)|]. intros i Hi. eapply rt_bind; [apply (rt_01 _ lm _ SR)|]. intros s Hs.
      apply rt_ret. auto. }
    intros ns (LN & FN). eapply rt_bind; [apply rt_tab, (rt_conn _ DA _ lm _ SR)|]. intros cs (LC & FC). apply rt_ret.
    destruct DA as (D1 & D2 & D3 & D4 & D5 & D6). cbn [with_n da_n da_max_k da_max_t da_n_inputs] in *.
    assert (LZ : len ns = n) by (unfold len; lia).
    split; cbn [d_evolve d_initial d_state d_conn d_func d_klen d_max_k d_max_t d_n d_n_inputs d_t d_mu]; rewrite ?len_map; try assumption; auto.
    - unfold len. nia.
    - rewrite Forall_map. eapply Forall_impl; [|exact FN]. cbv beta. tauto.
    - rewrite Forall_map. eapply Forall_impl; [|exact FN]. cbv beta. tauto.
    - rewrite Forall_map. eapply Forall_impl; [|exact FN]. cbv beta. tauto. }
  destruct (G r I) as (g & r' & E & _ & D). eauto.
Qed.

Lemma positive_eq j name d : positive j name d = if int_given j name then Ok (match item j name with Some (JNum _ i) => i | _ => d end) else Exit.
Proof.
  unfold positive, int_given. destruct (item j name) as [[| |v i| | |]|]; try reflexivity. destruct (Z.ltb_spec i 1), (Z.leb_spec 1 i); try lia; reflexivity.
Qed.
Lemma unit_eq name dst n j : len dst = n ->
  import_unit name dst n j = if arr_given j name n unit_given then Ok (match array j name with Some l => map valuedouble l | None => dst end) else Exit.
Proof.
  intros L. unfold import_unit, sam_json_import, arr_given. destruct (array j name) as [l|]; [|reflexivity]. cbn [option_map].
  change (Z.of_nat (List.length (map valuedouble l))) with (len (map valuedouble l)). rewrite len_map.
  destruct (Z.eqb_spec (len l) n) as [E|E]; [|reflexivity]. cbn [negb andb]. rewrite <- E, <- (len_map valuedouble l).
  rewrite (loop_all (map valuedouble l) (fun v _ => v) share f0 dst) with (f := fun v m i => if flt v f0 || fgt v f1 then Exit else wr m i v).
  - rewrite (map_left (fun v => v)) by (rewrite len_map; lia). rewrite map_id.
    replace (forallb share (map valuedouble l)) with (forallb unit_given l); [reflexivity|]. clear. induction l as [|e l IH]; [reflexivity|]. cbn [forallb map]. rewrite IH. reflexivity.
  - rewrite len_map. lia.
  - intros i d v _ _ _. unfold share. destruct (flt v f0 || fgt v f1); reflexivity.
Qed.
Lemma functions_eq dst n j : len dst = n ->
  import_functions dst n j = if arr_given j "functions" n known then Ok (match array j "functions" with Some l => map (fun p => called (fst p) (snd p)) (combine l dst) | None => dst end) else Exit.
Proof.
  intros L. unfold import_functions, arr_given. destruct (array j "functions") as [l|]; [|reflexivity].
  change (Z.of_nat (List.length l)) with (len l). destruct (Z.eqb_spec (len l) n) as [E|E]; [|reflexivity]. cbn [negb andb]. rewrite <- E.
  apply (loop_all l called known 0 dst) with (f := fun e d i => match e with JStr s => (f <- function_int s ;; wr d i f)%out | _ => Ok d end); [lia|].
  intros i d e Hi Ld _. destruct e as [| | |s| |]; cbn [known called]; try (symmetry; apply wr_same; lia).
  unfold function_int. destruct (same s "Fuzzy NOT" 10); [reflexivity|]. destruct (same s "Fuzzy AND" 10); [reflexivity|]. destruct (same s "Fuzzy OR" 9); reflexivity.
Qed.
Lemma conns_eq dst klen n ni j : len dst = klen -> 0 <= n + ni <= int_max ->
  import_conns dst klen n ni j = if arr_given j "connectivity" klen (conn_given (n + ni)) then Ok (match array j "connectivity" with Some l => map valueint l | None => dst end) else Exit.
Proof.
  intros L Hm. unfold import_conns, arr_given. destruct (array j "connectivity") as [l|]; [|reflexivity].
  change (Z.of_nat (List.length l)) with (len l). destruct (Z.eqb_spec (len l) klen) as [E|E]; [|reflexivity]. cbn [negb andb]. rewrite <- E.
  assert (C : cint (n + ni) = Ok (n + ni)).
  { unfold cint, in_int, int_min, int_max in *. destruct (Z.leb_spec (- 2 ^ 31) (n + ni)); [|lia]. destruct (Z.ltb_spec (n + ni) (2 ^ 31)); [reflexivity|lia]. }
  rewrite C. cbn [obind].
  rewrite (loop_all l (fun e _ => valueint e) (conn_given (n + ni)) 0 dst) with (f := fun e d i => if (valueint e <? 0) || (n + ni <? valueint e) then Exit else wr d i (valueint e)).
  - rewrite (map_left valueint) by lia. reflexivity.
  - lia.
  - intros i d e _ _ _. unfold conn_given. destruct (Z.ltb_spec (valueint e) 0), (Z.leb_spec 0 (valueint e)), (Z.ltb_spec (n + ni) (valueint e)), (Z.leb_spec (valueint e) (n + ni)); try lia; reflexivity.
Qed.

Lemma size_pos a j : dargs_ok a -> int_given j "n" = true -> 1 <= size a j.
Proof.
  intros (D1 & _). unfold int_given, size. destruct (item j "n") as [[| |v i| | |]|]; try discriminate; [|intros _; exact D1]. intros H. lia.
Qed.
Lemma with_ok a n : dargs_ok a -> 1 <= n -> n * da_max_k a <= int_max -> n + da_n_inputs a <= int_max -> dargs_ok (with_n a n).
Proof. intros (D1 & D2 & D3 & D4 & D5 & D6) H1 H2 H3. unfold dargs_ok, with_n. cbn [da_n da_max_k da_max_t da_n_inputs]. repeat (split; [assumption|]). assumption. Qed.

Lemma bind_ok {X Y} (v : X) (k : X -> RM Y) r : bind (lift (Ok v)) k r = k v r. Proof. reflexivity. Qed.
Lemma bind_run {X Y} (m : RM X) (k : X -> RM Y) r v r' : m r = Ok (v, r') -> bind m k r = k v r'. Proof. intros E. unfold bind. rewrite E. reflexivity. Qed.
(** Reading: what is accepted, and what is read. *)
Lemma import_eq a t0 j r : dargs_ok a -> size a j * da_max_k a <= int_max -> size a j + da_n_inputs a <= int_max ->
  if accepted a j then exists g r', drawn a t0 (size a j) g /\ graph_import a t0 j r = Ok (read_graph a j g, r')
  else graph_import a t0 j r = Exit.
Proof.
  intros DA H1 H2. unfold accepted, graph_import. cbv zeta. rewrite positive_eq. fold (size a j).
  destruct (int_given j "n") eqn:EN; [|reflexivity]. rewrite bind_ok. cbn [andb]. pose proof (size_pos a j DA EN) as HS. set (n := size a j) in *.
  pose proof (with_ok a n DA HS H1 H2) as DN. pose proof DN as (_ & D2 & _ & D4 & _). cbn [with_n da_max_k da_n_inputs] in D2, D4.
  assert (C : cint (n * da_max_k a) = Ok (n * da_max_k a)).
  { unfold cint, in_int, int_min, int_max in *. destruct (Z.leb_spec (- 2 ^ 31) (n * da_max_k a)); [|nia]. destruct (Z.ltb_spec (n * da_max_k a) (2 ^ 31)); [reflexivity|lia]. }
  rewrite C, bind_ok. destruct (drawn_ok a n t0 r DN) as (g & r' & E & D). rewrite (bind_run _ _ _ _ _ E). unfold lift.
  destruct D as [L1 L2 L3 L4 I1 I2 I3 I4 I5 (E1 & E3 & E4 & E6)].
  rewrite positive_eq. destruct (int_given j "t") eqn:ET; [|reflexivity]. cbn [obind andb].
  rewrite unit_eq by exact L2. destruct (arr_given j "current_state" n unit_given); [|reflexivity]. cbn [obind andb].
  rewrite unit_eq by exact L1. destruct (arr_given j "initial_state" n unit_given); [|reflexivity]. cbn [obind andb].
  rewrite functions_eq by exact L3. destruct (arr_given j "functions" n known); [|reflexivity]. cbn [obind andb].
  rewrite conns_eq by (try exact L4; lia). destruct (arr_given j "connectivity" (n * da_max_k a) (conn_given (n + da_n_inputs a))); [|reflexivity]. cbn [obind andb].
  assert (M : (match array j "mutation" with None => Ok [] | Some _ => import_mu (repeat f0 3) 3 j end) =
    if arr_given j "mutation" 3 unit_given then Ok (match array j "mutation" with Some l => map valuedouble l | None => [] end) else Exit).
  { unfold arr_given. destruct (array j "mutation") as [l|] eqn:EM; [|reflexivity]. rewrite import_mu_ok by reflexivity. rewrite EM.
    change (Z.of_nat (List.length l)) with (len l). change (fun e => share (valuedouble e)) with unit_given. destruct (len l =? 3); reflexivity. }
  rewrite M. destruct (arr_given j "mutation" 3 unit_given); [|reflexivity]. cbn [obind].
  exists g, r'. split; [split; auto|]. unfold read_graph. fold n. rewrite E1, E3, E4, E6. reflexivity.
Qed.

(** ** Writing, and reading again *)
Definition fun_name (f : Z) : string := if f =? 0 then "Fuzzy NOT" else if f =? 1 then "Fuzzy AND" else "Fuzzy OR".
Lemma omap_at {X Y} (d : X) (l : list X) (f : X -> outcome Y) (h : X -> Y) n : len l = n -> Forall (fun v => f v = Ok (h v)) l ->
  Net.omap (fun i => (v <- rd l (Z.of_nat i) ;; f v)%out) (seq 0 (Z.to_nat n)) = Ok (map h l).
Proof.
  intros L F. rewrite (omap_ok _ (fun i => h (at_ d l (Z.of_nat i)))).
  - f_equal. apply (list_ext (h d)); [unfold len in *; rewrite !map_length, seq_length; lia|]. intros k Hk. unfold len in Hk. rewrite map_length, seq_length in Hk.
    unfold at_. rewrite nth_indep with (d' := h (nth (Z.to_nat (Z.of_nat 0)) l d)) by (rewrite map_length, seq_length; lia).
    rewrite (map_nth (fun i => h (nth (Z.to_nat (Z.of_nat i)) l d))), seq_nth by lia. rewrite Nat.add_0_l, Nat2Z.id, map_nth. reflexivity.
  - intros i Hi. apply in_seq in Hi. rewrite (rd_ok d) by (unfold len in *; lia). cbn [obind]. rewrite Forall_forall in F. apply F. unfold at_. apply nth_In. unfold len in L. lia.
Qed.
(** The document of a graph. *)
Definition document (g : graph) : json :=
  JObj [("n", JNum (of_Z (d_n g)) (d_n g)); ("t", JNum (of_Z (d_t g)) (d_t g)); ("n_inputs", JNum (of_Z (d_n_inputs g)) (d_n_inputs g));
        ("initial_state", JArr (map num (d_initial g))); ("current_state", JArr (map num (d_state g)));
        ("functions", JArr (map (fun f => JStr (fun_name f)) (d_func g))); ("connectivity", JArr (map (fun c => JNum (of_Z c) c) (d_conn g)));
        ("mutation", JArr (map num (d_mu g)))].
Lemma export_eq a g : dargs_ok a -> graph_sh a g -> graph_export g = Ok (document g).
Proof.
  intros (D1 & D2 & D3 & D4 & D5 & D6) ((E1 & E2 & E3 & E4 & E5 & E6 & ET & EM & ER) & LI & LS & LF & LC & FF & FC). unfold graph_export, document.
  rewrite !doubles_ok by lia. cbn [obind]. rewrite (omap_at 0 (d_func g) _ (fun f => JStr (fun_name f))); [|lia|].
  - cbn [obind]. rewrite (omap_at 0 (d_conn g) _ (fun c => JNum (of_Z c) c)); [|lia|].
    + cbn [obind]. rewrite !num_int by (unfold int_min, int_max in *; lia). reflexivity.
    + eapply Forall_impl; [|exact FC]. cbv beta. intros c Hc. rewrite num_int by (unfold int_min, int_max in *; lia). reflexivity.
  - eapply Forall_impl; [|exact FF]. cbv beta. intros f Hf. assert (f = 0 \/ f = 1 \/ f = 2) as [-> | [-> | ->]] by lia; reflexivity.
Qed.
Definition cleared (g : graph) : graph :=
  mkGraph (d_evolve g) (map (kept f0) (d_initial g)) (map (kept f0) (d_state g)) (d_conn g) (d_func g) (d_klen g) (d_max_k g) (d_max_t g)
    (d_n g) (d_n_inputs g) (d_t g) (map (kept f0) (d_mu g)).
Lemma unit_all l : Forall (fun v => share (kept f0 v) = true) l -> forallb unit_given (map num l) = true.
Proof. intros F. apply forallb_forall. intros e He. apply in_map_iff in He. destruct He as (v & <- & Hv). unfold unit_given. rewrite value_num. rewrite Forall_forall in F. apply F, Hv. Qed.
Lemma called_name f v : 0 <= f <= 2 -> called (JStr (fun_name f)) v = f /\ known (JStr (fun_name f)) = true.
Proof. intros H. assert (f = 0 \/ f = 1 \/ f = 2) as [-> | [-> | ->]] by lia; split; reflexivity. Qed.
Lemma called_all l : forall d, Forall (fun f => 0 <= f <= 2) l -> len d = len l ->
  map (fun p => called (fst p) (snd p)) (combine (map (fun f => JStr (fun_name f)) l) d) = l.
Proof.
  induction l as [|f l IH]; intros d F L; [reflexivity|]. destruct d as [|v d]; [unfold len in L; cbn in L; lia|]. inversion F as [|? ? Hf Hl]; subst.
  cbn [map combine fst snd]. rewrite (proj1 (called_name f v Hf)). f_equal. apply IH; [exact Hl|]. unfold len in *. cbn [List.length] in L. lia.
Qed.
Lemma document_back a n g t0 r : dargs_ok a -> dargs_ok (with_n a n) -> graph_sh (with_n a n) g ->
  Forall (fun v => share (kept f0 v) = true) (d_initial g) -> Forall (fun v => share (kept f0 v) = true) (d_state g) -> Forall (fun v => share (kept f0 v) = true) (d_mu g) ->
  exists r', graph_import a t0 (document g) r = Ok (cleared g, r').
Proof.
  intros DA DN SH FI FS FM. pose proof DN as (D1 & D2 & D3 & D4 & D5 & D6). pose proof SH as ((E1 & E2 & E3 & E4 & E5 & E6 & ET & EM & ER) & LI & LS & LF & LC & FF & FC).
  cbn [with_n da_evolve da_max_k da_max_t da_n da_n_inputs] in *.
  assert (SZ : size a (document g) = n) by exact E5.
  pose proof (import_eq a t0 (document g) r DA) as H. rewrite SZ in H. specialize (H D5 D6).
  assert (AC : accepted a (document g) = true).
  { unfold accepted. cbv zeta. rewrite SZ.
    replace (int_given (document g) "n") with (1 <=? d_n g) by reflexivity. replace (int_given (document g) "t") with (1 <=? d_t g) by reflexivity.
    replace (arr_given (document g) "current_state" n unit_given) with ((len (map num (d_state g)) =? n) && forallb unit_given (map num (d_state g))) by reflexivity.
    replace (arr_given (document g) "initial_state" n unit_given) with ((len (map num (d_initial g)) =? n) && forallb unit_given (map num (d_initial g))) by reflexivity.
    replace (arr_given (document g) "mutation" 3 unit_given) with ((len (map num (d_mu g)) =? 3) && forallb unit_given (map num (d_mu g))) by reflexivity.
    replace (arr_given (document g) "functions" n known) with ((len (map (fun f => JStr (fun_name f)) (d_func g)) =? n) && forallb known (map (fun f => JStr (fun_name f)) (d_func g))) by reflexivity.
    replace (arr_given (document g) "connectivity" (n * da_max_k a) (conn_given (n + da_n_inputs a))) with
      ((len (map (fun c => JNum (of_Z c) c) (d_conn g)) =? n * da_max_k a) && forallb (conn_given (n + da_n_inputs a)) (map (fun c => JNum (of_Z c) c) (d_conn g))) by reflexivity.
    rewrite !len_map, !unit_all, LI, LS, LF, LC, EM, !Z.eqb_refl by assumption.
    rewrite (proj2 (Z.leb_le 1 (d_n g))), (proj2 (Z.leb_le 1 (d_t g))) by lia.
    rewrite (proj2 (forallb_forall known _)).
    - rewrite (proj2 (forallb_forall (conn_given (n + da_n_inputs a)) _)); [reflexivity|]. intros e He. apply in_map_iff in He. destruct He as (c & <- & Hc).
      rewrite Forall_forall in FC. specialize (FC c Hc). cbv beta in FC. unfold conn_given. cbn [valueint]. rewrite (proj2 (Z.leb_le 0 c)), (proj2 (Z.leb_le c _)) by lia. reflexivity.
    - intros e He. apply in_map_iff in He. destruct He as (f & <- & Hf). rewrite Forall_forall in FF. apply (called_name f 0). apply FF, Hf. }
  rewrite AC in H. destruct H as (g0 & r' & D & E). exists r'. rewrite E. f_equal. f_equal. unfold read_graph, cleared. rewrite SZ.
  change (array (document g) "initial_state") with (Some (map num (d_initial g))). change (array (document g) "current_state") with (Some (map num (d_state g))).
  change (array (document g) "connectivity") with (Some (map (fun c => JNum (of_Z c) c) (d_conn g))).
  change (array (document g) "functions") with (Some (map (fun f => JStr (fun_name f)) (d_func g))).
  change (array (document g) "mutation") with (Some (map num (d_mu g))). change (item (document g) "t") with (Some (JNum (of_Z (d_t g)) (d_t g))). cbv iota beta.
  rewrite !values_num, called_all by (try assumption; rewrite (dr_func _ _ _ _ D); lia). rewrite map_map. cbn [valueint]. rewrite map_id. rewrite E1, E2, E3, E4, E5, E6. reflexivity.
Qed.
Lemma cleared_same g : Forall (fun v => is_finite v = true) (d_initial g) -> Forall (fun v => is_finite v = true) (d_state g) -> Forall (fun v => is_finite v = true) (d_mu g) -> cleared g = g.
Proof. intros H1 H2 H3. unfold cleared. rewrite !back_fin by assumption. destruct g; reflexivity. Qed.
Lemma C80_round_lemma type a n g : dargs_ok a -> dargs_ok (with_n a n) -> graph_sh (with_n a n) g ->
  Forall (fun v => share (kept f0 v) = true) (d_initial g) -> Forall (fun v => share (kept f0 v) = true) (d_state g) -> Forall (fun v => share (kept f0 v) = true) (d_mu g) ->
  exists j, dgp_export type g = Ok j /\ (forall c r, exists r', dgp_import a c j r = Ok (cleared g, r')) /\
    (Forall (fun v => is_finite v = true) (d_initial g) -> Forall (fun v => is_finite v = true) (d_state g) -> Forall (fun v => is_finite v = true) (d_mu g) -> cleared g = g).
Proof.
  intros DA DN SH F1 F2 F3. exists (JObj [("type", JStr type); ("graph", document g)]). unfold dgp_export. rewrite (export_eq _ _ DN SH). cbn [obind]. split; [reflexivity|]. split.
  - intros c r. apply (document_back a n g (d_t c) r DA DN SH F1 F2 F3).
  - apply cleared_same.
Qed.
Lemma in01_share v : in01 v -> share (kept f0 v) = true /\ is_finite v = true.
Proof.
  intros H. split; [|exact (proj1 H)]. unfold kept. rewrite (proj1 H). unfold share.
  pose proof (C40_import_states_lemma 1 [v]) as X. unfold import_states in X. cbn in X. destruct (flt v f0 || fgt v f1); [|reflexivity]. cbn in X.
  destruct X as [X|X]; [unfold len in X; cbn in X; lia|]. destruct X. apply Forall_cons; [exact H|apply Forall_nil].
Qed.
(** Valid graphs with rates in [0,1] are read as they were written. *)
Lemma C80_valid_lemma type a g : dargs_ok a -> graph_ok a g -> Forall in01 (d_mu g) ->
  exists j, dgp_export type g = Ok j /\ forall c r, exists r', dgp_import a c j r = Ok (g, r').
Proof.
  intros DA (SH & I1 & I2) I3. assert (W : with_n a (da_n a) = a) by (destruct a; reflexivity).
  assert (T : forall l, Forall in01 l -> Forall (fun v => share (kept f0 v) = true) l /\ Forall (fun v => is_finite v = true) l).
  { intros l F. split; (eapply Forall_impl; [|exact F]); intros v Hv; apply in01_share, Hv. }
  destruct (T _ I1) as (S1 & F1). destruct (T _ I2) as (S2 & F2). destruct (T _ I3) as (S3 & F3).
  destruct (C80_round_lemma type a (da_n a) g) as (j & E & B & C); try (rewrite W); try assumption.
  exists j. split; [exact E|]. intros c r. destruct (B c r) as (r' & H). exists r'. rewrite H, C by assumption. reflexivity.
Qed.
(** The rule with a graph: the number of outputs stays. *)
Lemma C80_rule_lemma a c j r g r' : dgp_import a (rg_graph c) j r = Ok (g, r') -> rdgp_import a c j r = Ok (mkRgraph g (rg_outputs c), r').
Proof. intros E. unfold rdgp_import. rewrite (bind_run _ _ _ _ _ E). reflexivity. Qed.

(** What is read is a valid graph but for four things. *)
Lemma called_range e f : 0 <= f <= 2 -> 0 <= called e f <= 2.
Proof. intros H. destruct e; cbn [called]; try exact H. destruct (same s "Fuzzy NOT" 10); [lia|]. destruct (same s "Fuzzy AND" 10); lia. Qed.
Lemma read_valid a t0 j r g r' : dargs_ok a -> size a j * da_max_k a <= int_max -> size a j + da_n_inputs a <= int_max -> 1 <= t0 ->
  graph_import a t0 j r = Ok (g, r') ->
  d_n g = size a j /\ 1 <= size a j /\ d_evolve g = da_evolve a /\ d_max_k g = da_max_k a /\ d_max_t g = da_max_t a /\ d_n_inputs g = da_n_inputs a /\ d_klen g = size a j * da_max_k a /\
  len (d_initial g) = size a j /\ len (d_state g) = size a j /\ len (d_func g) = size a j /\ len (d_conn g) = size a j * da_max_k a /\
  Forall (fun v => share v = true) (d_initial g) /\ Forall (fun v => share v = true) (d_state g) /\
  Forall (fun f => 0 <= f <= 2) (d_func g) /\ Forall (fun c => 0 <= c <= size a j + da_n_inputs a) (d_conn g) /\ 1 <= d_t g /\
  (array j "mutation" <> None -> len (d_mu g) = 3 /\ Forall (fun v => share v = true) (d_mu g)) /\
  (d_t g <= da_max_t a -> ~ In (size a j + da_n_inputs a) (d_conn g) -> array j "mutation" <> None -> rate_ok (at_ f0 (d_mu g) 2) ->
   graph_sh (with_n a (size a j)) g).
Proof.
  intros DA H1 H2 HT E. pose proof (import_eq a t0 j r DA H1 H2) as H. destruct (accepted a j) eqn:AC; [|rewrite H in E; discriminate].
  destruct H as (g0 & r0 & D & X). rewrite X in E. injection E as E _. subst g. clear X.
  unfold accepted in AC. cbv zeta in AC. set (n := size a j) in *. apply andb_prop in AC. destruct AC as (A1 & AC). apply andb_prop in AC. destruct AC as (A2 & AC).
  apply andb_prop in AC. destruct AC as (A3 & AC). apply andb_prop in AC. destruct AC as (A4 & AC). apply andb_prop in AC. destruct AC as (A5 & AC). apply andb_prop in AC. destruct AC as (A6 & A7).
  pose proof (size_pos a j DA A1) as HS. fold n in HS. destruct D as [L1 L2 L3 L4 I1 I2 I3 I4 I5 _].
  assert (S01 : forall l, Forall in01 l -> Forall (fun v => share v = true) l).
  { intros l F. eapply Forall_impl; [|exact F]. intros v Hv. destruct (in01_share v Hv) as (S & FV). unfold kept in S. rewrite FV in S. exact S. }
  assert (U : forall name m dst, arr_given j name m unit_given = true -> len dst = m -> Forall (fun v => share v = true) dst ->
    let l := match array j name with Some l => map valuedouble l | None => dst end in len l = m /\ Forall (fun v => share v = true) l).
  { intros name m dst G LD FD. unfold arr_given in G. destruct (array j name) as [l|]; cbv zeta; [|auto]. apply andb_prop in G. destruct G as (G1 & G2). apply Z.eqb_eq in G1.
    rewrite len_map. split; [exact G1|]. rewrite Forall_map. rewrite forallb_forall in G2. apply Forall_forall. exact G2. }
  destruct (U _ _ (d_state g0) A3 L2 (S01 _ I2)) as (U1 & U2). destruct (U _ _ (d_initial g0) A4 L1 (S01 _ I1)) as (U3 & U4).
  assert (UM : array j "mutation" <> None -> len (d_mu (read_graph a j g0)) = 3 /\ Forall (fun v => share v = true) (d_mu (read_graph a j g0))).
  { intros NM. destruct (U _ _ (repeat f0 3) A7 eq_refl) as (V1 & V2); [cbn; repeat (apply Forall_cons; [reflexivity|]); apply Forall_nil|]. cbv zeta in V1, V2. cbn [read_graph d_mu].
    destruct (array j "mutation"); [auto|contradiction]. }
  assert (UF : len (d_func (read_graph a j g0)) = n /\ Forall (fun f => 0 <= f <= 2) (d_func (read_graph a j g0))).
  { cbn [read_graph d_func]. unfold arr_given in A5. destruct (array j "functions") as [l|]; [|auto]. apply andb_prop in A5. destruct A5 as (G1 & _). apply Z.eqb_eq in G1. split.
    - unfold len in *. rewrite map_length, combine_length. lia.
    - rewrite Forall_map. apply Forall_forall. intros [e f] Hp. apply called_range. cbn [snd]. apply in_combine_r in Hp. rewrite Forall_forall in I3. apply I3, Hp. }
  assert (UC : len (d_conn (read_graph a j g0)) = n * da_max_k a /\ Forall (fun c => 0 <= c <= n + da_n_inputs a) (d_conn (read_graph a j g0))).
  { cbn [read_graph d_conn]. unfold arr_given in A6. destruct (array j "connectivity") as [l|].
    - apply andb_prop in A6. destruct A6 as (G1 & G2). apply Z.eqb_eq in G1. rewrite len_map. split; [exact G1|]. rewrite Forall_map. rewrite forallb_forall in G2. apply Forall_forall.
      intros e He. specialize (G2 e He). unfold conn_given in G2. lia.
    - split; [exact L4|]. eapply Forall_impl; [|exact I4]. cbv beta. lia. }
  assert (UT : 1 <= d_t (read_graph a j g0)).
  { cbn [read_graph d_t]. unfold int_given in A2. destruct (item j "t") as [[| |v i| | |]|]; try discriminate; [lia|]. destruct (da_evolve a); [|rewrite I5]; lia. }
  cbv zeta in U1, U2, U3, U4. destruct UF as (UF1 & UF2). destruct UC as (UC1 & UC2).
  repeat (split; [first [reflexivity|assumption]|]). intros T1 T2 T3 T4. destruct (UM T3) as (M1 & M2).
  split; [unfold graph_base; cbn [with_n da_evolve da_max_k da_max_t da_n da_n_inputs]; repeat (split; [first [reflexivity|assumption|lia]|]); exact T4|].
  cbn [with_n da_evolve da_max_k da_max_t da_n da_n_inputs]. repeat (split; [assumption|]).
  apply Forall_forall. intros c Hc. rewrite Forall_forall in UC2. specialize (UC2 c Hc). cbv beta in UC2. destruct (Z.eq_dec c (n + da_n_inputs a)) as [->|N]; [contradiction|lia].
Qed.

(** ** Where it goes wrong *)
(** A document may name more nodes than the parameters: copies of the graph are allocated for the parameters. *)
Lemma C80_size_lemma a c r : dargs_ok a -> dargs_ok (with_n a (da_n a + 1)) ->
  exists j g r', dgp_import a c j r = Ok (g, r') /\ forall r2, dgp_copy a g r2 = UB OutOfBounds.
Proof.
  intros DA DN. pose proof DN as (N1 & _ & _ & _ & N5 & N6). cbn [with_n da_n da_max_k da_n_inputs] in N1, N5, N6.
  set (gj := JObj [("n", JNum (of_Z (da_n a + 1)) (da_n a + 1))]). exists (JObj [("graph", gj)]).
  pose proof (import_eq a (d_t c) gj r DA) as H. assert (SZ : size a gj = da_n a + 1) by reflexivity. rewrite SZ in H. specialize (H N5 N6).
  assert (AC : accepted a gj = true).
  { change (accepted a gj) with ((1 <=? da_n a + 1) && true). rewrite (proj2 (Z.leb_le _ _)) by lia. reflexivity. }
  rewrite AC in H. destruct H as (g0 & r' & D & E). exists (read_graph a gj g0), r'. split; [exact E|].
  intros r2. unfold dgp_copy. destruct (init_ok a DA _ (mkLibm (fun x => x) (fun x => x) (fun x => x) (fun x => x) (fun x => x) (fun x _ => x) (fun x => x) (fun x => x)) _ (src_any _) r2 I) as (g1 & r1 & E1 & _).
  rewrite (bind_run _ _ _ _ _ E1). unfold lift, graph_copy. change (d_n (read_graph a gj g0)) with (da_n a + 1).
  change (d_state (read_graph a gj g0)) with (d_state g0). unfold copy_array at 1. change (Z.of_nat (List.length (d_state g0))) with (len (d_state g0)). rewrite (dr_state _ _ _ _ D).
  destruct (Z.ltb_spec (da_n a + 1) 0); [lia|]. destruct (Z.ltb_spec (da_n a + 1) (da_n a + 1)); [lia|]. destruct (Z.ltb_spec (da_n a) (da_n a + 1)); [|lia]. reflexivity.
Qed.
(** Without rates in the document the next mutation reads memory that was never written. *)
Lemma C80_rates_lemma a t0 j r g r' lm r2 : dargs_ok a -> size a j * da_max_k a <= int_max -> size a j + da_n_inputs a <= int_max ->
  array j "mutation" = None -> graph_import a t0 j r = Ok (g, r') -> graph_mutate lm g r2 = UB OutOfBounds.
Proof.
  intros DA H1 H2 EM E. pose proof (import_eq a t0 j r DA H1 H2) as H. destruct (accepted a j); [|rewrite H in E; discriminate].
  destruct H as (g0 & r0 & D & X). rewrite X in E. injection E as E _. subst g. unfold graph_mutate. cbn [read_graph d_mu]. rewrite EM. reflexivity.
Qed.
(** Any number of cycles is accepted. *)
Lemma C80_cycles_lemma a t0 r z : dargs_ok a -> 1 <= z -> exists g r', graph_import a t0 (JObj [("t", JNum (of_Z z) z)]) r = Ok (g, r') /\ d_t g = z.
Proof.
  intros DA Hz. set (j := JObj [("t", JNum (of_Z z) z)]). pose proof DA as (_ & _ & _ & _ & D5 & D6). pose proof (import_eq a t0 j r DA D5 D6) as H.
  assert (AC : accepted a j = true).
  { change (accepted a j) with ((1 <=? z) && true). rewrite (proj2 (Z.leb_le _ _)) by lia. reflexivity. }
  rewrite AC in H. destruct H as (g0 & r' & D & E). exists (read_graph a j g0), r'. split; [exact E|reflexivity].
Qed.
