(** * Lemmas for C37: names and codes. *)
From Coq Require Import ZArith Bool List String Ascii Lia.
From Verif Require Import Outcome Arr Names.
Import ListNotations.
Open Scope Z_scope.

(** No terminator inside. *)
Definition plain (s : string) : Prop := ~ In nul (chars s).
(** An array holding the string: its characters, the terminator, then anything. *)
Definition arr (s : string) (rest : list ascii) : list ascii := chars s ++ nul :: rest.

(** The two conversions correspond to the table of codes and names. *)
Definition names_ok (T : list (Z * string)) (as_string : Z -> outcome (list ascii))
    (as_int : list ascii -> outcome Z) (accepts : string -> Z -> Prop) (reject : outcome Z) : Prop :=
  NoDup (map fst T) /\ NoDup (map snd T) /\
  (forall c, match as_string c with
             | Ok m => exists nm rest, In (c, nm) T /\ m = arr nm rest
             | Exit => ~ In c (map fst T)
             | _ => False end) /\
  (forall c m, as_string c = Ok m -> as_int m = Ok c) /\
  (forall s rest, plain s ->
     (forall c, accepts s c -> as_int (arr s rest) = Ok c) /\
     ((forall c, ~ accepts s c) -> as_int (arr s rest) = reject)).

Lemma eqb_cons a s b t : String.eqb (String a s) (String b t) = if Ascii.eqb a b then String.eqb s t else false.
Proof. reflexivity. Qed.

Lemma cmp_full nm : forall s r r' n, plain s -> plain nm -> (String.length nm < n)%nat ->
  strncmp0 (arr s r) (chars nm ++ nul :: r') n = Ok (String.eqb s nm).
Proof.
  induction nm as [|b nm IH]; intros s r r' n Hs Hn Hl.
  - destruct n; [cbn in Hl; lia|]. destruct s as [|a s]; [reflexivity|].
    cbn -[Ascii.eqb String.eqb nul]. destruct (Ascii.eqb_spec a nul) as [->|E].
    + exfalso. apply Hs. left. reflexivity.
    + rewrite (proj2 (String.eqb_neq _ _)); [reflexivity|discriminate].
  - destruct n; [cbn in Hl; lia|]. destruct s as [|a s].
    + cbn -[Ascii.eqb String.eqb nul]. destruct (Ascii.eqb_spec nul b) as [<-|E].
      * exfalso. apply Hn. left. reflexivity.
      * rewrite (proj2 (String.eqb_neq _ _)); [reflexivity|discriminate].
    + cbn -[Ascii.eqb String.eqb nul]. rewrite eqb_cons. destruct (Ascii.eqb_spec a b) as [<-|E]; [|reflexivity].
      destruct (Ascii.eqb_spec a nul) as [->|E']; [exfalso; apply Hs; left; reflexivity|].
      apply IH; [intro H; apply Hs; right; exact H|intro H; apply Hn; right; exact H|cbn in Hl; lia].
Qed.

Lemma cmp_prefix nm : forall s r r' , plain s -> plain nm ->
  strncmp0 (arr s r) (chars nm ++ nul :: r') (String.length nm) = Ok (String.prefix nm s).
Proof.
  induction nm as [|b nm IH]; intros s r r' Hs Hn.
  - destruct s; reflexivity.
  - destruct s as [|a s].
    + cbn -[Ascii.eqb String.eqb nul]. destruct (Ascii.eqb_spec nul b) as [<-|E]; [|reflexivity].
      exfalso. apply Hn. left. reflexivity.
    + cbn -[Ascii.eqb String.eqb nul]. destruct (Ascii.eqb_spec a b) as [<-|E].
      * destruct (ascii_dec a a) as [_|E]; [|congruence].
        destruct (Ascii.eqb_spec a nul) as [->|E']; [exfalso; apply Hs; left; reflexivity|].
        apply IH; [intro H; apply Hs; right; exact H|intro H; apply Hn; right; exact H].
      * destruct (ascii_dec b a) as [E'|_]; [congruence|reflexivity].
Qed.

Fixpoint has_nul (s : string) : bool := match s with EmptyString => false | String a t => Ascii.eqb a nul || has_nul t end.
Lemma plain_dec s : has_nul s = false -> plain s.
Proof.
  induction s as [|a s IH]; cbn [has_nul]; intros H; [intros []|].
  apply orb_false_iff in H as (H1 & H2). intros [E|E]; [|exact (IH H2 E)]. subst a. rewrite Ascii.eqb_refl in H1. discriminate.
Qed.

Lemma nodup_Z (l : list Z) : (fix f l := match l with [] => true | a :: r => negb (existsb (Z.eqb a) r) && f r end) l = true -> NoDup l.
Proof.
  induction l as [|a l IH]; intros H; constructor; apply andb_true_iff in H as (H & H'); [|exact (IH H')].
  intro I. apply negb_true_iff in H. rewrite (proj2 (existsb_exists _ _)) in H; [discriminate|]. exists a. split; [exact I|apply Z.eqb_refl].
Qed.
Lemma nodup_s (l : list string) : (fix f l := match l with [] => true | a :: r => negb (existsb (String.eqb a) r) && f r end) l = true -> NoDup l.
Proof.
  induction l as [|a l IH]; intros H; constructor; apply andb_true_iff in H as (H & H'); [|exact (IH H')].
  intro I. apply negb_true_iff in H. rewrite (proj2 (existsb_exists _ _)) in H; [discriminate|]. exists a. split; [exact I|apply String.eqb_refl].
Qed.

(** One comparison of the chain. *)
Lemma cmp_cstr s r nm n : plain s -> has_nul nm = false -> (String.length nm < n)%nat ->
  strncmp0 (arr s r) (cstr nm) n = Ok (String.eqb s nm).
Proof. intros. unfold cstr. apply cmp_full; auto. apply plain_dec; auto. Qed.

Lemma Ok_inj {A} (x y : A) : Ok x = Ok y -> x = y.
Proof. intros H; injection H; auto. Qed.

Ltac chain Hs :=
  repeat (rewrite (cmp_cstr _ _ _ _ Hs); [|reflexivity|cbn; lia]; cbn [obind]).

Lemma sel {A} (b : bool) (x y z : A) : (b = true -> x = z) -> (b = false -> y = z) -> (if b then x else y) = z.
Proof. destruct b; auto. Qed.

(** The name of a code, by running through the cases of the switch. *)
Ltac by_code c :=
  repeat first [match goal with |- context [match c with _ => _ end] => destruct c end
    | match goal with |- context [match ?p with xI _ => _ | xO _ => _ | xH => _ end] => destruct p end].
(** The code of a name, by running through the comparisons. *)
Ltac pick :=
  match goal with |- (if String.eqb ?s ?n then _ else _) = _ =>
    destruct (String.eqb_spec s n); [subst s|] end.
Ltac all_names fs fi :=
  split; [apply nodup_Z; reflexivity|]; split; [apply nodup_s; reflexivity|];
  split; [let c := fresh "c" in intros c; unfold fs; by_code c;
          first [eexists _, [nul]; split; [|reflexivity]; cbn; intuition (reflexivity || discriminate)
                |cbn; intuition discriminate]|];
  split; [let c := fresh "c" in let m := fresh "m" in intros c m; unfold fs; by_code c; intros E; try discriminate E;
          apply Ok_inj in E; subst m; vm_compute; reflexivity|].

Definition loss_names : list (Z * string) := [(0, "mae"); (1, "mse"); (2, "rmse"); (3, "log"); (4, "binary_log"); (5, "onehot"); (6, "huber")]%string.
Definition cond_names : list (Z * string) := [(0, "dummy"); (1, "hyperrectangle_csr"); (2, "hyperrectangle_ubr"); (3, "hyperellipsoid"); (4, "neural"); (5, "tree_gp"); (6, "dgp"); (7, "ternary"); (11, "rule_dgp"); (12, "rule_neural"); (13, "rule_network")]%string.
Definition pred_names : list (Z * string) := [(0, "constant"); (1, "nlms_linear"); (2, "nlms_quadratic"); (3, "rls_linear"); (4, "rls_quadratic"); (5, "neural")]%string.
Definition act_names : list (Z * string) := [(0, "integer"); (1, "neural")]%string.
Definition ea_names : list (Z * string) := [(0, "roulette"); (1, "tournament")]%string.
Definition layer_names : list (Z * string) := [(0, "connected"); (1, "dropout"); (2, "noise"); (3, "softmax"); (4, "recurrent"); (5, "lstm"); (6, "maxpool"); (7, "convolutional"); (8, "avgpool"); (9, "upsample")]%string.
Definition activ_names : list (Z * string) := [(0, "logistic"); (1, "relu"); (4, "gaussian"); (2, "tanh"); (5, "sin"); (6, "cos"); (7, "softplus"); (3, "linear"); (8, "leaky"); (9, "selu"); (10, "loggy"); (100, "softmax")]%string.

Lemma loss_names_ok : names_ok loss_names loss_type_as_string loss_type_as_int (fun s c => In (c, s) loss_names) (Ok (-1)).
Proof.
  all_names loss_type_as_string loss_type_as_int. intros s rest Hs. unfold loss_type_as_int. chain Hs. split.
  - intros c Hc. cbn in Hc.
    repeat (destruct Hc as [Hc|Hc]; [injection Hc as <- <-; reflexivity|]). destruct Hc.
  - intros Hc. repeat (pick; [exfalso; eapply Hc; cbn; eauto 20|]). reflexivity.
Qed.

Lemma cond_names_ok : names_ok cond_names condition_type_as_string condition_type_as_int (fun s c => In (c, s) cond_names) (Ok (-1)).
Proof.
  all_names condition_type_as_string condition_type_as_int. intros s rest Hs. unfold condition_type_as_int. chain Hs. split.
  - intros c Hc. cbn in Hc.
    repeat (destruct Hc as [Hc|Hc]; [injection Hc as <- <-; reflexivity|]). destruct Hc.
  - intros Hc. repeat (pick; [exfalso; eapply Hc; cbn; eauto 20|]). reflexivity.
Qed.

Lemma pred_names_ok : names_ok pred_names prediction_type_as_string prediction_type_as_int (fun s c => In (c, s) pred_names) (Ok (-1)).
Proof.
  all_names prediction_type_as_string prediction_type_as_int. intros s rest Hs. unfold prediction_type_as_int. chain Hs. split.
  - intros c Hc. cbn in Hc.
    repeat (destruct Hc as [Hc|Hc]; [injection Hc as <- <-; reflexivity|]). destruct Hc.
  - intros Hc. repeat (pick; [exfalso; eapply Hc; cbn; eauto 20|]). reflexivity.
Qed.

Lemma act_names_ok : names_ok act_names action_type_as_string action_type_as_int (fun s c => In (c, s) act_names) (Ok (-1)).
Proof.
  all_names action_type_as_string action_type_as_int. intros s rest Hs. unfold action_type_as_int. chain Hs. split.
  - intros c Hc. cbn in Hc.
    repeat (destruct Hc as [Hc|Hc]; [injection Hc as <- <-; reflexivity|]). destruct Hc.
  - intros Hc. repeat (pick; [exfalso; eapply Hc; cbn; eauto 20|]). reflexivity.
Qed.

Lemma ea_names_ok : names_ok ea_names ea_type_as_string ea_type_as_int (fun s c => In (c, s) ea_names) (Ok (-1)).
Proof.
  all_names ea_type_as_string ea_type_as_int. intros s rest Hs. unfold ea_type_as_int. chain Hs. split.
  - intros c Hc. cbn in Hc.
    repeat (destruct Hc as [Hc|Hc]; [injection Hc as <- <-; reflexivity|]). destruct Hc.
  - intros Hc. repeat (pick; [exfalso; eapply Hc; cbn; eauto 20|]). reflexivity.
Qed.

Lemma activ_names_ok : names_ok activ_names neural_activation_string neural_activation_as_int (fun s c => In (c, s) activ_names) (Exit).
Proof.
  all_names neural_activation_string neural_activation_as_int. intros s rest Hs. unfold neural_activation_as_int. chain Hs. split.
  - intros c Hc. cbn in Hc.
    repeat (destruct Hc as [Hc|Hc]; [injection Hc as <- <-; reflexivity|]). destruct Hc.
  - intros Hc. repeat (pick; [exfalso; eapply Hc; cbn; eauto 20|]). reflexivity.
Qed.

(** A layer name is accepted when it is in the table or begins with recurrent. *)
Definition layer_accepts (s : string) (c : Z) : Prop :=
  In (c, s) layer_names \/ c = 4 /\ String.prefix "recurrent" s = true.

Lemma cmp_recurrent s r : plain s -> strncmp0 (arr s r) (cstr "recurrent") 9 = Ok (String.prefix "recurrent" s).
Proof. intros H. change 9%nat with (String.length "recurrent"). unfold cstr. apply cmp_prefix; [exact H|]. apply plain_dec. reflexivity. Qed.

Lemma layer_names_ok : names_ok layer_names layer_type_as_string layer_type_as_int layer_accepts Exit.
Proof.
  all_names layer_type_as_string layer_type_as_int. intros s rest Hs. unfold layer_type_as_int. chain Hs.
  rewrite (cmp_recurrent _ _ Hs). cbn [obind]. chain Hs. split.
  - intros c [Hc|(-> & Hc)].
    + cbn in Hc. repeat (destruct Hc as [Hc|Hc]; [injection Hc as <- <-; reflexivity|]). destruct Hc.
    + do 4 (pick; [discriminate Hc|]). rewrite Hc. reflexivity.
  - intros Hc. do 4 (pick; [exfalso; eapply Hc; left; cbn; eauto 20|]).
    destruct (String.prefix "recurrent" s) eqn:E; [exfalso; apply (Hc 4); right; auto|].
    repeat (pick; [exfalso; eapply Hc; left; cbn; eauto 20|]). reflexivity.
Qed.

Lemma layer_refuted : exists s, plain s /\ ~ In s (map snd layer_names) /\ layer_type_as_int (arr s []) = Ok 4.
Proof.
  exists "recurrent_network"%string. split; [apply plain_dec; reflexivity|]. split; [|vm_compute; reflexivity].
  cbn. intuition discriminate.
Qed.
