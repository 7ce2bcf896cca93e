(** * C76 Parameters written as JSON and read into any system are the same again. *)
From Coq Require Import ZArith Bool List String Ascii Lia.
From Verif Require Import Outcome F64 F64Facts Rng Arr ArrFacts Names Param Json Clock Dgp DgpFacts PropDgp Gp GpFacts GpOps PropGp Layer Net Recur ParJson PropNames PropParam PropParJson PropParPy PropTight.
Import ListNotations.
Open Scope Z_scope.

(** Without networks, export succeeds and changes neither parameters nor generator. [savable]
    (PropParJson.v): parameters in their ranges, types with names, finite doubles where they are
    written, a file name of at most 512 characters. [cond_net], [act_net], [pred_net]: the type is
    neural and is written. *)
Theorem C76_export :
  forall (lm : libm) (p : params) (s : string) (g : rng),
  savable (p_sys p) s ->
  cond_net (p_sys p) = false ->
  act_net (p_sys p) = false ->
  pred_net (p_sys p) = false -> exists j : json, param_json_export lm p g = Ok (j, p, g).
Proof. exact @export_reads_only. Qed.
Print Assumptions C76_export.

(** The document read into any system: what is written ([written_i], [written_d], [written_b]:
    depending on the number of actions and on the types) is as in the exporting system, what is not
    written stays. Networks: [layers_back x l r] says that r is what validation makes of the
    parameters l re-read. Constants of trees are drawn anew. *)
Theorem C76_round_trip :
  forall (lm : libm) (p : params) (s : string) (p' q : params) (g g' h : rng) 
    (j : json) (lc la lp : list larg2),
  savable (p_sys p) s ->
  param_json_export lm p g = Ok (j, p', g') ->
  (if cond_net (p_sys p) then layers_back (p_sys p) (p_cond p') lc else lc = p_cond q) ->
  (if act_net (p_sys p) then layers_back (p_sys p) (p_act p') la else la = p_act q) ->
  (if pred_net (p_sys p) then layers_back (p_sys p) (p_pred p') lp else lp = p_pred q) ->
  exists (z : params) (h' : rng),
    param_json_import q j h = Ok (z, h') /\
    (forall i : ipar,
     ints (p_sys z) i = (if written_i (p_sys p) i then ints (p_sys p) i else ints (p_sys q) i)) /\
    (forall d : dpar,
     dbls (p_sys z) d = (if written_d (p_sys p) d then dbls (p_sys p) d else dbls (p_sys q) d)) /\
    (forall b : bpar,
     bools (p_sys z) b = (if written_b (p_sys p) b then bools (p_sys p) b else bools (p_sys q) b)) /\
    loss_code (p_sys z) = ints (p_sys p) i_LOSS_FUNC /\
    seed (p_sys z) = (if ival (p_sys p) i_RANDOM_STATE <? 0 then None else ints (p_sys p) i_RANDOM_STATE) /\
    file (p_sys z) = (chars s ++ [nul])%list /\
    p_cond z = lc /\
    p_act z = la /\
    p_pred z = lp /\
    (if ival (p_sys p) i_COND_TYPE =? 5
     then tree_constants (p_sys z) h = Ok (p_consts z, h')
     else p_consts z = p_consts q /\ h' = h).
Proof. exact @round_trip_all. Qed.
Print Assumptions C76_round_trip.

(** Networks: the layers read are those written, each with what is not written for its type at its
    initial value ([reread n], n the number of inputs of the reading system), then validated. *)
Theorem C76_layers :
  forall (lm : libm) (l : list larg2) (g : rng) (j : json) (l' : list larg2) (g' : rng) (x : sys) (n : Z),
  layer_args_json_export lm l g = Ok (j, l', g') ->
  Forall layer_savable l' ->
  ints x i_X_DIM = Some n -> layers_import x j = layer_args_validate (map (reread n) l').
Proof. exact @layers_round_trip. Qed.
Print Assumptions C76_layers.

(** Nothing more is lost the second time. *)
Theorem C76_layers_again :
  forall (n : Z) (a : larg2), reread n (reread n a) = reread n a.
Proof. exact @reread_twice. Qed.
Print Assumptions C76_layers_again.

(** What the validation of layers accepts: there is a first layer, and it has inputs
    ([sound_first]); where neurons evolve at least one can be added, and no initial number exceeds
    its maximum ([sound_layer]). Of later layers only the maximum may be raised ([same_layer]). *)
Theorem C76_validation :
  forall l r : list larg2,
  layer_args_validate l = Ok r ->
  exists (a : larg2) (s : list larg2),
    r = a :: s /\
    sound_first a /\
    Forall sound_layer r /\ Datatypes.length r = Datatypes.length l /\ Forall2 same_layer (tl l) s.
Proof. exact @layers_valid. Qed.
Print Assumptions C76_validation.

(** So is every list of layers read from a document. *)
Theorem C76_read_layers :
  forall (x : sys) (j : json) (r : list larg2),
  layers_import x j = Ok r ->
  exists (a : larg2) (s : list larg2),
    r = a :: s /\
    sound_first a /\ Forall sound_layer r /\ Datatypes.length r = Datatypes.length (children j).
Proof. exact @layers_read. Qed.
Print Assumptions C76_read_layers.

(** Such lists are accepted as they are. *)
Theorem C76_accepted :
  forall l : list larg2,
  l <> [] ->
  Forall sound_layer l ->
  sound_first (hd layer_args_init l) ->
  la_type (fst (hd layer_args_init l)) <> DROPOUT ->
  la_type (fst (hd layer_args_init l)) <> NOISE -> layer_args_validate l = Ok l.
Proof. exact @layers_same. Qed.
Print Assumptions C76_accepted.

(** Others end the program. *)
Theorem C76_rejected :
  forall (a : largs) (z : Z) (l : list (largs * Z)),
  (la_evolve_neurons a = true ->
   la_grow a < 1 -> la_type a <> DROPOUT -> la_type a <> NOISE -> layer_args_validate [(a, z)] = Exit) /\
  layer_args_validate [] = Exit /\
  (la_type a <> DROPOUT ->
   la_type a <> NOISE -> ~ sound_first (a, z) -> layer_args_validate ((a, z) :: l) = Exit).
Proof. exact @layers_rejected. Qed.
Print Assumptions C76_rejected.

(** REFUTED for infinite values: the setter accepts infinity, the document contains null, and
    reading it ends the program. *)
Theorem C76_refuted_infinite :
  exists (p : params) (y : sys),
    in_range (p_sys p) /\
    param_set_e0 (p_sys p) (BinarySingleNaN.B754_infinity false) = (true, y) /\
    in_range y /\
    (forall (lm : libm) (g : rng),
     exists j : json,
       param_json_export lm (with_sys p y) g = Ok (j, with_sys p y, g) /\
       param_json_import (with_sys p y) j g = Exit).
Proof. exact @infinite_lemma. Qed.
Print Assumptions C76_refuted_infinite.

(** REFUTED for names of files of more than 512 characters: the setter stores them without
    terminator, and export reads past the end. *)
Theorem C76_refuted_file :
  forall (lm : libm) (p : params) (s : string) (rest : list ascii) (g : rng),
  in_range (p_sys p) ->
  plain s ->
  (512 < length s)%nat ->
  exists y : sys,
    param_set_population_file (p_sys p) (arr s rest) = Ok (true, y) /\
    in_range y /\ param_json_export lm (with_sys p y) g = UB OutOfBounds.
Proof. exact @long_file. Qed.
Print Assumptions C76_refuted_file.

(** REFUTED that export only reads if there are networks: one is built to find the numbers of
    inputs, which draws random numbers and changes the parameters of layers. *)
Theorem C76_refuted_network :
  exists (lm : libm) (p : params) (g : rng) (j : json) (p' : params) (g' : rng),
    in_range (p_sys p) /\
    param_json_export lm p g = Ok (j, p', g') /\ p_cond p' <> p_cond p /\ r_pos g' <> r_pos g.
Proof. exact @neural_lemma. Qed.
Print Assumptions C76_refuted_network.

(** Four actions, three inputs, a population of 77: all hypotheses, and what another system reads. *)
Definition C76_sys : sys := snd (param_set_pop_size (default_sys 3 1 4) 77).
Lemma C76_range : in_range C76_sys.
Proof. apply (call_in_range (default_sys 3 1 4)); [apply default_in_range; unfold int_max; lia|]. apply (call_i param_set_pop_size); [cbn; tauto|unfold int_max; lia]. Qed.
Lemma C76_finite d : match dbls C76_sys d with Some v => BinarySingleNaN.is_finite v | None => false end = true.
Proof. destruct d; vm_compute; reflexivity. Qed.
Example C76_hypotheses : savable C76_sys "" /\ cond_net C76_sys = false /\ act_net C76_sys = false /\ pred_net C76_sys = false.
Proof.
  split; [|vm_compute; auto]. constructor.
  - exact C76_range.
  - vm_compute. discriminate.
  - intros d v _ E. pose proof (C76_finite d) as F. rewrite E in F. exact F.
  - vm_compute. auto.
  - vm_compute. auto.
  - intros _. vm_compute. auto.
  - exists []. vm_compute. reflexivity.
  - apply plain_dec. reflexivity.
  - vm_compute. repeat constructor.
Qed.
Definition C76_read (x : sys) : option (option Z * option Z * option Z * option Z) :=
  match param_json_export unit_lm (mkParams x [] [] [] []) unit_rng with
  | Ok ((j, _), g) => match param_json_import (mkParams (default_sys 1 1 1) [] [] [] []) j g with
      | Ok (z, _) => Some (ints (p_sys z) i_POP_SIZE, ints (p_sys z) i_X_DIM, ints (p_sys z) i_N_ACTIONS, ints (p_sys z) i_GP_N_INPUTS)
      | _ => None end
  | _ => None
  end.
Example C76_runs : C76_read C76_sys = Some (Some 77, Some 3, Some 4, Some 1).
Proof. vm_compute. reflexivity. Qed.
(** Layers that are accepted and rejected. *)
Definition C76_grown (n g : Z) : larg2 := (put_grow (put_neurons (put_n_inputs (fst layer_args_init) n) true) g, snd layer_args_init).
Example C76_validated :
  sound_first (C76_grown 3 2) /\ sound_layer (C76_grown 3 2) /\ layer_args_validate [C76_grown 3 2] = Ok [C76_grown 3 2] /\
  layer_args_validate [C76_grown 3 0] = Exit /\ layer_args_validate [C76_grown 0 2] = Exit.
Proof. repeat split; vm_compute; congruence. Qed.
(** A long name; layers that meet the hypotheses. *)
Example C76_long : plain (string_of_list_ascii (repeat "a"%char 513)) /\ (512 < String.length (string_of_list_ascii (repeat "a"%char 513)))%nat.
Proof. split; [apply plain_dec; reflexivity|vm_compute; repeat constructor]. Qed.
Example C76_layer : layer_savable (small_args 1, 0) /\ layer_args_validate (map (reread 1) [(small_args 1, 0); (small_args 1, 0)]) = Ok (map (fun a => (put_n_max (fst a) 1, snd a)) (map (reread 1) [(small_args 1, 0); (small_args 1, 0)])).
Proof.
  split; [|vm_compute; reflexivity]. constructor; [do 0 right; left; reflexivity|intros _; left; reflexivity|intros H; discriminate H| |intros H; discriminate H|intros H; discriminate H|intros H; discriminate H].
  repeat (apply Forall_cons; [cbv [an_int fst small_args la_n_inputs la_n_init la_n_max la_grow la_height la_width la_channels la_size la_stride la_pad int_min int_max]; lia|]). apply Forall_nil.
Qed.
