(** * C37 Names and codes of options correspond one to one. *)
From Coq Require Import ZArith Bool List String Ascii.
From Verif Require Import Outcome Arr Names PropNames.
Import ListNotations.
Open Scope Z_scope.

(** Loss functions. The table lists the codes and names; names_ok (PropNames.v): codes and names are
    distinct, the name of a code is the one in the table (other codes end the process), converting a
    name obtained from a code gives the code back, and a terminated string (whatever follows it in
    memory) is converted to its code in the table, or rejected, without reading beyond its
    terminator. *)
Theorem C37_loss :
  let T := [(0, "mae"%string); (1, "mse"%string); (2, "rmse"%string); (3, "log"%string); (4, "binary_log"%string); (5, "onehot"%string); (6, "huber"%string)] in
  names_ok T loss_type_as_string loss_type_as_int (fun s c => In (c, s) T) (Ok (-1)).
Proof. exact @loss_names_ok. Qed.
Print Assumptions C37_loss.

(** Conditions (and the rule types sharing their codes). *)
Theorem C37_cond :
  let T := [(0, "dummy"%string); (1, "hyperrectangle_csr"%string); (2, "hyperrectangle_ubr"%string); (3, "hyperellipsoid"%string); (4, "neural"%string); (5, "tree_gp"%string); (6, "dgp"%string); (7, "ternary"%string); (11, "rule_dgp"%string); (12, "rule_neural"%string); (13, "rule_network"%string)] in
  names_ok T condition_type_as_string condition_type_as_int (fun s c => In (c, s) T) (Ok (-1)).
Proof. exact @cond_names_ok. Qed.
Print Assumptions C37_cond.

(** Predictions. *)
Theorem C37_pred :
  let T := [(0, "constant"%string); (1, "nlms_linear"%string); (2, "nlms_quadratic"%string); (3, "rls_linear"%string); (4, "rls_quadratic"%string); (5, "neural"%string)] in
  names_ok T prediction_type_as_string prediction_type_as_int (fun s c => In (c, s) T) (Ok (-1)).
Proof. exact @pred_names_ok. Qed.
Print Assumptions C37_pred.

(** Actions. *)
Theorem C37_act :
  let T := [(0, "integer"%string); (1, "neural"%string)] in
  names_ok T action_type_as_string action_type_as_int (fun s c => In (c, s) T) (Ok (-1)).
Proof. exact @act_names_ok. Qed.
Print Assumptions C37_act.

(** Parent selection. *)
Theorem C37_ea :
  let T := [(0, "roulette"%string); (1, "tournament"%string)] in
  names_ok T ea_type_as_string ea_type_as_int (fun s c => In (c, s) T) (Ok (-1)).
Proof. exact @ea_names_ok. Qed.
Print Assumptions C37_ea.

(** Neural layers: the conversions agree with the table except that every name beginning with
    recurrent is accepted; other unknown names end the process. *)
Theorem C37_layer :
  let T := [(0, "connected"%string); (1, "dropout"%string); (2, "noise"%string); (3, "softmax"%string); (4, "recurrent"%string); (5, "lstm"%string); (6, "maxpool"%string); (7, "convolutional"%string); (8, "avgpool"%string); (9, "upsample"%string)] in
  names_ok T layer_type_as_string layer_type_as_int
    (fun s c => In (c, s) T \/ c = 4 /\ String.prefix "recurrent" s = true) Exit.
Proof. exact @layer_names_ok. Qed.
Print Assumptions C37_layer.

(** Activation functions. Unknown names end the process. *)
Theorem C37_activ :
  let T := [(0, "logistic"%string); (1, "relu"%string); (4, "gaussian"%string); (2, "tanh"%string); (5, "sin"%string); (6, "cos"%string); (7, "softplus"%string); (3, "linear"%string); (8, "leaky"%string); (9, "selu"%string); (10, "loggy"%string); (100, "softmax"%string)] in
  names_ok T neural_activation_string neural_activation_as_int (fun s c => In (c, s) T) Exit.
Proof. exact @activ_names_ok. Qed.
Print Assumptions C37_activ.

(** REFUTED for layers: recurrent is compared without its terminator (neural_layer.c:556), so names
    that are not in the table are accepted. *)
Theorem C37_layer_refuted :
  exists s : string, plain s /\ ~ In s (map snd layer_names) /\ layer_type_as_int (arr s []) = Ok 4.
Proof. exact @layer_refuted. Qed.
Print Assumptions C37_layer_refuted.

Example C37_example :
  plain "binary_log" /\ loss_type_as_int (arr "binary_log" [nul; nul]) = Ok 4 /\
  loss_type_as_int (arr "binary_logs" []) = Ok (-1) /\ loss_type_as_int (arr "binary" []) = Ok (-1) /\
  loss_type_as_string 4 = Ok (arr "binary_log" [nul]) /\ loss_type_as_string 7 = Exit /\
  neural_activation_as_int (arr "soft" []) = Exit /\ layer_type_as_int (arr "recurrent2" []) = Ok 4.
Proof. split; [apply plain_dec; reflexivity|]. repeat split; vm_compute; reflexivity. Qed.
