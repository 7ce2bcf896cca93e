(** * Neural network layers: /repo/xcsf/neural_layer.c, neural_layer_connected.c,
    _convolutional.c, _softmax.c, _dropout.c, _noise.c, _maxpool.c, _avgpool.c, _upsample.c.

    The forward, backward and update passes that draw no random numbers are written for any
    type of numbers, the others for binary64.  Recurrent and LSTM layers, JSON output and
    printing are not modelled here.  Ints are unbounded integers except where a size is
    computed in a constructor, where each product is checked for overflow.  Memory that the C
    code leaves uninitialised is filled with NaN; malloc never fails. *)
From Coq Require Import ZArith Bool List.
From Verif Require Import Outcome F64 Rng Sam Arr Blas Clock Dgp Act Image.
Import ListNotations.
Open Scope Z_scope.

(** neural_layer.h:28-37 *)
Definition CONNECTED : Z := 0.
Definition DROPOUT : Z := 1.
Definition NOISE : Z := 2.
Definition SOFTMAX : Z := 3.
Definition RECURRENT : Z := 4.
Definition LSTM : Z := 5.
Definition MAXPOOL : Z := 6.
Definition CONVOLUTIONAL : Z := 7.
Definition AVGPOOL : Z := 8.
Definition UPSAMPLE : Z := 9.

(** neural_layer.h:49-54: the bit numbers of the options. *)
Definition EVOLVE_WEIGHTS : Z := 0.
Definition EVOLVE_NEURONS : Z := 1.
Definition EVOLVE_FUNCTIONS : Z := 2.
Definition SGD_WEIGHTS : Z := 3.
Definition EVOLVE_ETA : Z := 4.
Definition EVOLVE_CONNECT : Z := 5.

(** neural_layer.h:58-66 *)
Definition WEIGHT_MIN : Z := -10.
Definition WEIGHT_MAX : Z := 10.
Definition N_WEIGHTS_MAX : Z := 20000000.
Definition N_OUTPUTS_MAX : Z := 2000000.
Definition WEIGHT_SD : f64 := lit 1 10.
Definition WEIGHT_SD_INIT : f64 := lit 1 10.
Definition WEIGHT_SD_RAND : f64 := f1.

(** neural_layer_connected.c:34-41 and neural_layer_convolutional.c:36-43 *)
Definition layer_mu_type : list Z :=
  [SAM_RATE_SELECT; SAM_RATE_SELECT; SAM_RATE_SELECT; SAM_RATE_SELECT; SAM_RATE_SELECT; SAM_RATE_SELECT].

(** neural_layer_args.h struct ArgsLayer, without recurrent_function and next. *)
Record largs := mkLargs {
  la_type : Z; la_n_inputs : Z; la_n_init : Z; la_n_max : Z; la_grow : Z; la_function : Z;
  la_height : Z; la_width : Z; la_channels : Z; la_size : Z; la_stride : Z; la_pad : Z;
  la_eta : f64; la_eta_min : f64; la_momentum : f64; la_decay : f64; la_probability : f64; la_scale : f64;
  la_evolve_weights : bool; la_evolve_neurons : bool; la_evolve_functions : bool; la_evolve_eta : bool;
  la_evolve_connect : bool; la_sgd_weights : bool
}.

(** neural_layer.h:73-133 struct Layer, without the fields of recurrent layers.  An array that
    has not been allocated is the empty list. *)
Record layer (T : Type) := mkLayer {
  l_type : Z;
  l_options : Z;
  l_function : Z;
  l_n_inputs : Z;
  l_n_outputs : Z;
  l_max_outputs : Z;
  l_grow : Z;
  l_n_weights : Z;
  l_n_biases : Z;
  l_n_active : Z;
  l_eta : T;
  l_eta_max : T;
  l_eta_min : T;
  l_momentum : T;
  l_decay : T;
  l_scale : T;
  l_probability : T;
  l_height : Z;
  l_width : Z;
  l_channels : Z;
  l_pad : Z;
  l_out_w : Z;
  l_out_h : Z;
  l_out_c : Z;
  l_size : Z;
  l_stride : Z;
  l_n_filters : Z;
  l_state : list T;
  l_output : list T;
  l_weights : list T;
  l_weight_updates : list T;
  l_biases : list T;
  l_bias_updates : list T;
  l_delta : list T;
  l_temp : list T;
  l_active : list bool;
  l_mu : list f64;
  l_indexes : list Z
}.
Arguments mkLayer {T}.
Arguments l_type {T} _.
Arguments l_options {T} _.
Arguments l_function {T} _.
Arguments l_n_inputs {T} _.
Arguments l_n_outputs {T} _.
Arguments l_max_outputs {T} _.
Arguments l_grow {T} _.
Arguments l_n_weights {T} _.
Arguments l_n_biases {T} _.
Arguments l_n_active {T} _.
Arguments l_eta {T} _.
Arguments l_eta_max {T} _.
Arguments l_eta_min {T} _.
Arguments l_momentum {T} _.
Arguments l_decay {T} _.
Arguments l_scale {T} _.
Arguments l_probability {T} _.
Arguments l_height {T} _.
Arguments l_width {T} _.
Arguments l_channels {T} _.
Arguments l_pad {T} _.
Arguments l_out_w {T} _.
Arguments l_out_h {T} _.
Arguments l_out_c {T} _.
Arguments l_size {T} _.
Arguments l_stride {T} _.
Arguments l_n_filters {T} _.
Arguments l_state {T} _.
Arguments l_output {T} _.
Arguments l_weights {T} _.
Arguments l_weight_updates {T} _.
Arguments l_biases {T} _.
Arguments l_bias_updates {T} _.
Arguments l_delta {T} _.
Arguments l_temp {T} _.
Arguments l_active {T} _.
Arguments l_mu {T} _.
Arguments l_indexes {T} _.
(** Assignments to one field. *)
Definition set_type {T} (v : Z) (l : layer T) : layer T := mkLayer v (l_options l) (l_function l) (l_n_inputs l) (l_n_outputs l) (l_max_outputs l) (l_grow l) (l_n_weights l) (l_n_biases l) (l_n_active l) (l_eta l) (l_eta_max l) (l_eta_min l) (l_momentum l) (l_decay l) (l_scale l) (l_probability l) (l_height l) (l_width l) (l_channels l) (l_pad l) (l_out_w l) (l_out_h l) (l_out_c l) (l_size l) (l_stride l) (l_n_filters l) (l_state l) (l_output l) (l_weights l) (l_weight_updates l) (l_biases l) (l_bias_updates l) (l_delta l) (l_temp l) (l_active l) (l_mu l) (l_indexes l).
Definition set_options {T} (v : Z) (l : layer T) : layer T := mkLayer (l_type l) v (l_function l) (l_n_inputs l) (l_n_outputs l) (l_max_outputs l) (l_grow l) (l_n_weights l) (l_n_biases l) (l_n_active l) (l_eta l) (l_eta_max l) (l_eta_min l) (l_momentum l) (l_decay l) (l_scale l) (l_probability l) (l_height l) (l_width l) (l_channels l) (l_pad l) (l_out_w l) (l_out_h l) (l_out_c l) (l_size l) (l_stride l) (l_n_filters l) (l_state l) (l_output l) (l_weights l) (l_weight_updates l) (l_biases l) (l_bias_updates l) (l_delta l) (l_temp l) (l_active l) (l_mu l) (l_indexes l).
Definition set_function {T} (v : Z) (l : layer T) : layer T := mkLayer (l_type l) (l_options l) v (l_n_inputs l) (l_n_outputs l) (l_max_outputs l) (l_grow l) (l_n_weights l) (l_n_biases l) (l_n_active l) (l_eta l) (l_eta_max l) (l_eta_min l) (l_momentum l) (l_decay l) (l_scale l) (l_probability l) (l_height l) (l_width l) (l_channels l) (l_pad l) (l_out_w l) (l_out_h l) (l_out_c l) (l_size l) (l_stride l) (l_n_filters l) (l_state l) (l_output l) (l_weights l) (l_weight_updates l) (l_biases l) (l_bias_updates l) (l_delta l) (l_temp l) (l_active l) (l_mu l) (l_indexes l).
Definition set_n_inputs {T} (v : Z) (l : layer T) : layer T := mkLayer (l_type l) (l_options l) (l_function l) v (l_n_outputs l) (l_max_outputs l) (l_grow l) (l_n_weights l) (l_n_biases l) (l_n_active l) (l_eta l) (l_eta_max l) (l_eta_min l) (l_momentum l) (l_decay l) (l_scale l) (l_probability l) (l_height l) (l_width l) (l_channels l) (l_pad l) (l_out_w l) (l_out_h l) (l_out_c l) (l_size l) (l_stride l) (l_n_filters l) (l_state l) (l_output l) (l_weights l) (l_weight_updates l) (l_biases l) (l_bias_updates l) (l_delta l) (l_temp l) (l_active l) (l_mu l) (l_indexes l).
Definition set_n_outputs {T} (v : Z) (l : layer T) : layer T := mkLayer (l_type l) (l_options l) (l_function l) (l_n_inputs l) v (l_max_outputs l) (l_grow l) (l_n_weights l) (l_n_biases l) (l_n_active l) (l_eta l) (l_eta_max l) (l_eta_min l) (l_momentum l) (l_decay l) (l_scale l) (l_probability l) (l_height l) (l_width l) (l_channels l) (l_pad l) (l_out_w l) (l_out_h l) (l_out_c l) (l_size l) (l_stride l) (l_n_filters l) (l_state l) (l_output l) (l_weights l) (l_weight_updates l) (l_biases l) (l_bias_updates l) (l_delta l) (l_temp l) (l_active l) (l_mu l) (l_indexes l).
Definition set_max_outputs {T} (v : Z) (l : layer T) : layer T := mkLayer (l_type l) (l_options l) (l_function l) (l_n_inputs l) (l_n_outputs l) v (l_grow l) (l_n_weights l) (l_n_biases l) (l_n_active l) (l_eta l) (l_eta_max l) (l_eta_min l) (l_momentum l) (l_decay l) (l_scale l) (l_probability l) (l_height l) (l_width l) (l_channels l) (l_pad l) (l_out_w l) (l_out_h l) (l_out_c l) (l_size l) (l_stride l) (l_n_filters l) (l_state l) (l_output l) (l_weights l) (l_weight_updates l) (l_biases l) (l_bias_updates l) (l_delta l) (l_temp l) (l_active l) (l_mu l) (l_indexes l).
Definition set_grow {T} (v : Z) (l : layer T) : layer T := mkLayer (l_type l) (l_options l) (l_function l) (l_n_inputs l) (l_n_outputs l) (l_max_outputs l) v (l_n_weights l) (l_n_biases l) (l_n_active l) (l_eta l) (l_eta_max l) (l_eta_min l) (l_momentum l) (l_decay l) (l_scale l) (l_probability l) (l_height l) (l_width l) (l_channels l) (l_pad l) (l_out_w l) (l_out_h l) (l_out_c l) (l_size l) (l_stride l) (l_n_filters l) (l_state l) (l_output l) (l_weights l) (l_weight_updates l) (l_biases l) (l_bias_updates l) (l_delta l) (l_temp l) (l_active l) (l_mu l) (l_indexes l).
Definition set_n_weights {T} (v : Z) (l : layer T) : layer T := mkLayer (l_type l) (l_options l) (l_function l) (l_n_inputs l) (l_n_outputs l) (l_max_outputs l) (l_grow l) v (l_n_biases l) (l_n_active l) (l_eta l) (l_eta_max l) (l_eta_min l) (l_momentum l) (l_decay l) (l_scale l) (l_probability l) (l_height l) (l_width l) (l_channels l) (l_pad l) (l_out_w l) (l_out_h l) (l_out_c l) (l_size l) (l_stride l) (l_n_filters l) (l_state l) (l_output l) (l_weights l) (l_weight_updates l) (l_biases l) (l_bias_updates l) (l_delta l) (l_temp l) (l_active l) (l_mu l) (l_indexes l).
Definition set_n_biases {T} (v : Z) (l : layer T) : layer T := mkLayer (l_type l) (l_options l) (l_function l) (l_n_inputs l) (l_n_outputs l) (l_max_outputs l) (l_grow l) (l_n_weights l) v (l_n_active l) (l_eta l) (l_eta_max l) (l_eta_min l) (l_momentum l) (l_decay l) (l_scale l) (l_probability l) (l_height l) (l_width l) (l_channels l) (l_pad l) (l_out_w l) (l_out_h l) (l_out_c l) (l_size l) (l_stride l) (l_n_filters l) (l_state l) (l_output l) (l_weights l) (l_weight_updates l) (l_biases l) (l_bias_updates l) (l_delta l) (l_temp l) (l_active l) (l_mu l) (l_indexes l).
Definition set_n_active {T} (v : Z) (l : layer T) : layer T := mkLayer (l_type l) (l_options l) (l_function l) (l_n_inputs l) (l_n_outputs l) (l_max_outputs l) (l_grow l) (l_n_weights l) (l_n_biases l) v (l_eta l) (l_eta_max l) (l_eta_min l) (l_momentum l) (l_decay l) (l_scale l) (l_probability l) (l_height l) (l_width l) (l_channels l) (l_pad l) (l_out_w l) (l_out_h l) (l_out_c l) (l_size l) (l_stride l) (l_n_filters l) (l_state l) (l_output l) (l_weights l) (l_weight_updates l) (l_biases l) (l_bias_updates l) (l_delta l) (l_temp l) (l_active l) (l_mu l) (l_indexes l).
Definition set_eta {T} (v : T) (l : layer T) : layer T := mkLayer (l_type l) (l_options l) (l_function l) (l_n_inputs l) (l_n_outputs l) (l_max_outputs l) (l_grow l) (l_n_weights l) (l_n_biases l) (l_n_active l) v (l_eta_max l) (l_eta_min l) (l_momentum l) (l_decay l) (l_scale l) (l_probability l) (l_height l) (l_width l) (l_channels l) (l_pad l) (l_out_w l) (l_out_h l) (l_out_c l) (l_size l) (l_stride l) (l_n_filters l) (l_state l) (l_output l) (l_weights l) (l_weight_updates l) (l_biases l) (l_bias_updates l) (l_delta l) (l_temp l) (l_active l) (l_mu l) (l_indexes l).
Definition set_eta_max {T} (v : T) (l : layer T) : layer T := mkLayer (l_type l) (l_options l) (l_function l) (l_n_inputs l) (l_n_outputs l) (l_max_outputs l) (l_grow l) (l_n_weights l) (l_n_biases l) (l_n_active l) (l_eta l) v (l_eta_min l) (l_momentum l) (l_decay l) (l_scale l) (l_probability l) (l_height l) (l_width l) (l_channels l) (l_pad l) (l_out_w l) (l_out_h l) (l_out_c l) (l_size l) (l_stride l) (l_n_filters l) (l_state l) (l_output l) (l_weights l) (l_weight_updates l) (l_biases l) (l_bias_updates l) (l_delta l) (l_temp l) (l_active l) (l_mu l) (l_indexes l).
Definition set_eta_min {T} (v : T) (l : layer T) : layer T := mkLayer (l_type l) (l_options l) (l_function l) (l_n_inputs l) (l_n_outputs l) (l_max_outputs l) (l_grow l) (l_n_weights l) (l_n_biases l) (l_n_active l) (l_eta l) (l_eta_max l) v (l_momentum l) (l_decay l) (l_scale l) (l_probability l) (l_height l) (l_width l) (l_channels l) (l_pad l) (l_out_w l) (l_out_h l) (l_out_c l) (l_size l) (l_stride l) (l_n_filters l) (l_state l) (l_output l) (l_weights l) (l_weight_updates l) (l_biases l) (l_bias_updates l) (l_delta l) (l_temp l) (l_active l) (l_mu l) (l_indexes l).
Definition set_momentum {T} (v : T) (l : layer T) : layer T := mkLayer (l_type l) (l_options l) (l_function l) (l_n_inputs l) (l_n_outputs l) (l_max_outputs l) (l_grow l) (l_n_weights l) (l_n_biases l) (l_n_active l) (l_eta l) (l_eta_max l) (l_eta_min l) v (l_decay l) (l_scale l) (l_probability l) (l_height l) (l_width l) (l_channels l) (l_pad l) (l_out_w l) (l_out_h l) (l_out_c l) (l_size l) (l_stride l) (l_n_filters l) (l_state l) (l_output l) (l_weights l) (l_weight_updates l) (l_biases l) (l_bias_updates l) (l_delta l) (l_temp l) (l_active l) (l_mu l) (l_indexes l).
Definition set_decay {T} (v : T) (l : layer T) : layer T := mkLayer (l_type l) (l_options l) (l_function l) (l_n_inputs l) (l_n_outputs l) (l_max_outputs l) (l_grow l) (l_n_weights l) (l_n_biases l) (l_n_active l) (l_eta l) (l_eta_max l) (l_eta_min l) (l_momentum l) v (l_scale l) (l_probability l) (l_height l) (l_width l) (l_channels l) (l_pad l) (l_out_w l) (l_out_h l) (l_out_c l) (l_size l) (l_stride l) (l_n_filters l) (l_state l) (l_output l) (l_weights l) (l_weight_updates l) (l_biases l) (l_bias_updates l) (l_delta l) (l_temp l) (l_active l) (l_mu l) (l_indexes l).
Definition set_scale {T} (v : T) (l : layer T) : layer T := mkLayer (l_type l) (l_options l) (l_function l) (l_n_inputs l) (l_n_outputs l) (l_max_outputs l) (l_grow l) (l_n_weights l) (l_n_biases l) (l_n_active l) (l_eta l) (l_eta_max l) (l_eta_min l) (l_momentum l) (l_decay l) v (l_probability l) (l_height l) (l_width l) (l_channels l) (l_pad l) (l_out_w l) (l_out_h l) (l_out_c l) (l_size l) (l_stride l) (l_n_filters l) (l_state l) (l_output l) (l_weights l) (l_weight_updates l) (l_biases l) (l_bias_updates l) (l_delta l) (l_temp l) (l_active l) (l_mu l) (l_indexes l).
Definition set_probability {T} (v : T) (l : layer T) : layer T := mkLayer (l_type l) (l_options l) (l_function l) (l_n_inputs l) (l_n_outputs l) (l_max_outputs l) (l_grow l) (l_n_weights l) (l_n_biases l) (l_n_active l) (l_eta l) (l_eta_max l) (l_eta_min l) (l_momentum l) (l_decay l) (l_scale l) v (l_height l) (l_width l) (l_channels l) (l_pad l) (l_out_w l) (l_out_h l) (l_out_c l) (l_size l) (l_stride l) (l_n_filters l) (l_state l) (l_output l) (l_weights l) (l_weight_updates l) (l_biases l) (l_bias_updates l) (l_delta l) (l_temp l) (l_active l) (l_mu l) (l_indexes l).
Definition set_height {T} (v : Z) (l : layer T) : layer T := mkLayer (l_type l) (l_options l) (l_function l) (l_n_inputs l) (l_n_outputs l) (l_max_outputs l) (l_grow l) (l_n_weights l) (l_n_biases l) (l_n_active l) (l_eta l) (l_eta_max l) (l_eta_min l) (l_momentum l) (l_decay l) (l_scale l) (l_probability l) v (l_width l) (l_channels l) (l_pad l) (l_out_w l) (l_out_h l) (l_out_c l) (l_size l) (l_stride l) (l_n_filters l) (l_state l) (l_output l) (l_weights l) (l_weight_updates l) (l_biases l) (l_bias_updates l) (l_delta l) (l_temp l) (l_active l) (l_mu l) (l_indexes l).
Definition set_width {T} (v : Z) (l : layer T) : layer T := mkLayer (l_type l) (l_options l) (l_function l) (l_n_inputs l) (l_n_outputs l) (l_max_outputs l) (l_grow l) (l_n_weights l) (l_n_biases l) (l_n_active l) (l_eta l) (l_eta_max l) (l_eta_min l) (l_momentum l) (l_decay l) (l_scale l) (l_probability l) (l_height l) v (l_channels l) (l_pad l) (l_out_w l) (l_out_h l) (l_out_c l) (l_size l) (l_stride l) (l_n_filters l) (l_state l) (l_output l) (l_weights l) (l_weight_updates l) (l_biases l) (l_bias_updates l) (l_delta l) (l_temp l) (l_active l) (l_mu l) (l_indexes l).
Definition set_channels {T} (v : Z) (l : layer T) : layer T := mkLayer (l_type l) (l_options l) (l_function l) (l_n_inputs l) (l_n_outputs l) (l_max_outputs l) (l_grow l) (l_n_weights l) (l_n_biases l) (l_n_active l) (l_eta l) (l_eta_max l) (l_eta_min l) (l_momentum l) (l_decay l) (l_scale l) (l_probability l) (l_height l) (l_width l) v (l_pad l) (l_out_w l) (l_out_h l) (l_out_c l) (l_size l) (l_stride l) (l_n_filters l) (l_state l) (l_output l) (l_weights l) (l_weight_updates l) (l_biases l) (l_bias_updates l) (l_delta l) (l_temp l) (l_active l) (l_mu l) (l_indexes l).
Definition set_pad {T} (v : Z) (l : layer T) : layer T := mkLayer (l_type l) (l_options l) (l_function l) (l_n_inputs l) (l_n_outputs l) (l_max_outputs l) (l_grow l) (l_n_weights l) (l_n_biases l) (l_n_active l) (l_eta l) (l_eta_max l) (l_eta_min l) (l_momentum l) (l_decay l) (l_scale l) (l_probability l) (l_height l) (l_width l) (l_channels l) v (l_out_w l) (l_out_h l) (l_out_c l) (l_size l) (l_stride l) (l_n_filters l) (l_state l) (l_output l) (l_weights l) (l_weight_updates l) (l_biases l) (l_bias_updates l) (l_delta l) (l_temp l) (l_active l) (l_mu l) (l_indexes l).
Definition set_out_w {T} (v : Z) (l : layer T) : layer T := mkLayer (l_type l) (l_options l) (l_function l) (l_n_inputs l) (l_n_outputs l) (l_max_outputs l) (l_grow l) (l_n_weights l) (l_n_biases l) (l_n_active l) (l_eta l) (l_eta_max l) (l_eta_min l) (l_momentum l) (l_decay l) (l_scale l) (l_probability l) (l_height l) (l_width l) (l_channels l) (l_pad l) v (l_out_h l) (l_out_c l) (l_size l) (l_stride l) (l_n_filters l) (l_state l) (l_output l) (l_weights l) (l_weight_updates l) (l_biases l) (l_bias_updates l) (l_delta l) (l_temp l) (l_active l) (l_mu l) (l_indexes l).
Definition set_out_h {T} (v : Z) (l : layer T) : layer T := mkLayer (l_type l) (l_options l) (l_function l) (l_n_inputs l) (l_n_outputs l) (l_max_outputs l) (l_grow l) (l_n_weights l) (l_n_biases l) (l_n_active l) (l_eta l) (l_eta_max l) (l_eta_min l) (l_momentum l) (l_decay l) (l_scale l) (l_probability l) (l_height l) (l_width l) (l_channels l) (l_pad l) (l_out_w l) v (l_out_c l) (l_size l) (l_stride l) (l_n_filters l) (l_state l) (l_output l) (l_weights l) (l_weight_updates l) (l_biases l) (l_bias_updates l) (l_delta l) (l_temp l) (l_active l) (l_mu l) (l_indexes l).
Definition set_out_c {T} (v : Z) (l : layer T) : layer T := mkLayer (l_type l) (l_options l) (l_function l) (l_n_inputs l) (l_n_outputs l) (l_max_outputs l) (l_grow l) (l_n_weights l) (l_n_biases l) (l_n_active l) (l_eta l) (l_eta_max l) (l_eta_min l) (l_momentum l) (l_decay l) (l_scale l) (l_probability l) (l_height l) (l_width l) (l_channels l) (l_pad l) (l_out_w l) (l_out_h l) v (l_size l) (l_stride l) (l_n_filters l) (l_state l) (l_output l) (l_weights l) (l_weight_updates l) (l_biases l) (l_bias_updates l) (l_delta l) (l_temp l) (l_active l) (l_mu l) (l_indexes l).
Definition set_size {T} (v : Z) (l : layer T) : layer T := mkLayer (l_type l) (l_options l) (l_function l) (l_n_inputs l) (l_n_outputs l) (l_max_outputs l) (l_grow l) (l_n_weights l) (l_n_biases l) (l_n_active l) (l_eta l) (l_eta_max l) (l_eta_min l) (l_momentum l) (l_decay l) (l_scale l) (l_probability l) (l_height l) (l_width l) (l_channels l) (l_pad l) (l_out_w l) (l_out_h l) (l_out_c l) v (l_stride l) (l_n_filters l) (l_state l) (l_output l) (l_weights l) (l_weight_updates l) (l_biases l) (l_bias_updates l) (l_delta l) (l_temp l) (l_active l) (l_mu l) (l_indexes l).
Definition set_stride {T} (v : Z) (l : layer T) : layer T := mkLayer (l_type l) (l_options l) (l_function l) (l_n_inputs l) (l_n_outputs l) (l_max_outputs l) (l_grow l) (l_n_weights l) (l_n_biases l) (l_n_active l) (l_eta l) (l_eta_max l) (l_eta_min l) (l_momentum l) (l_decay l) (l_scale l) (l_probability l) (l_height l) (l_width l) (l_channels l) (l_pad l) (l_out_w l) (l_out_h l) (l_out_c l) (l_size l) v (l_n_filters l) (l_state l) (l_output l) (l_weights l) (l_weight_updates l) (l_biases l) (l_bias_updates l) (l_delta l) (l_temp l) (l_active l) (l_mu l) (l_indexes l).
Definition set_n_filters {T} (v : Z) (l : layer T) : layer T := mkLayer (l_type l) (l_options l) (l_function l) (l_n_inputs l) (l_n_outputs l) (l_max_outputs l) (l_grow l) (l_n_weights l) (l_n_biases l) (l_n_active l) (l_eta l) (l_eta_max l) (l_eta_min l) (l_momentum l) (l_decay l) (l_scale l) (l_probability l) (l_height l) (l_width l) (l_channels l) (l_pad l) (l_out_w l) (l_out_h l) (l_out_c l) (l_size l) (l_stride l) v (l_state l) (l_output l) (l_weights l) (l_weight_updates l) (l_biases l) (l_bias_updates l) (l_delta l) (l_temp l) (l_active l) (l_mu l) (l_indexes l).
Definition set_state {T} (v : list T) (l : layer T) : layer T := mkLayer (l_type l) (l_options l) (l_function l) (l_n_inputs l) (l_n_outputs l) (l_max_outputs l) (l_grow l) (l_n_weights l) (l_n_biases l) (l_n_active l) (l_eta l) (l_eta_max l) (l_eta_min l) (l_momentum l) (l_decay l) (l_scale l) (l_probability l) (l_height l) (l_width l) (l_channels l) (l_pad l) (l_out_w l) (l_out_h l) (l_out_c l) (l_size l) (l_stride l) (l_n_filters l) v (l_output l) (l_weights l) (l_weight_updates l) (l_biases l) (l_bias_updates l) (l_delta l) (l_temp l) (l_active l) (l_mu l) (l_indexes l).
Definition set_output {T} (v : list T) (l : layer T) : layer T := mkLayer (l_type l) (l_options l) (l_function l) (l_n_inputs l) (l_n_outputs l) (l_max_outputs l) (l_grow l) (l_n_weights l) (l_n_biases l) (l_n_active l) (l_eta l) (l_eta_max l) (l_eta_min l) (l_momentum l) (l_decay l) (l_scale l) (l_probability l) (l_height l) (l_width l) (l_channels l) (l_pad l) (l_out_w l) (l_out_h l) (l_out_c l) (l_size l) (l_stride l) (l_n_filters l) (l_state l) v (l_weights l) (l_weight_updates l) (l_biases l) (l_bias_updates l) (l_delta l) (l_temp l) (l_active l) (l_mu l) (l_indexes l).
Definition set_weights {T} (v : list T) (l : layer T) : layer T := mkLayer (l_type l) (l_options l) (l_function l) (l_n_inputs l) (l_n_outputs l) (l_max_outputs l) (l_grow l) (l_n_weights l) (l_n_biases l) (l_n_active l) (l_eta l) (l_eta_max l) (l_eta_min l) (l_momentum l) (l_decay l) (l_scale l) (l_probability l) (l_height l) (l_width l) (l_channels l) (l_pad l) (l_out_w l) (l_out_h l) (l_out_c l) (l_size l) (l_stride l) (l_n_filters l) (l_state l) (l_output l) v (l_weight_updates l) (l_biases l) (l_bias_updates l) (l_delta l) (l_temp l) (l_active l) (l_mu l) (l_indexes l).
Definition set_weight_updates {T} (v : list T) (l : layer T) : layer T := mkLayer (l_type l) (l_options l) (l_function l) (l_n_inputs l) (l_n_outputs l) (l_max_outputs l) (l_grow l) (l_n_weights l) (l_n_biases l) (l_n_active l) (l_eta l) (l_eta_max l) (l_eta_min l) (l_momentum l) (l_decay l) (l_scale l) (l_probability l) (l_height l) (l_width l) (l_channels l) (l_pad l) (l_out_w l) (l_out_h l) (l_out_c l) (l_size l) (l_stride l) (l_n_filters l) (l_state l) (l_output l) (l_weights l) v (l_biases l) (l_bias_updates l) (l_delta l) (l_temp l) (l_active l) (l_mu l) (l_indexes l).
Definition set_biases {T} (v : list T) (l : layer T) : layer T := mkLayer (l_type l) (l_options l) (l_function l) (l_n_inputs l) (l_n_outputs l) (l_max_outputs l) (l_grow l) (l_n_weights l) (l_n_biases l) (l_n_active l) (l_eta l) (l_eta_max l) (l_eta_min l) (l_momentum l) (l_decay l) (l_scale l) (l_probability l) (l_height l) (l_width l) (l_channels l) (l_pad l) (l_out_w l) (l_out_h l) (l_out_c l) (l_size l) (l_stride l) (l_n_filters l) (l_state l) (l_output l) (l_weights l) (l_weight_updates l) v (l_bias_updates l) (l_delta l) (l_temp l) (l_active l) (l_mu l) (l_indexes l).
Definition set_bias_updates {T} (v : list T) (l : layer T) : layer T := mkLayer (l_type l) (l_options l) (l_function l) (l_n_inputs l) (l_n_outputs l) (l_max_outputs l) (l_grow l) (l_n_weights l) (l_n_biases l) (l_n_active l) (l_eta l) (l_eta_max l) (l_eta_min l) (l_momentum l) (l_decay l) (l_scale l) (l_probability l) (l_height l) (l_width l) (l_channels l) (l_pad l) (l_out_w l) (l_out_h l) (l_out_c l) (l_size l) (l_stride l) (l_n_filters l) (l_state l) (l_output l) (l_weights l) (l_weight_updates l) (l_biases l) v (l_delta l) (l_temp l) (l_active l) (l_mu l) (l_indexes l).
Definition set_delta {T} (v : list T) (l : layer T) : layer T := mkLayer (l_type l) (l_options l) (l_function l) (l_n_inputs l) (l_n_outputs l) (l_max_outputs l) (l_grow l) (l_n_weights l) (l_n_biases l) (l_n_active l) (l_eta l) (l_eta_max l) (l_eta_min l) (l_momentum l) (l_decay l) (l_scale l) (l_probability l) (l_height l) (l_width l) (l_channels l) (l_pad l) (l_out_w l) (l_out_h l) (l_out_c l) (l_size l) (l_stride l) (l_n_filters l) (l_state l) (l_output l) (l_weights l) (l_weight_updates l) (l_biases l) (l_bias_updates l) v (l_temp l) (l_active l) (l_mu l) (l_indexes l).
Definition set_temp {T} (v : list T) (l : layer T) : layer T := mkLayer (l_type l) (l_options l) (l_function l) (l_n_inputs l) (l_n_outputs l) (l_max_outputs l) (l_grow l) (l_n_weights l) (l_n_biases l) (l_n_active l) (l_eta l) (l_eta_max l) (l_eta_min l) (l_momentum l) (l_decay l) (l_scale l) (l_probability l) (l_height l) (l_width l) (l_channels l) (l_pad l) (l_out_w l) (l_out_h l) (l_out_c l) (l_size l) (l_stride l) (l_n_filters l) (l_state l) (l_output l) (l_weights l) (l_weight_updates l) (l_biases l) (l_bias_updates l) (l_delta l) v (l_active l) (l_mu l) (l_indexes l).
Definition set_active {T} (v : list bool) (l : layer T) : layer T := mkLayer (l_type l) (l_options l) (l_function l) (l_n_inputs l) (l_n_outputs l) (l_max_outputs l) (l_grow l) (l_n_weights l) (l_n_biases l) (l_n_active l) (l_eta l) (l_eta_max l) (l_eta_min l) (l_momentum l) (l_decay l) (l_scale l) (l_probability l) (l_height l) (l_width l) (l_channels l) (l_pad l) (l_out_w l) (l_out_h l) (l_out_c l) (l_size l) (l_stride l) (l_n_filters l) (l_state l) (l_output l) (l_weights l) (l_weight_updates l) (l_biases l) (l_bias_updates l) (l_delta l) (l_temp l) v (l_mu l) (l_indexes l).
Definition set_mu {T} (v : list f64) (l : layer T) : layer T := mkLayer (l_type l) (l_options l) (l_function l) (l_n_inputs l) (l_n_outputs l) (l_max_outputs l) (l_grow l) (l_n_weights l) (l_n_biases l) (l_n_active l) (l_eta l) (l_eta_max l) (l_eta_min l) (l_momentum l) (l_decay l) (l_scale l) (l_probability l) (l_height l) (l_width l) (l_channels l) (l_pad l) (l_out_w l) (l_out_h l) (l_out_c l) (l_size l) (l_stride l) (l_n_filters l) (l_state l) (l_output l) (l_weights l) (l_weight_updates l) (l_biases l) (l_bias_updates l) (l_delta l) (l_temp l) (l_active l) v (l_indexes l).
Definition set_indexes {T} (v : list Z) (l : layer T) : layer T := mkLayer (l_type l) (l_options l) (l_function l) (l_n_inputs l) (l_n_outputs l) (l_max_outputs l) (l_grow l) (l_n_weights l) (l_n_biases l) (l_n_active l) (l_eta l) (l_eta_max l) (l_eta_min l) (l_momentum l) (l_decay l) (l_scale l) (l_probability l) (l_height l) (l_width l) (l_channels l) (l_pad l) (l_out_w l) (l_out_h l) (l_out_c l) (l_size l) (l_stride l) (l_n_filters l) (l_state l) (l_output l) (l_weights l) (l_weight_updates l) (l_biases l) (l_bias_updates l) (l_delta l) (l_temp l) (l_active l) (l_mu l) v.

(** neural_layer.c:412-478 layer_defaults *)
Definition layer_defaults : layer f64 := mkLayer 0 0 0 0 0 0 0 0 0 0 f0 f0 f0 f0 f0 f0 f0 0 0 0 0 0 0 0 0 0 0 [] [] [] [] [] [] [] [] [] [] [].

Definition has {T} (l : layer T) (opt : Z) : bool := Z.testbit (l_options l) opt.

(** memcpy(dst, src, n * sizeof(..)) into an existing array. *)
Definition copy_n {A} (n : Z) (src dst : list A) : outcome (list A) :=
  ofor n (fun i d => (x <- rd src i ;; wr d i x)%out) dst.
(** calloc, and malloc of n elements (contents: [junk]). *)
Definition zeros {A} (z : A) (n : Z) : list A := repeat z (Z.to_nat n).
(** realloc to n elements. *)
Definition realloc {A} (junk : A) (n : Z) (l : list A) : list A :=
  firstn (Z.to_nat n) l ++ repeat junk (Z.to_nat n - length l).

(** neural_layer.c:580-616 *)
Definition guard (n hi : Z) : outcome unit := if (n <? 1) || (hi <? n) then Exit else Ok tt.
Definition layer_guard_biases {T} (l : layer T) : outcome unit := guard (l_n_biases l) N_OUTPUTS_MAX.
Definition layer_guard_outputs {T} (l : layer T) : outcome unit := guard (l_n_outputs l) N_OUTPUTS_MAX.
Definition layer_guard_weights {T} (l : layer T) : outcome unit := guard (l_n_weights l) N_WEIGHTS_MAX.

(** ** Passes that draw no random numbers, for any type of numbers *)
Section Pass.
Context {T : Type} (A : arith T).
Let Q := a_num A.
Notation "# z" := (a_Z A z) (at level 1, format "# z").

(** neural_layer_connected.c:173-186 *)
Definition connected_forward (l : layer T) (input : list T) : outcome (layer T) :=
  let k := l_n_inputs l in
  let n := l_n_outputs l in
  (c <- copy_n (l_n_outputs l) (l_biases l) (l_state l) ;;
   c <- blas_gemm Q false true 1 n k #1 input k (l_weights l) k #1 c n ;;
   so <- neural_activate_array A c (l_output l) (l_n_outputs l) (l_function l) ;;
   Ok (set_state (fst so) (set_output (snd so) l)))%out.

(** neural_layer_connected.c:195-218.  [delta] is the error array of the previous layer, if
    there is one; the results are this layer and that array. *)
Definition connected_backward (l : layer T) (input : list T) (delta : option (list T))
  : outcome (layer T * option (list T)) :=
  (d <- neural_gradient_array A (l_state l) (l_delta l) (l_n_outputs l) (l_function l) ;;
   let l := set_delta d l in
   l <- (if has l SGD_WEIGHTS then
           (bu <- blas_axpy Q (l_n_outputs l) #1 (l_delta l) 1 (l_bias_updates l) 0 1 ;;
            wu <- blas_gemm Q true false (l_n_outputs l) (l_n_inputs l) 1 #1 (l_delta l) (l_n_outputs l)
                    input (l_n_inputs l) #1 (l_weight_updates l) (l_n_inputs l) ;;
            Ok (set_bias_updates bu (set_weight_updates wu l)))%out
         else Ok l) ;;
   match delta with
   | Some dl =>
     (dl <- blas_gemm Q false false 1 (l_n_inputs l) (l_n_outputs l) #1 (l_delta l) (l_n_outputs l)
              (l_weights l) (l_n_inputs l) #1 dl (l_n_inputs l) ;;
      Ok (l, Some dl))%out
   | None => Ok (l, None)
   end)%out.

(** neural_layer.c:364-377 *)
Definition layer_weight_clamp (l : layer T) : outcome (layer T) :=
  (w <- ofor (l_n_weights l) (fun i w =>
     (a <- rd (l_active l) i ;;
      if a : bool then modify_at w i (fun x => aclamp A x #WEIGHT_MIN #WEIGHT_MAX) else wr w i #0)%out) (l_weights l) ;;
   b <- ofor (l_n_biases l) (fun i b => modify_at b i (fun x => aclamp A x #WEIGHT_MIN #WEIGHT_MAX)) (l_biases l) ;;
   Ok (set_weights w (set_biases b l)))%out.

(** neural_layer_connected.c:224-238 and neural_layer_convolutional.c:339-353, the same code. *)
Definition weights_update (l : layer T) : outcome (layer T) :=
  if has l SGD_WEIGHTS && a_lt A #0 (l_eta l) then
    (b <- blas_axpy Q (l_n_biases l) (l_eta l) (l_bias_updates l) 1 (l_biases l) 0 1 ;;
     bu <- blas_scal Q (l_n_biases l) (l_momentum l) (l_bias_updates l) 1 ;;
     wu <- (if a_lt A #0 (l_decay l)
            then blas_axpy Q (l_n_weights l) (nneg Q (l_decay l)) (l_weights l) 1 (l_weight_updates l) 0 1
            else Ok (l_weight_updates l)) ;;
     w <- blas_axpy Q (l_n_weights l) (l_eta l) wu 1 (l_weights l) 0 1 ;;
     wu <- blas_scal Q (l_n_weights l) (l_momentum l) wu 1 ;;
     layer_weight_clamp (set_biases b (set_bias_updates bu (set_weights w (set_weight_updates wu l)))))%out
  else Ok l.

(** neural_layer_convolutional.c:261-286 *)
Definition convolutional_forward (l : layer T) (input : list T) : outcome (layer T) :=
  let m := l_n_filters l in
  (k <- cprod (l_size l) [l_size l; l_channels l] ;;
   n <- cint (l_out_w l * l_out_h l) ;;
   c <- ofor (l_n_outputs l) (fun i c => wr c i #0) (l_state l) ;;
   lc <- (if l_size l =? 1
          then (c <- blas_gemm Q false false m n k #1 (l_weights l) k input n #1 c n ;; Ok (l_temp l, c))%out
          else (b <- im2col Q input (l_channels l) (l_height l) (l_width l) (l_size l) (l_stride l) (l_pad l) (l_temp l) ;;
                c <- blas_gemm Q false false m n k #1 (l_weights l) k b n #1 c n ;; Ok (b, c))%out) ;;
   c <- ofor (l_n_biases l) (fun i c => ofor n (fun j c =>
          (b <- rd (l_biases l) i ;; modify_at c (i * n + j) (fun x => nadd Q x b))%out) c) (snd lc) ;;
   so <- neural_activate_array A c (l_output l) (l_n_outputs l) (l_function l) ;;
   Ok (set_temp (fst lc) (set_state (fst so) (set_output (snd so) l))))%out.

(** neural_layer_convolutional.c:295-333 *)
Definition convolutional_backward (l : layer T) (input : list T) (delta : option (list T))
  : outcome (layer T * option (list T)) :=
  let m := l_n_filters l in
  (n <- cprod (l_size l) [l_size l; l_channels l] ;;
   k <- cint (l_out_w l * l_out_h l) ;;
   l <- (if has l SGD_WEIGHTS then
           (d <- neural_gradient_array A (l_state l) (l_delta l) (l_n_outputs l) (l_function l) ;;
            bu <- ofor (l_n_biases l) (fun i bu =>
                    (s <- blas_sum Q (skipn (Z.to_nat (k * i)) d) k ;; modify_at bu i (fun x => nadd Q x s))%out)
                    (l_bias_updates l) ;;
            let l := set_delta d (set_bias_updates bu l) in
            if l_size l =? 1
            then (wu <- blas_gemm Q false true m n k #1 d k input k #1 (l_weight_updates l) n ;;
                  Ok (set_weight_updates wu l))%out
            else (b <- im2col Q input (l_channels l) (l_height l) (l_width l) (l_size l) (l_stride l) (l_pad l) (l_temp l) ;;
                  wu <- blas_gemm Q false true m n k #1 d k b k #1 (l_weight_updates l) n ;;
                  Ok (set_temp b (set_weight_updates wu l)))%out)%out
         else Ok l) ;;
   match delta with
   | Some dl =>
     if l_size l =? 1
     then (dl <- blas_gemm Q true false n k m #1 (l_weights l) n (l_delta l) k #0 dl k ;; Ok (l, Some dl))%out
     else (c <- blas_gemm Q true false n k m #1 (l_weights l) n (l_delta l) k #0 (l_temp l) k ;;
           dl <- col2im Q c (l_channels l) (l_height l) (l_width l) (l_size l) (l_stride l) (l_pad l) dl ;;
           Ok (set_temp c l, Some dl))%out
   | None => Ok (l, None)
   end)%out.

(** neural_layer_softmax.c:112-132 *)
Definition softmax_forward (l : layer T) (input : list T) : outcome (layer T) :=
  (i0 <- rd input 0 ;;
   largest <- ofor (l_n_inputs l - 1) (fun i m => (x <- rd input (i + 1) ;; Ok (if a_lt A m x then x else m))%out) i0 ;;
   so <- ofor (l_n_inputs l) (fun i so =>
     (x <- rd input i ;;
      let e := a_exp A (nsub Q (ndiv Q x (l_scale l)) (ndiv Q largest (l_scale l))) in
      out <- wr (snd so) i e ;;
      Ok (nadd Q (fst so) e, out))%out) (#0, l_output l) ;;
   out <- ofor (l_n_inputs l) (fun i out => modify_at out i (fun o => ndiv Q o (fst so))) (snd so) ;;
   Ok (set_output out l))%out.

(** neural_layer_softmax.c:141-152 and neural_layer_noise.c:153-164, the same code. *)
Definition pass_backward (l : layer T) (delta : option (list T)) : outcome (option (list T)) :=
  match delta with
  | Some dl =>
    (dl <- ofor (l_n_inputs l) (fun i dl => (d <- rd (l_delta l) i ;; modify_at dl i (fun x => nadd Q x d))%out) dl ;;
     Ok (Some dl))%out
  | None => Ok None
  end.

(** neural_layer_dropout.c:151-166 *)
Definition dropout_backward (l : layer T) (delta : option (list T)) : outcome (option (list T)) :=
  match delta with
  | Some dl =>
    (dl <- ofor (l_n_inputs l) (fun i dl =>
       (s <- rd (l_state l) i ;;
        if a_lt A s (l_probability l) then wr dl i #0
        else (d <- rd (l_delta l) i ;; modify_at dl i (fun x => nadd Q x (nmul Q d (l_scale l)))))%out) dl ;;
     Ok (Some dl))%out
  | None => Ok None
  end.

(** neural_layer_avgpool.c:128-141 *)
Definition avgpool_forward (l : layer T) (input : list T) : outcome (layer T) :=
  (n <- cint (l_height l * l_width l) ;;
   out <- ofor (l_channels l) (fun k out =>
     (out <- wr out k #0 ;;
      out <- ofor n (fun i out => (x <- rd input (i + n * k) ;; modify_at out k (fun o => nadd Q o x))%out) out ;;
      modify_at out k (fun o => ndiv Q o #n))%out) (l_output l) ;;
   Ok (set_output out l))%out.

(** neural_layer_avgpool.c:150-164 *)
Definition avgpool_backward (l : layer T) (delta : option (list T)) : outcome (option (list T)) :=
  match delta with
  | Some dl =>
    (n <- cint (l_height l * l_width l) ;;
     dl <- ofor (l_channels l) (fun k dl => ofor n (fun i dl =>
       (d <- rd (l_delta l) k ;; modify_at dl (i + n * k) (fun x => nadd Q x (ndiv Q d #n)))%out) dl) dl ;;
     Ok (Some dl))%out
  | None => Ok None
  end.

(** neural_layer_maxpool.c:142-168 *)
Definition max_pool (l : layer T) (input : list T) (i j k : Z) : outcome Z :=
  let w_offset := Z.quot (- l_pad l) 2 in
  let h_offset := w_offset in
  (r <- ofor (l_size l) (fun n r => ofor (l_size l) (fun m r =>
     let cur_h := h_offset + i * l_stride l + n in
     let cur_w := w_offset + j * l_stride l + m in
     let index := cur_w + l_width l * (cur_h + l_height l * k) in
     if (0 <=? cur_h) && (cur_h <? l_height l) && (0 <=? cur_w) && (cur_w <? l_width l) && (index <? l_n_inputs l)
     then (x <- rd input index ;; Ok (if a_lt A (fst r) x then (x, index) else r))%out
     else Ok r) r) (a_lowest A, -1) ;;
   if (snd r <? 0) || (l_n_inputs l <=? snd r) then Exit else Ok (snd r))%out.

(** neural_layer_maxpool.c:176-193 *)
Definition maxpool_forward (l : layer T) (input : list T) : outcome (layer T) :=
  (io <- ofor (l_channels l) (fun k io => ofor (l_out_h l) (fun i io => ofor (l_out_w l) (fun j io =>
     let out_index := j + l_out_w l * (i + l_out_h l * k) in
     if out_index <? l_n_outputs l then
       (max_index <- max_pool l input i j k ;;
        ix <- wr (fst io) out_index max_index ;;
        x <- rd input max_index ;;
        out <- wr (snd io) out_index x ;;
        Ok (ix, out))%out
     else Ok io) io) io) (l_indexes l, l_output l) ;;
   Ok (set_indexes (fst io) (set_output (snd io) l)))%out.

(** neural_layer_maxpool.c:202-213 *)
Definition maxpool_backward (l : layer T) (delta : option (list T)) : outcome (option (list T)) :=
  match delta with
  | Some dl =>
    (dl <- ofor (l_n_outputs l) (fun i dl =>
       (ix <- rd (l_indexes l) i ;; d <- rd (l_delta l) i ;; modify_at dl ix (fun x => nadd Q x d))%out) dl ;;
     Ok (Some dl))%out
  | None => Ok None
  end.

(** neural_layer_upsample.c:128-146 *)
Definition upsample_forward (l : layer T) (input : list T) : outcome (layer T) :=
  let w := l_width l in let h := l_height l in let c := l_channels l in let s := l_stride l in
  (out <- ofor c (fun k out => ofor (h * s) (fun j out => ofor (w * s) (fun i out =>
     let in_index := k * w * h + Z.quot j s * w + Z.quot i s in
     let out_index := k * w * h * s * s + j * w * s + i in
     (x <- rd input in_index ;; wr out out_index x)%out) out) out) (l_output l) ;;
   Ok (set_output out l))%out.

(** neural_layer_upsample.c:155-177 *)
Definition upsample_backward (l : layer T) (delta : option (list T)) : outcome (option (list T)) :=
  match delta with
  | Some dl =>
    let w := l_width l in let h := l_height l in let c := l_channels l in let s := l_stride l in
    (dl <- ofor c (fun k dl => ofor (h * s) (fun j dl => ofor (w * s) (fun i dl =>
       let in_index := k * w * h + Z.quot j s * w + Z.quot i s in
       let out_index := k * w * h * s * s + j * w * s + i in
       (d <- rd (l_delta l) out_index ;; modify_at dl in_index (fun x => nadd Q x d))%out) dl) dl) dl ;;
     Ok (Some dl))%out
  | None => Ok None
  end.

(** neural_layer.h layer_backward through the vtables.  The layer changes only in its error,
    updates and work space. *)
Definition layer_backward (l : layer T) (input : list T) (delta : option (list T))
  : outcome (layer T * option (list T)) :=
  let same (m : outcome (option (list T))) := (d <- m ;; Ok (l, d))%out in
  if l_type l =? CONNECTED then connected_backward l input delta
  else if l_type l =? DROPOUT then same (dropout_backward l delta)
  else if l_type l =? NOISE then same (pass_backward l delta)
  else if l_type l =? SOFTMAX then same (pass_backward l delta)
  else if l_type l =? MAXPOOL then same (maxpool_backward l delta)
  else if l_type l =? CONVOLUTIONAL then convolutional_backward l input delta
  else if l_type l =? AVGPOOL then same (avgpool_backward l delta)
  else if l_type l =? UPSAMPLE then same (upsample_backward l delta)
  else Exit.
Definition layer_update (l : layer T) : outcome (layer T) :=
  if (l_type l =? CONNECTED) || (l_type l =? CONVOLUTIONAL) then weights_update l else Ok l.
End Pass.

(** ** Construction *)

(** neural_layer_args.c:540-563 *)
Definition layer_args_opt (a : largs) : Z :=
  let bit (b : bool) (k : Z) := if b then 2 ^ k else 0 in
  Z.lor (bit (la_evolve_eta a) EVOLVE_ETA) (Z.lor (bit (la_sgd_weights a) SGD_WEIGHTS)
  (Z.lor (bit (la_evolve_weights a) EVOLVE_WEIGHTS) (Z.lor (bit (la_evolve_neurons a) EVOLVE_NEURONS)
  (Z.lor (bit (la_evolve_functions a) EVOLVE_FUNCTIONS) (bit (la_evolve_connect a) EVOLVE_CONNECT))))).

Section Ops.
Context (lm : libm).

(** neural_layer.c:398-406 *)
Definition layer_init_eta (l : layer f64) : RM (layer f64) :=
  if has l EVOLVE_ETA
  then (e <- rand_uniform (l_eta_min l) (l_eta_max l) ;; ret (set_eta e l))%rng
  else ret (set_eta (l_eta_max l) l).

(** for (i = from; i < to; ++i) l[i] = draw(); *)
Definition draw_range (from to : Z) (sd : f64) (w : list f64) : RM (list f64) :=
  rfor (to - from) (fun i w => (x <- rand_normal lm f0 sd ;; lift (wr w (from + i) x))%rng) w.

(** neural_layer_connected.c:48-62 *)
Definition connected_malloc (l : layer f64) : outcome (layer f64) :=
  (_ <- layer_guard_outputs l ;;
   _ <- layer_guard_weights l ;;
   Ok (set_state (zeros f0 (l_n_outputs l)) (set_output (zeros f0 (l_n_outputs l))
      (set_biases (zeros fnan (l_n_outputs l)) (set_bias_updates (zeros f0 (l_n_outputs l))
      (set_delta (zeros f0 (l_n_outputs l)) (set_weight_updates (zeros f0 (l_n_weights l))
      (set_active (zeros false (l_n_weights l)) (set_weights (zeros fnan (l_n_weights l))
      (set_mu (zeros fnan 6) l))))))))))%out.

(** neural_layer_connected.c:69-96 *)
Definition connected_init (a : largs) : RM (layer f64) :=
  (nw <- lift (cint (la_n_inputs a * la_n_init a)) ;;
   let l := set_options (layer_args_opt a) (set_function (la_function a) (set_n_inputs (la_n_inputs a)
     (set_n_outputs (la_n_init a) (set_max_outputs (la_n_max a) (set_out_w (la_n_init a) (set_out_h 1 (set_out_c 1
     (set_n_weights nw (set_n_biases (la_n_init a) (set_n_active nw (set_eta_max (la_eta a) (set_eta_min (la_eta_min a)
     (set_momentum (la_momentum a) (set_grow (la_grow a) (set_decay (la_decay a)
     (set_type CONNECTED layer_defaults)))))))))))))))) in
   l <- layer_init_eta l ;;
   l <- lift (connected_malloc l) ;;
   w <- draw_range 0 nw WEIGHT_SD_INIT (l_weights l) ;;
   mu <- sam_init layer_mu_type ;;
   ret (set_weights w (set_active (zeros true nw) (set_biases (zeros f0 (la_n_init a)) (set_mu mu l)))))%rng.

(** neural_layer_connected.c:121-155 *)
Definition connected_copy (src : layer f64) : outcome (layer f64) :=
  if negb (l_type src =? CONNECTED) then Exit
  else
    (l <- connected_malloc (set_temp [] (set_indexes [] (set_scale f0 (set_probability f0 (set_height 0 (set_width 0
            (set_channels 0 (set_pad 0 (set_size 0 (set_stride 0 (set_n_filters 0 src))))))))))) ;;
     b <- copy_n (l_n_biases src) (l_biases src) (l_biases l) ;;
     w <- copy_n (l_n_weights src) (l_weights src) (l_weights l) ;;
     wa <- copy_n (l_n_weights src) (l_active src) (l_active l) ;;
     mu <- copy_n 6 (l_mu src) (l_mu l) ;;
     Ok (set_biases b (set_weights w (set_active wa (set_mu mu l)))))%out.

(** neural_layer.c:347-358 *)
Definition layer_weight_rand (l : layer f64) : RM (layer f64) :=
  (w <- rfor (l_n_weights l) (fun i wa =>
     (x <- rand_normal lm f0 WEIGHT_SD_RAND ;;
      w <- lift (wr (fst wa) i x) ;;
      a <- lift (wr (snd wa) i true) ;; ret (w, a))%rng) (l_weights l, l_active l) ;;
   b <- rfor (l_n_biases l) (fun i b => (x <- rand_normal lm f0 WEIGHT_SD_RAND ;; lift (wr b i x))%rng) (l_biases l) ;;
   ret (set_n_active (l_n_weights l) (set_weights (fst w) (set_active (snd w) (set_biases b l)))))%rng.

(** neural_layer.c:383-392 *)
Definition count_active (n : Z) (wa : list bool) : outcome Z :=
  ofor n (fun i c => (a <- rd wa i ;; Ok (if a : bool then c + 1 else c))%out) 0.
Definition layer_calc_n_active (l : layer f64) : outcome (layer f64) :=
  (c <- count_active (l_n_weights l) (l_active l) ;; Ok (set_n_active c l))%out.

(** ** Mutation *)

(** neural_layer.c:87-97 *)
Definition layer_mutate_eta (l : layer f64) (mu : f64) : RM (layer f64 * bool) :=
  let orig := l_eta l in
  (x <- rand_normal lm f0 mu ;;
   let e := clamp (fadd (l_eta l) x) (l_eta_min l) (l_eta_max l) in
   ret (set_eta e l, fne e orig))%rng.

(** neural_layer.c:110-113: the loop drawing a non-zero number of neurons.  [fuel] bounds the
    number of draws; running out of it is an error outcome. *)
Fixpoint draw_step (fuel : nat) (grow : Z) : RM Z :=
  match fuel with
  | O => rfuel
  | S f =>
    (x <- rand_normal lm f0 fhalf ;;
     let m := clamp x (of_Z (-1)) f1 in
     match to_int (fround (fmul m (of_Z grow))) with
     | Some n => if n =? 0 then draw_step f grow else ret n
     | None => rub BadCast
     end)%rng
  end.

(** neural_layer.c:105-121, and neural_layer_convolutional.c:393-409 with the number of
    filters for the number of outputs: the step added to the current number [cur]. *)
Definition mutate_count (fuel : nat) (cur max grow : Z) (mu : f64) : RM Z :=
  (u <- rand_uniform f0 (lit 1 10) ;;
   if flt u mu then
     (n <- draw_step fuel grow ;;
      s <- lift (cint (cur + n)) ;;
      if s <? 1 then ret (- (cur - 1)) else if max <? s then ret (max - cur) else ret n)%rng
   else ret 0)%rng.
Definition layer_mutate_neurons (fuel : nat) (l : layer f64) (mu : f64) : RM Z :=
  mutate_count fuel (l_n_outputs l) (l_max_outputs l) (l_grow l) mu.

(** neural_layer.c:129-166 *)
Definition layer_add_neurons (l : layer f64) (N : Z) : RM (layer f64) :=
  let old_n_outputs := l_n_outputs l in
  let old_n_weights := l_n_weights l in
  (no <- lift (cint (l_n_outputs l + N)) ;;
   nw <- lift (cint (no * l_n_inputs l)) ;;
   let l := set_n_outputs no (set_n_biases no (set_n_weights nw l)) in
   _ <- lift (layer_guard_outputs l) ;;
   _ <- lift (layer_guard_weights l) ;;
   let weights := realloc fnan nw (l_weights l) in
   let active := realloc false nw (l_active l) in
   let wu := realloc fnan nw (l_weight_updates l) in
   ww <- rfor (nw - old_n_weights) (fun i ww =>
     let i := old_n_weights + i in
     (off <- (if has l EVOLVE_CONNECT then (u <- rand_uniform f0 f1 ;; ret (flt u fhalf))%rng else ret false) ;;
      wa <- (if off : bool
             then (w <- lift (wr (fst (fst ww)) i f0) ;; a <- lift (wr (snd (fst ww)) i false) ;; ret (w, a))%rng
             else (x <- rand_normal lm f0 WEIGHT_SD ;; w <- lift (wr (fst (fst ww)) i x) ;;
                   a <- lift (wr (snd (fst ww)) i true) ;; ret (w, a))%rng) ;;
      u <- lift (wr (snd ww) i f0) ;;
      ret (wa, u))%rng) (weights, active, wu) ;;
   let zero_new (a : list f64) := ofor (no - old_n_outputs) (fun i a => wr a (old_n_outputs + i) f0) (realloc fnan no a) in
   biases <- lift (zero_new (l_biases l)) ;;
   bu <- lift (zero_new (l_bias_updates l)) ;;
   output <- lift (zero_new (l_output l)) ;;
   state <- lift (zero_new (l_state l)) ;;
   delta <- lift (zero_new (l_delta l)) ;;
   lift (layer_calc_n_active (set_weights (fst (fst ww)) (set_active (snd (fst ww)) (set_weight_updates (snd ww)
     (set_biases biases (set_bias_updates bu (set_output output (set_state state (set_delta delta l))))))))))%rng.

(** neural_layer.c:175-196 *)
Definition layer_mutate_connectivity (l : layer f64) (mu_enable mu_disable : f64) : RM (layer f64 * bool) :=
  if (1 <? l_n_inputs l) && (1 <? l_n_outputs l) then
    (r <- rfor (l_n_weights l) (fun i (r : layer f64 * bool) =>
       let l := fst r in
       (a <- lift (rd (l_active l) i) ;;
        u <- rand_uniform f0 f1 ;;
        if negb a then
          if flt u mu_enable then
            (wa <- lift (wr (l_active l) i true) ;;
             x <- rand_normal lm f0 WEIGHT_SD ;;
             w <- lift (wr (l_weights l) i x) ;;
             ret (set_active wa (set_weights w (set_n_active (l_n_active l + 1) l)), true))%rng
          else ret r
        else
          if flt u mu_disable then
            (wa <- lift (wr (l_active l) i false) ;;
             w <- lift (wr (l_weights l) i f0) ;;
             ret (set_active wa (set_weights w (set_n_active (l_n_active l - 1) l)), true))%rng
          else ret r)%rng) (l, false) ;;
     ret r)%rng
  else ret (l, false).

(** neural_layer.c:228-239: the loop adding a connection to an unused input [i].  [fuel] bounds
    the draws. *)
Fixpoint connect_input (fuel : nat) (i : Z) (l : layer f64) : RM (layer f64) :=
  match fuel with
  | O => rfuel
  | S f =>
    (r <- rand_uniform_int 0 (l_n_outputs l) ;;
     let offset := l_n_inputs l * r in
     a <- lift (rd (l_active l) (offset + i)) ;;
     if negb a then
       (x <- rand_normal lm f0 WEIGHT_SD ;;
        w <- lift (wr (l_weights l) (offset + i) x) ;;
        wa <- lift (wr (l_active l) (offset + i) true) ;;
        ret (set_weights w (set_active wa (set_n_active (l_n_active l + 1) l))))%rng
     else connect_input f i l)%rng
  end.

(** neural_layer.c:203-241 *)
Definition layer_ensure_input_representation (fuel : nat) (l : layer f64) : RM (layer f64) :=
  (l <- rfor (l_n_outputs l) (fun i l =>
     let offset := l_n_inputs l * i in
     (active <- lift (ofor (l_n_inputs l) (fun j c =>
        (a <- rd (l_active l) (offset + j) ;; Ok (if a : bool then c + 1 else c))%out) 0) ;;
      if active <? 1 then
        (r <- rand_uniform_int 0 (l_n_inputs l) ;;
         x <- rand_normal lm f0 WEIGHT_SD ;;
         w <- lift (wr (l_weights l) (offset + r) x) ;;
         wa <- lift (wr (l_active l) (offset + r) true) ;;
         ret (set_weights w (set_active wa (set_n_active (l_n_active l + 1) l))))%rng
      else ret l)%rng) l ;;
   rfor (l_n_inputs l) (fun i l =>
     (active <- lift (ofor (l_n_outputs l) (fun j c =>
        (a <- rd (l_active l) (l_n_inputs l * j + i) ;; Ok (if a : bool then c + 1 else c))%out) 0) ;;
      if active <? 1 then connect_input fuel i l else ret l)%rng) l)%rng.

(** neural_layer.c:251-274 *)
Definition mutate_one (mu : f64) (i : Z) (wm : list f64 * bool) : RM (list f64 * bool) :=
  (orig <- lift (rd (fst wm) i) ;;
   x <- rand_normal lm f0 mu ;;
   let v := clamp (fadd orig x) (of_Z WEIGHT_MIN) (of_Z WEIGHT_MAX) in
   w <- lift (wr (fst wm) i v) ;;
   ret (w, snd wm || fne v orig))%rng.
Definition layer_mutate_weights (l : layer f64) (mu : f64) : RM (layer f64 * bool) :=
  (wm <- rfor (l_n_weights l) (fun i wm =>
     (a <- lift (rd (l_active l) i) ;; if a : bool then mutate_one mu i wm else ret wm)%rng) (l_weights l, false) ;;
   bm <- rfor (l_n_biases l) (mutate_one mu) (l_biases l, snd wm) ;;
   ret (set_weights (fst wm) (set_biases (fst bm) l), snd bm))%rng.

(** neural_layer.c:282-301, without the second draw of LSTM layers. *)
Definition layer_mutate_functions (l : layer f64) (mu : f64) : RM (layer f64 * bool) :=
  (u <- rand_uniform f0 f1 ;;
   if flt u mu then
     (f <- rand_uniform_int 0 NUM_ACTIVATIONS ;; ret (set_function f l, negb (f =? l_function l)))%rng
   else ret (l, false))%rng.

(** neural_layer_connected.c:291-320 *)
Definition connected_mutate (fuel : nat) (l : layer f64) : RM (layer f64 * bool) :=
  (mu <- sam_adapt lm layer_mu_type (l_mu l) ;;
   let l := set_mu mu l in
   ' (l, mod0) <- (if has l EVOLVE_ETA then (m <- lift (rd mu 0) ;; layer_mutate_eta l m)%rng else ret (l, false)) ;;
   ' (l, mod1) <- (if has l EVOLVE_NEURONS then
       (m <- lift (rd mu 1) ;;
        n <- layer_mutate_neurons fuel l m ;;
        if n =? 0 then ret (l, false) else (l <- layer_add_neurons l n ;; ret (l, true))%rng)%rng
     else ret (l, false)) ;;
   ' (l, mod2) <- (if has l EVOLVE_CONNECT then
       (m2 <- lift (rd mu 2) ;; m3 <- lift (rd mu 3) ;;
        ' (l, b) <- layer_mutate_connectivity l m2 m3 ;;
        if b : bool then (l <- layer_ensure_input_representation fuel l ;; ret (l, true))%rng else ret (l, false))%rng
     else ret (l, false)) ;;
   ' (l, mod3) <- (if has l EVOLVE_WEIGHTS then (m <- lift (rd mu 4) ;; layer_mutate_weights l m)%rng else ret (l, false)) ;;
   ' (l, mod4) <- (if has l EVOLVE_FUNCTIONS then (m <- lift (rd mu 5) ;; layer_mutate_functions l m)%rng else ret (l, false)) ;;
   ret (l, mod0 || mod1 || mod2 || mod3 || mod4))%rng.

(** neural_layer_connected.c:245-284; [pn] is the number of outputs of the previous layer. *)
Definition connected_resize (fuel : nat) (l : layer f64) (pn : Z) : RM (layer f64) :=
  (nw <- lift (cint (pn * l_n_outputs l)) ;;
   _ <- lift (guard nw N_WEIGHTS_MAX) ;;
   r <- rfor (l_n_outputs l) (fun i r =>
     let orig_offset := i * l_n_inputs l in
     let offset := i * pn in
     rfor pn (fun j (r : list f64 * list f64 * list bool) =>
       let '(w, u, a) := r in
       if j <? l_n_inputs l then
         lift (wx <- rd (l_weights l) (orig_offset + j) ;; w <- wr w (offset + j) wx ;;
               ux <- rd (l_weight_updates l) (orig_offset + j) ;; u <- wr u (offset + j) ux ;;
               ax <- rd (l_active l) (orig_offset + j) ;; a <- wr a (offset + j) ax ;; Ok (w, u, a))%out
       else
         (x <- rand_normal lm f0 WEIGHT_SD ;;
          lift (w <- wr w (offset + j) x ;; u <- wr u (offset + j) f0 ;; a <- wr a (offset + j) true ;; Ok (w, u, a))%out)%rng) r)
     (zeros fnan nw, zeros fnan nw, zeros false nw) ;;
   l <- lift (layer_calc_n_active (set_weights (fst (fst r)) (set_weight_updates (snd (fst r)) (set_active (snd r)
                (set_n_weights nw (set_n_inputs pn l)))))) ;;
   if has l EVOLVE_CONNECT then layer_ensure_input_representation fuel l else ret l)%rng.

(** ** Convolutional layers *)

(** neural_layer_convolutional.c:72-83: the number of doubles in the workspace (size_t
    arithmetic wraps). *)
Definition workspace_len {T} (l : layer T) : outcome Z :=
  let bytes := (l_out_h l * l_out_w l * l_size l * l_size l * l_channels l * 8) mod 2 ^ 64 in
  if bytes <? 1 then Exit else Ok (bytes / 8).
Definition conv_guard {T} (l : layer T) : outcome unit :=
  (_ <- layer_guard_biases l ;; _ <- layer_guard_outputs l ;; layer_guard_weights l)%out.

(** neural_layer_convolutional.c:101-115 *)
Definition conv_malloc (l : layer f64) : outcome (layer f64) :=
  (_ <- conv_guard l ;;
   ws <- workspace_len l ;;
   Ok (set_delta (zeros f0 (l_n_outputs l)) (set_state (zeros f0 (l_n_outputs l)) (set_output (zeros f0 (l_n_outputs l))
      (set_weights (zeros fnan (l_n_weights l)) (set_weight_updates (zeros f0 (l_n_weights l))
      (set_active (zeros false (l_n_weights l)) (set_biases (zeros fnan (l_n_biases l))
      (set_bias_updates (zeros f0 (l_n_biases l)) (set_temp (zeros fnan ws) (set_mu (zeros fnan 6) l)))))))))))%out.

(** neural_layer_convolutional.c:121-135 *)
Definition conv_realloc (l : layer f64) : outcome (layer f64) :=
  (_ <- conv_guard l ;;
   ws <- workspace_len l ;;
   Ok (set_delta (realloc fnan (l_n_outputs l) (l_delta l)) (set_state (realloc fnan (l_n_outputs l) (l_state l))
      (set_output (realloc fnan (l_n_outputs l) (l_output l)) (set_weights (realloc fnan (l_n_weights l) (l_weights l))
      (set_weight_updates (realloc fnan (l_n_weights l) (l_weight_updates l))
      (set_active (realloc false (l_n_weights l) (l_active l)) (set_biases (realloc fnan (l_n_biases l) (l_biases l))
      (set_bias_updates (realloc fnan (l_n_biases l) (l_bias_updates l)) (set_temp (realloc fnan ws (l_temp l)) l))))))))))%out.

(** neural_layer_convolutional.c:161-195 *)
Definition convolutional_init (a : largs) : RM (layer f64) :=
  (nw <- lift (cprod (la_channels a) [la_n_init a; la_size a; la_size a]) ;;
   oh <- lift (conv_out (la_height a) (la_pad a) (la_size a) (la_stride a)) ;;
   ow <- lift (conv_out (la_width a) (la_pad a) (la_size a) (la_stride a)) ;;
   ni <- lift (cprod (la_width a) [la_height a; la_channels a]) ;;
   no <- lift (cprod oh [ow; la_n_init a]) ;;
   let l := set_options (layer_args_opt a) (set_function (la_function a) (set_height (la_height a) (set_width (la_width a)
     (set_channels (la_channels a) (set_n_filters (la_n_init a) (set_max_outputs (la_n_max a) (set_stride (la_stride a)
     (set_size (la_size a) (set_pad (la_pad a) (set_grow (la_grow a) (set_eta_max (la_eta a) (set_eta_min (la_eta_min a)
     (set_momentum (la_momentum a) (set_decay (la_decay a) (set_n_biases (la_n_init a) (set_n_weights nw (set_n_active nw
     (set_out_h oh (set_out_w ow (set_out_c (la_n_init a) (set_n_inputs ni (set_n_outputs no
     (set_type CONVOLUTIONAL layer_defaults))))))))))))))))))))))) in
   l <- layer_init_eta l ;;
   l <- lift (conv_malloc l) ;;
   w <- draw_range 0 nw WEIGHT_SD_INIT (l_weights l) ;;
   mu <- sam_init layer_mu_type ;;
   ret (set_weights w (set_active (zeros true nw) (set_biases (zeros f0 (la_n_init a)) (set_mu mu l)))))%rng.

(** neural_layer_convolutional.c:202-243 *)
Definition convolutional_copy (src : layer f64) : outcome (layer f64) :=
  if negb (l_type src =? CONVOLUTIONAL) then Exit
  else
    (l <- conv_malloc (set_indexes [] (set_scale f0 (set_probability f0 src))) ;;
     w <- copy_n (l_n_weights src) (l_weights src) (l_weights l) ;;
     wa <- copy_n (l_n_weights src) (l_active src) (l_active l) ;;
     b <- copy_n (l_n_biases src) (l_biases src) (l_biases l) ;;
     mu <- copy_n 6 (l_mu src) (l_mu l) ;;
     Ok (set_biases b (set_weights w (set_active wa (set_mu mu l)))))%out.

(** The loops of neural_layer_convolutional.c:360-385 and 417-444 filling the new elements. *)
Definition zero_from (from to : Z) (a : list f64) : outcome (list f64) :=
  ofor (to - from) (fun i a => wr a (from + i) f0) a.
Definition new_weights (from to : Z) (l : layer f64) : RM (layer f64) :=
  (r <- rfor (to - from) (fun i (r : list f64 * list bool * list f64) =>
     let '(w, a, u) := r in
     (x <- rand_normal lm f0 WEIGHT_SD ;;
      lift (w <- wr w (from + i) x ;; a <- wr a (from + i) true ;; u <- wr u (from + i) f0 ;; Ok (w, a, u))%out)%rng)
     (l_weights l, l_active l, l_weight_updates l) ;;
   ret (set_weights (fst (fst r)) (set_active (snd (fst r)) (set_weight_updates (snd r) l))))%rng.
Definition zero_outputs (from to : Z) (l : layer f64) : outcome (layer f64) :=
  (o <- zero_from from to (l_output l) ;; s <- zero_from from to (l_state l) ;; d <- zero_from from to (l_delta l) ;;
   Ok (set_output o (set_state s (set_delta d l))))%out.

(** neural_layer_convolutional.c:360-385 *)
Definition convolutional_resize (l : layer f64) (pw ph pc : Z) : RM (layer f64) :=
  let old_n_outputs := l_n_outputs l in
  let old_n_weights := l_n_weights l in
  (ow <- lift (conv_out pw (l_pad l) (l_size l) (l_stride l)) ;;
   oh <- lift (conv_out ph (l_pad l) (l_size l) (l_stride l)) ;;
   no <- lift (cprod oh [ow; l_out_c l]) ;;
   ni <- lift (cprod pw [ph; pc]) ;;
   nw <- lift (cprod pc [l_n_filters l; l_size l; l_size l]) ;;
   let l := set_width pw (set_height ph (set_channels pc (set_out_w ow (set_out_h oh (set_n_outputs no
     (set_n_inputs ni (set_n_weights nw l))))))) in
   l <- lift (conv_realloc l) ;;
   l <- new_weights old_n_weights nw l ;;
   l <- lift (zero_outputs old_n_outputs no l) ;;
   lift (layer_calc_n_active l))%rng.

(** neural_layer_convolutional.c:417-444 *)
Definition convolutional_add_filters (l : layer f64) (N : Z) : RM (layer f64) :=
  let old_n_biases := l_n_biases l in
  let old_n_weights := l_n_weights l in
  let old_n_outputs := l_n_outputs l in
  (nf <- lift (cint (l_n_filters l + N)) ;;
   nw <- lift (cprod (l_channels l) [nf; l_size l; l_size l]) ;;
   no <- lift (cprod (l_out_h l) [l_out_w l; nf]) ;;
   let l := set_n_filters nf (set_n_biases nf (set_out_c nf (set_n_weights nw (set_n_outputs no l)))) in
   l <- lift (conv_realloc l) ;;
   l <- new_weights old_n_weights nw l ;;
   b <- lift (zero_from old_n_biases nf (l_biases l)) ;;
   bu <- lift (zero_from old_n_biases nf (l_bias_updates l)) ;;
   l <- lift (zero_outputs old_n_outputs no (set_biases b (set_bias_updates bu l))) ;;
   lift (layer_calc_n_active l))%rng.

(** neural_layer_convolutional.c:451-479 *)
Definition convolutional_mutate (fuel : nat) (l : layer f64) : RM (layer f64 * bool) :=
  (mu <- sam_adapt lm layer_mu_type (l_mu l) ;;
   let l := set_mu mu l in
   ' (l, mod0) <- (if has l EVOLVE_ETA then (m <- lift (rd mu 0) ;; layer_mutate_eta l m)%rng else ret (l, false)) ;;
   ' (l, mod1) <- (if has l EVOLVE_NEURONS then
       (m <- lift (rd mu 1) ;;
        n <- mutate_count fuel (l_n_filters l) (l_max_outputs l) (l_grow l) m ;;
        if n =? 0 then ret (l, false) else (l <- convolutional_add_filters l n ;; ret (l, true))%rng)%rng
     else ret (l, false)) ;;
   ' (l, mod2) <- (if has l EVOLVE_CONNECT then
       (m2 <- lift (rd mu 2) ;; m3 <- lift (rd mu 3) ;; layer_mutate_connectivity l m2 m3)%rng
     else ret (l, false)) ;;
   ' (l, mod3) <- (if has l EVOLVE_WEIGHTS then (m <- lift (rd mu 4) ;; layer_mutate_weights l m)%rng else ret (l, false)) ;;
   ' (l, mod4) <- (if has l EVOLVE_FUNCTIONS then (m <- lift (rd mu 5) ;; layer_mutate_functions l m)%rng else ret (l, false)) ;;
   ret (l, mod0 || mod1 || mod2 || mod3 || mod4))%rng.

(** ** Layers without weights *)

(** malloc_layer_arrays of the layers without weights: output and delta always, state for
    dropout and noise, indexes for max pooling. *)
Definition plain_malloc (l : layer f64) : outcome (layer f64) :=
  (_ <- layer_guard_outputs l ;;
   let n := l_n_outputs l in
   Ok (set_output (zeros f0 n) (set_delta (zeros f0 n)
      (set_state (if (l_type l =? DROPOUT) || (l_type l =? NOISE) then zeros f0 n else l_state l)
      (set_indexes (if l_type l =? MAXPOOL then zeros 0 n else l_indexes l) l)))))%out.

(** neural_layer_softmax.c:56-67 *)
Definition softmax_init (a : largs) : outcome (layer f64) :=
  plain_malloc (set_scale (la_scale a) (set_n_inputs (la_n_inputs a) (set_n_outputs (la_n_inputs a)
    (set_max_outputs (la_n_inputs a) (set_out_w (la_n_inputs a) (set_out_c 1 (set_out_h 1
    (set_type SOFTMAX layer_defaults)))))))).
(** neural_layer_dropout.c:58-70 *)
Definition dropout_init (a : largs) : outcome (layer f64) :=
  plain_malloc (set_n_inputs (la_n_inputs a) (set_n_outputs (la_n_inputs a) (set_max_outputs (la_n_inputs a)
    (set_probability (la_probability a) (set_scale (fdiv f1 (fsub f1 (la_probability a)))
    (set_out_c (la_channels a) (set_out_w (la_width a) (set_out_h (la_height a) (set_type DROPOUT layer_defaults))))))))).
(** neural_layer_noise.c:58-70 *)
Definition noise_init (a : largs) : outcome (layer f64) :=
  plain_malloc (set_n_inputs (la_n_inputs a) (set_n_outputs (la_n_inputs a) (set_max_outputs (la_n_inputs a)
    (set_probability (la_probability a) (set_scale (la_scale a)
    (set_out_c (la_channels a) (set_out_w (la_width a) (set_out_h (la_height a) (set_type NOISE layer_defaults))))))))).
(** neural_layer_avgpool.c:68-81 *)
Definition avgpool_init (a : largs) : outcome (layer f64) :=
  (ni <- cprod (la_height a) [la_width a; la_channels a] ;;
   plain_malloc (set_height (la_height a) (set_width (la_width a) (set_channels (la_channels a) (set_out_w 1 (set_out_h 1
     (set_out_c (la_channels a) (set_n_outputs (la_channels a) (set_max_outputs (la_channels a) (set_n_inputs ni
     (set_type AVGPOOL layer_defaults)))))))))))%out.
(** (dim + pad - size) / stride + 1; neural_layer_maxpool.c:69-70 *)
Definition pool_out (dim pad size stride : Z) : outcome Z :=
  (s <- cint (dim + pad) ;; s <- cint (s - size) ;; q <- cdiv s stride ;; cint (q + 1))%out.
(** neural_layer_maxpool.c:60-76 *)
Definition maxpool_init (a : largs) : outcome (layer f64) :=
  (ow <- pool_out (la_width a) (la_pad a) (la_size a) (la_stride a) ;;
   oh <- pool_out (la_height a) (la_pad a) (la_size a) (la_stride a) ;;
   no <- cprod oh [ow; la_channels a] ;;
   ni <- cprod (la_height a) [la_width a; la_channels a] ;;
   plain_malloc (set_height (la_height a) (set_width (la_width a) (set_channels (la_channels a) (set_pad (la_pad a)
     (set_size (la_size a) (set_stride (la_stride a) (set_out_w ow (set_out_h oh (set_out_c (la_channels a)
     (set_n_outputs no (set_max_outputs no (set_n_inputs ni (set_type MAXPOOL layer_defaults))))))))))))))%out.
(** neural_layer_upsample.c:66-80 *)
Definition upsample_init (a : largs) : outcome (layer f64) :=
  (ow <- cint (la_width a * la_stride a) ;;
   oh <- cint (la_height a * la_stride a) ;;
   no <- cprod oh [ow; la_channels a] ;;
   ni <- cprod (la_height a) [la_width a; la_channels a] ;;
   plain_malloc (set_height (la_height a) (set_width (la_width a) (set_channels (la_channels a) (set_stride (la_stride a)
     (set_out_c (la_channels a) (set_out_w ow (set_out_h oh (set_n_outputs no (set_max_outputs no (set_n_inputs ni
     (set_type UPSAMPLE layer_defaults))))))))))))%out.

(** The copies of the layers without weights: neural_layer_softmax.c:74-94,
    neural_layer_dropout.c:87-108, neural_layer_noise.c:77-98, neural_layer_avgpool.c:88-110,
    neural_layer_maxpool.c:83-108, neural_layer_upsample.c:87-110.  Each takes over every field
    its own type uses and allocates new arrays. *)
Definition plain_copy (src : layer f64) : outcome (layer f64) :=
  if l_type src =? DROPOUT then plain_malloc (set_n_outputs (l_n_inputs src) src) else plain_malloc src.

(** neural_layer_dropout.c:126-142 *)
Definition dropout_forward (train : bool) (l : layer f64) (input : list f64) : RM (layer f64) :=
  if negb train then (o <- lift (copy_n (l_n_inputs l) input (l_output l)) ;; ret (set_output o l))%rng
  else
    (so <- rfor (l_n_inputs l) (fun i so =>
       (u <- rand_uniform f0 f1 ;;
        s <- lift (wr (fst so) i u) ;;
        if flt u (l_probability l) then (o <- lift (wr (snd so) i f0) ;; ret (s, o))%rng
        else (x <- lift (rd input i) ;; o <- lift (wr (snd so) i (fmul x (l_scale l))) ;; ret (s, o))%rng)%rng)
       (l_state l, l_output l) ;;
     ret (set_state (fst so) (set_output (snd so) l)))%rng.

(** neural_layer_noise.c:126-144 *)
Definition noise_forward (train : bool) (l : layer f64) (input : list f64) : RM (layer f64) :=
  if negb train then (o <- lift (copy_n (l_n_inputs l) input (l_output l)) ;; ret (set_output o l))%rng
  else
    (so <- rfor (l_n_inputs l) (fun i so =>
       (u <- rand_uniform f0 f1 ;;
        s <- lift (wr (fst so) i u) ;;
        x <- lift (rd input i) ;;
        v <- (if flt u (l_probability l) then (z <- rand_normal lm f0 (l_scale l) ;; ret (fadd x z))%rng else ret x) ;;
        o <- lift (wr (snd so) i v) ;;
        ret (s, o))%rng) (l_state l, l_output l) ;;
     ret (set_state (fst so) (set_output (snd so) l)))%rng.

(** The resize functions of the layers without weights; [pn], [pw], [ph], [pc] are n_outputs,
    out_w, out_h and out_c of the previous layer.  neural_layer_softmax.c:216-227,
    neural_layer_dropout.c:195-206, neural_layer_noise.c:193-204. *)
Definition flat_resize (l : layer f64) (pn pw ph pc : Z) : outcome (layer f64) :=
  let l := set_n_inputs pn (set_n_outputs pn (set_max_outputs pn l)) in
  plain_malloc (if l_type l =? SOFTMAX then set_out_w pn (set_out_h 1 (set_out_c 1 l))
                else set_out_w pw (set_out_h ph (set_out_c pc l))).
(** realloc_layer_arrays of neural_layer_avgpool.c:44-50 and neural_layer_maxpool.c:46-53 *)
Definition pool_realloc (l : layer f64) : outcome (layer f64) :=
  (_ <- layer_guard_outputs l ;;
   Ok (set_output (realloc fnan (l_n_outputs l) (l_output l)) (set_delta (realloc fnan (l_n_outputs l) (l_delta l))
      (set_indexes (if l_type l =? MAXPOOL then realloc 0 (l_n_outputs l) (l_indexes l) else l_indexes l) l))))%out.
(** neural_layer_avgpool.c:193-207 *)
Definition avgpool_resize (l : layer f64) (pw ph pc : Z) : outcome (layer f64) :=
  (ni <- cprod ph [pw; pc] ;;
   pool_realloc (set_height ph (set_width pw (set_channels pc (set_out_c pc (set_n_outputs pc (set_max_outputs pc
     (set_n_inputs ni l))))))))%out.
(** neural_layer_maxpool.c:242-258 *)
Definition maxpool_resize (l : layer f64) (pw ph pc : Z) : outcome (layer f64) :=
  (ni <- cprod ph [pw; pc] ;;
   ow <- pool_out pw (l_pad l) (l_size l) (l_stride l) ;;
   oh <- pool_out ph (l_pad l) (l_size l) (l_stride l) ;;
   no <- cprod oh [ow; pc] ;;
   pool_realloc (set_height ph (set_width pw (set_channels pc (set_n_inputs ni (set_out_w ow (set_out_h oh (set_out_c pc
     (set_n_outputs no (set_max_outputs no l))))))))))%out.
(** neural_layer_upsample.c:206-220 *)
Definition upsample_resize (l : layer f64) (pw ph pc : Z) : outcome (layer f64) :=
  (ow <- cint (pw * l_stride l) ;;
   oh <- cint (ph * l_stride l) ;;
   ni <- cprod ph [pw; pc] ;;
   no <- cprod oh [ow; pc] ;;
   plain_malloc (set_width pw (set_height ph (set_channels pc (set_out_c pc (set_out_w ow (set_out_h oh (set_n_inputs ni
     (set_n_outputs no (set_max_outputs no l))))))))))%out.

(** ** Dispatch through the vtables (neural_layer.h:136-330, layer_set_vptr in
    neural_layer.c:41-79; recurrent and LSTM layers are outside the model and rejected) *)
Definition layer_init (a : largs) : RM (layer f64) :=
  if la_type a =? CONNECTED then connected_init a
  else if la_type a =? DROPOUT then lift (dropout_init a)
  else if la_type a =? NOISE then lift (noise_init a)
  else if la_type a =? SOFTMAX then lift (softmax_init a)
  else if la_type a =? MAXPOOL then lift (maxpool_init a)
  else if la_type a =? CONVOLUTIONAL then convolutional_init a
  else if la_type a =? AVGPOOL then lift (avgpool_init a)
  else if la_type a =? UPSAMPLE then lift (upsample_init a)
  else rexit.
Definition layer_copy (src : layer f64) : outcome (layer f64) :=
  if l_type src =? CONNECTED then connected_copy src
  else if l_type src =? CONVOLUTIONAL then convolutional_copy src
  else plain_copy src.
Definition layer_rand (l : layer f64) : RM (layer f64) :=
  if (l_type l =? CONNECTED) || (l_type l =? CONVOLUTIONAL) then layer_weight_rand l else ret l.
Definition layer_forward (train : bool) (l : layer f64) (input : list f64) : RM (layer f64) :=
  if l_type l =? CONNECTED then lift (connected_forward (f64_arith lm) l input)
  else if l_type l =? DROPOUT then dropout_forward train l input
  else if l_type l =? NOISE then noise_forward train l input
  else if l_type l =? SOFTMAX then lift (softmax_forward (f64_arith lm) l input)
  else if l_type l =? MAXPOOL then lift (maxpool_forward (f64_arith lm) l input)
  else if l_type l =? CONVOLUTIONAL then lift (convolutional_forward (f64_arith lm) l input)
  else if l_type l =? AVGPOOL then lift (avgpool_forward (f64_arith lm) l input)
  else if l_type l =? UPSAMPLE then lift (upsample_forward l input)
  else rexit.
Definition layer_mutate (fuel : nat) (l : layer f64) : RM (layer f64 * bool) :=
  if l_type l =? CONNECTED then connected_mutate fuel l
  else if l_type l =? CONVOLUTIONAL then convolutional_mutate fuel l
  else ret (l, false).
Definition layer_resize (fuel : nat) (l prev : layer f64) : RM (layer f64) :=
  let pn := l_n_outputs prev in
  let pw := l_out_w prev in let ph := l_out_h prev in let pc := l_out_c prev in
  if l_type l =? CONNECTED then connected_resize fuel l pn
  else if l_type l =? CONVOLUTIONAL then convolutional_resize l pw ph pc
  else if l_type l =? AVGPOOL then lift (avgpool_resize l pw ph pc)
  else if l_type l =? MAXPOOL then lift (maxpool_resize l pw ph pc)
  else if l_type l =? UPSAMPLE then lift (upsample_resize l pw ph pc)
  else lift (flat_resize l pn pw ph pc).
End Ops.
