(** * The class that the tests of EinMix look into

    einops/layers/_einmix.py:215-229 (_EinmixDebugger): a subclass of the mixin whose methods
    only keep what the mixin hands to them. *)
From Verif Require Import Py Tensor Parsing Recipe Ops Backends Api Einsum Layers EinMix.

(** the attributes of a _EinmixDebugger: what the methods at 218-229 save, and the
    einsum pattern (_einmix.py:183-187).  post_reshape_lengths is always the empty dict
    (_einmix.py:109) *)
Record debugged := mkDebugged {
  db_pre : option (pystr * list (pystr * Z));   (* pre_reshape_pattern, pre_reshape_lengths *)
  db_post : option pystr;                       (* post_reshape_pattern *)
  db_post_lengths : list (pystr * Z);           (* post_reshape_lengths *)
  db_weight : list Z;                           (* saved_weight_shape *)
  db_bias : option (list Z);                    (* saved_bias_shape *)
  db_einsum : pystr                             (* einsum_pattern *)
}.

(** _einmix.py:63-187 with the methods of 218-229 (the steps are those of EinMix.v; no layer
    is made) *)
Definition debugger (U : unicode) (pattern weight_shape : pystr) (bias_shape : option pystr) (sizes : list (pystr * Z)) : result debugged :=
  let* _ := check_kwargs [lit "self"; lit "pattern"; lit "weight_shape"; lit "bias_shape"] sizes in
  let* (left_pattern, right_pattern, lft, rght, weight, next) := einmix_parse U pattern weight_shape in
  let* _ := einmix_check lft rght weight sizes in
  let* wl := weight_lengths weight sizes in
  let* fi := fan_in rght weight sizes in
  let* bl := bias_lengths U rght next bias_shape sizes in
  let* _ := raise_if (fi =? 0)%Z ZeroDivisionError in                                         (* 160-161 *)
  let* text := einsum_text lft rght weight in
  Ok (mkDebugged (pre_reshape left_pattern lft sizes) (post_reshape right_pattern rght) [] wl bl text).
