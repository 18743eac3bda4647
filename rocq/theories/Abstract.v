(** * The class that EinMix of the frameworks is derived from

    einops/layers/_einmix.py:13-200 (_EinmixMixin), instantiated itself. *)
From Verif Require Import Py Tensor Parsing Recipe Ops Backends Api Einsum Layers EinMix.

(** _einmix.py:189-196 and 198-200: the two methods that the classes of the frameworks define *)
Definition abstract_layers {B} (pre : option (pystr * list (pystr * Z))) (post : option pystr) : result B := Err NotImplementedError.
Definition abstract_parameters {B} (weight : list Z) (bias : option (list Z)) : result B := Err NotImplementedError.

(** _einmix.py:16-187 with these methods (the steps are those of EinMix.v) *)
Definition mixin (U : unicode) (pattern weight_shape : pystr) (bias_shape : option pystr) (sizes : list (pystr * Z)) : result pystr :=
  let* _ := check_kwargs [lit "self"; lit "pattern"; lit "weight_shape"; lit "bias_shape"] sizes in
  let* (left_pattern, right_pattern, lft, rght, weight, next) := einmix_parse U pattern weight_shape in
  let* _ := @abstract_layers unit (pre_reshape left_pattern lft sizes) (post_reshape right_pattern rght) in    (* 111 *)
  let* _ := einmix_check lft rght weight sizes in
  let* wl := weight_lengths weight sizes in
  let* fi := fan_in rght weight sizes in
  let* bl := bias_lengths U rght next bias_shape sizes in
  let* _ := raise_if (fi =? 0)%Z ZeroDivisionError in                                         (* 160-161 *)
  let* _ := @abstract_parameters unit wl bl in                                                (* 162 *)
  einsum_text lft rght weight.
