(** * Model of the flax layers

    layers/flax.py.  The classes are dataclasses; [setup], which makes the recipes,
    runs when the module is first used, so that a module can always be made and
    errors of the pattern show in the call.  Sizes are a dictionary, not keyword
    arguments.  flax itself (modules, parameters) is not modelled: [setup] runs
    right before the call, the parameters are given. *)
From Verif Require Import Py Tensor Parsing Recipe Ops Backends Api Layers EinMix.

Section Flax.
  Context {A : Type} (r : runtime A) (os os' : nat -> orders).
  Notation U := (rt_unicode r).

  (** flax.py:14-23, 26-34: [ReduceMixin(pattern, reduction, **sizes)] *)
  Definition flax_reduce (pattern : pystr) (red : reduction (tensor A)) (sizes : list (pystr * Z)) (x : tensor A) : result (tensor A) :=
    let* reducer := Reduce U os pattern red sizes in mixin_apply r reducer x.
  Definition flax_rearrange (pattern : pystr) (sizes : list (pystr * Z)) (x : tensor A) : result (tensor A) :=
    let* rearranger := Rearrange U os pattern sizes in mixin_apply r rearranger x.

  (** flax.py:43-49 [setup] of EinMix: [initialize_einmix] (_einmix.py:67-187) with
      the dictionary; flax.py:58-72 makes modules for the reshapes, whose [setup] is
      postponed in turn *)
  Record flax_mix := mkFlax {
    fm_pre : option (pystr * list (pystr * Z));
    fm_post : option pystr;
    fm_weight : list Z;
    fm_bias : option (list Z);
    fm_fan_in : Z;
    fm_einsum : pystr
  }.
  Definition flax_setup (pattern weight_shape : pystr) (bias_shape : option pystr) (sizes : list (pystr * Z)) : result flax_mix :=
    let* (left_pattern, right_pattern, lft, rght, weight, next) := einmix_parse U pattern weight_shape in
    let* _ := einmix_check lft rght weight sizes in
    let* wl := weight_lengths weight sizes in
    let* fi := fan_in rght weight sizes in
    let* bl := bias_lengths U rght next bias_shape sizes in
    let* _ := raise_if (fi =? 0)%Z ZeroDivisionError in
    let* text := einsum_text lft rght weight in
    Ok (mkFlax (pre_reshape left_pattern lft sizes) (post_reshape right_pattern rght) wl bl fi text).

  (** flax.py:74-82 *)
  Context (lib_einsum : pystr -> list (tensor A) -> result (tensor A)) (iadd : tensor A -> tensor A -> result (tensor A)).
  Definition flax_call (F : flax_mix) (weight : tensor A) (bias : option (tensor A)) (x : tensor A) : result (tensor A) :=
    let* input := match fm_pre F with
                  | Some (p, sizes) => let* L := Rearrange U os p sizes in mixin_apply r L x
                  | None => Ok x
                  end in
    let* result := lib_einsum (fm_einsum F) [input; weight] in
    let* result := match bias with Some b => iadd result b | None => Ok result end in
    match fm_post F with
    | Some p => let* L := Rearrange U os' p [] in mixin_apply r L result
    | None => Ok result
    end.
  Definition flax_einmix (pattern weight_shape : pystr) (bias_shape : option pystr) (sizes : list (pystr * Z))
      (weight : tensor A) (bias : option (tensor A)) (x : tensor A) : result (tensor A) :=
    let* F := flax_setup pattern weight_shape bias_shape sizes in flax_call F weight bias x.
End Flax.
