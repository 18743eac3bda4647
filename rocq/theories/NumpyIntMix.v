(** * EinMix with lengths that are integers of numpy

    The lengths become the shapes of the parameters, which the libraries take as they
    are, a product, and lengths of the layer that splits the groups of the input. As in
    NumpyInts.v, arithmetic is exact. *)
From Verif Require Import Py Tensor Parsing Recipe Ops Backends Api Einsum Layers EinMix NumpyInts NumpyIntLayers.

(** [axes_lengths[axis]] *)
Definition np_length_of (sizes : list (pystr * anyint)) (a : axis) : result anyint :=
  match a with AxName s => of_option KeyError (dict_get str_eqb s sizes) | AxAnon _ _ => Err KeyError end.

(** _einmix.py:140-156: one axis of the loop over the axes of the output *)
Definition np_bias_step (bias_ids : list axis) (sizes : list (pystr * anyint)) (st : list anyint * bool) (a : axis) : result (list anyint * bool) :=
  let '(shape, used) := st in
  if axis_eqb a ax_ellipsis then let* _ := raise_if used EinopsError in Ok (shape, used)
  else if axis_mem a bias_ids then let* z := np_length_of sizes a in Ok (shape ++ [z], true)
  else Ok (shape ++ [PyInt 1], used).

(** what the constructor stores; [nm_post] is made without lengths *)
Record np_einmix (T : Type) := mkNpMix {
  nm_pattern : pystr;                    (* self.pattern *)
  nm_weight_text : pystr;                (* self.weight_shape *)
  nm_bias_text : option pystr;           (* self.bias_shape *)
  nm_sizes : list (pystr * anyint);      (* self.axes_lengths *)
  nm_pre : option (np_layer T);          (* self.pre_rearrange *)
  nm_post : option (layer T);            (* self.post_rearrange *)
  nm_weight : list anyint;               (* weight_shape given to _create_parameters *)
  nm_bias : option (list anyint);        (* bias_shape given to _create_parameters *)
  nm_fan_in : anyint;                    (* the bounds are the roots of 3/fan_in and 1/fan_in *)
  nm_einsum : pystr                      (* self.einsum_pattern *)
}.
Arguments mkNpMix {T}. Arguments nm_pattern {T}. Arguments nm_weight_text {T}. Arguments nm_bias_text {T}. Arguments nm_sizes {T}.
Arguments nm_pre {T}. Arguments nm_post {T}. Arguments nm_weight {T}. Arguments nm_bias {T}. Arguments nm_fan_in {T}. Arguments nm_einsum {T}.

Section Make.
  (** [infinite]: what [_create_parameters] of the framework does with infinite bounds *)
  Context {T : Type} (U : unicode) (os os' : nat -> orders) (infinite : result unit).

  (** _einmix.py:88-99 *)
  Definition np_pre_reshape (left_pattern : pystr) (lft : parsed) (sizes : list (pystr * anyint)) : option (pystr * list (pystr * anyint)) :=
    if any_composed lft
    then Some (left_pattern ++ lit "-> " ++ str_join (lit " ") (flat_texts lft),
               filter (fun '(name, _) => str_mem name (flat_texts lft)) sizes)
    else None.
  (** [_create_rearrange_layers] *)
  Definition np_rearrange_layers (pre : option (pystr * list (pystr * anyint))) (post : option pystr) : result (option (np_layer T) * option (layer T)) :=
    let* pre_rearrange := match pre with Some (p, lengths) => let* L := np_Rearrange U os p lengths in Ok (Some L) | None => Ok None end in
    let* post_rearrange := match post with Some p => let* L := Rearrange U os' p [] in Ok (Some L) | None => Ok None end in
    Ok (pre_rearrange, post_rearrange).
  (** _einmix.py:110-119 *)
  Definition np_einmix_check (lft rght weight : parsed) (sizes : list (pystr * anyint)) : result unit :=
    let* _ := raise_if (existsb (fun a => match a with AxName s => negb (dict_has str_eqb s sizes) | AxAnon _ _ => true end)
                                (p_identifiers weight)) EinopsError in
    let* _ := report_axes (set_diff (map AxName (map fst sizes)) (set_union (p_identifiers lft) (p_identifiers weight))) in
    report_axes (set_diff (p_identifiers weight) (set_union (p_identifiers lft) (p_identifiers rght))).
  (** _einmix.py:123 *)
  Definition np_weight_lengths (weight : parsed) (sizes : list (pystr * anyint)) : result (list anyint) :=
    mapM (fun c => let* axis := only_axis c in np_length_of sizes axis) (p_composition weight).
  (** _einmix.py:125; [_product] (einops.py:29-34) begins with the int 1 *)
  Definition np_fan_in (rght weight : parsed) (sizes : list (pystr * anyint)) : result anyint :=
    let* axes := mapM only_axis (p_composition weight) in
    let* lengths := mapM (np_length_of sizes) (filter (fun a => negb (axis_mem a (p_identifiers rght))) axes) in
    Ok (fold_left (anyint_op Z.mul) lengths (PyInt 1)).
  (** _einmix.py:126-158 *)
  Definition np_bias_lengths (rght : parsed) (next : nat) (bias_shape : option pystr) (sizes : list (pystr * anyint)) : result (option (list anyint)) :=
    match bias_shape with
    | None => Ok None
    | Some text =>
        let* (bias, _) := parse_expression U false false next text in
        let* _ := report_axes (set_diff (p_identifiers bias) (p_identifiers rght)) in
        let* _ := report_axes (set_diff (p_identifiers bias) (map AxName (map fst sizes))) in
        let* (shape, _) := foldM (np_bias_step (p_identifiers bias) sizes) (flat_axes rght) ([], false) in
        Ok (Some shape)
    end.
  (** _einmix.py:160-162: division by the int zero raises; by the zero of numpy it gives
      the infinity and a RuntimeWarning (not represented) *)
  Definition np_bounds (fan_in : anyint) : result unit :=
    match fan_in with
    | PyInt z => raise_if (z =? 0)%Z ZeroDivisionError
    | NpInt z => if (z =? 0)%Z then infinite else Ok tt
    end.
  (** _einmix.py:67-187 [initialize_einmix] *)
  Definition np_initialize_einmix (pattern weight_shape : pystr) (bias_shape : option pystr) (sizes : list (pystr * anyint)) : result (np_einmix T) :=
    let* (left_pattern, right_pattern, lft, rght, weight, next) := einmix_parse U pattern weight_shape in
    let* (pre, post) := np_rearrange_layers (np_pre_reshape left_pattern lft sizes) (post_reshape right_pattern rght) in
    let* _ := np_einmix_check lft rght weight sizes in
    let* wl := np_weight_lengths weight sizes in
    let* fi := np_fan_in rght weight sizes in
    let* bl := np_bias_lengths rght next bias_shape sizes in
    let* _ := np_bounds fi in
    let* text := einsum_text lft rght weight in
    Ok (mkNpMix pattern weight_shape bias_shape sizes pre post wl bl fi text).
  (** _einmix.py:16-65 [__init__] *)
  Definition np_EinMix (pattern weight_shape : pystr) (bias_shape : option pystr) (sizes : list (pystr * anyint)) : result (np_einmix T) :=
    let* _ := check_kwargs [lit "self"; lit "pattern"; lit "weight_shape"; lit "bias_shape"] sizes in
    np_initialize_einmix pattern weight_shape bias_shape sizes.
End Make.

(** the call, as in EinMix.v (torch.py:59-67, tensorflow.py:87-95, flax.py:74-82, paddle.py:49-58, oneflow.py:46-54) *)
Section Call.
  Context {A : Type} (r : runtime A) (lib_einsum : pystr -> list (tensor A) -> result (tensor A))
    (iadd : tensor A -> tensor A -> result (tensor A)).
  Definition np_call_option (L : option (np_layer (tensor A))) (x : tensor A) : result (tensor A) :=
    match L with Some L => np_call_layer r L x | None => Ok x end.
  Definition np_call_einmix (M : np_einmix (tensor A)) (weight : tensor A) (bias : option (tensor A)) (x : tensor A) : result (tensor A) :=
    let* input := np_call_option (nm_pre M) x in
    let* result := lib_einsum (nm_einsum M) [input; weight] in
    let* result := match bias with Some b => iadd result b | None => Ok result end in
    call_option r (nm_post M) result.
End Call.
