(** * Model of the EinMix layer

    einops/layers/_einmix.py and the classes EinMix of torch.py, tensorflow.py,
    flax.py, paddle.py, oneflow.py.  Not modelled: how the parameters are created
    and filled with random numbers; only their shapes (and the number under the
    root in the bounds) are computed.  The library may refuse shapes with negative
    lengths. *)
From Verif Require Import Py Tensor Parsing Recipe Ops Backends Api Einsum Layers.

(** [string.ascii_lowercase] *)
Definition ascii_lowercase : pystr := lit "abcdefghijklmnopqrstuvwxyz".

(** [sorted] on strings: by code points *)
Fixpoint str_leb (a b : pystr) : bool :=
  match a, b with
  | [], _ => true
  | _ :: _, [] => false
  | x :: a', y :: b' => if (x =? y)%N then str_leb a' b' else (x <? y)%N
  end.
Fixpoint str_insert (s : pystr) (l : list pystr) : list pystr :=
  match l with [] => [s] | t :: l' => if str_leb s t then s :: l else t :: str_insert s l' end.
Definition str_sorted (l : list pystr) : list pystr := fold_right str_insert [] l.

(** the elements of [identifiers] that are strings; where this is used there are
    no others (_einmix.py:83-84) *)
Definition axis_names (l : list axis) : list pystr :=
  flat_map (fun a => match a with AxName s => [s] | AxAnon _ _ => [] end) l.
(** {*a, *b} *)
Definition set_union (a b : list axis) : list axis := fold_left (fun acc x => set_add x acc) b a.

(** [_report_axes] (_einmix.py:10-12) *)
Definition report_axes (axes : list axis) : result unit := raise_if (negb (match axes with [] => true | _ => false end)) EinopsError.

(** _einmix.py:92-96, 101-105: the names of a composition, one after another *)
Definition axis_text (a : axis) : pystr :=
  match a with AxName s => if str_eqb s ellipsis_str then s_dots else s | AxAnon _ _ => [] end.
Definition flat_axes (p : parsed) : list axis := flat_map comp_axes (p_composition p).
Definition flat_texts (p : parsed) : list pystr := map axis_text (flat_axes p).
Definition any_composed (p : parsed) : bool := existsb (fun c => negb (length (comp_axes c) =? 1)) (p_composition p).

(** [axes_lengths[axis]] *)
Definition length_of (sizes : list (pystr * Z)) (a : axis) : result Z :=
  match a with AxName s => of_option KeyError (dict_get str_eqb s sizes) | AxAnon _ _ => Err KeyError end.

(** [(axis,) = group] *)
Definition only_axis (c : comp) : result axis := match comp_axes c with [a] => Ok a | _ => Err ValueError end.

(** _einmix.py:140-156: one axis of the loop over the axes of the output *)
Definition bias_step (bias_ids : list axis) (sizes : list (pystr * Z)) (st : list Z * bool) (a : axis) : result (list Z * bool) :=
  let '(shape, used) := st in
  if axis_eqb a ax_ellipsis then let* _ := raise_if used EinopsError in Ok (shape, used)
  else if axis_mem a bias_ids then let* z := length_of sizes a in Ok (shape ++ [z], true)
  else Ok (shape ++ [1%Z], used).

(** _einmix.py:173-181 [write_flat_remapped] *)
Definition remap (mapping : list (pystr * pystr)) (a : axis) : result pystr :=
  match a with AxName s => of_option KeyError (dict_get str_eqb s mapping) | AxAnon _ _ => Err KeyError end.
Definition write_flat_remapped (mapping : list (pystr * pystr)) (p : parsed) : result pystr :=
  let* texts := mapM (fun c => match c with
                               | CGrp l => let* ts := mapM (remap mapping) l in Ok (concat ts)
                               | CEll => Ok s_dots
                               end) (p_composition p) in
  Ok (concat texts).

(** what the constructor stores *)
Record einmix (T : Type) := mkMix {
  em_pattern : pystr;                    (* self.pattern *)
  em_weight_text : pystr;                (* self.weight_shape *)
  em_bias_text : option pystr;           (* self.bias_shape *)
  em_sizes : list (pystr * Z);           (* self.axes_lengths *)
  em_pre : option (layer T);             (* self.pre_rearrange *)
  em_post : option (layer T);            (* self.post_rearrange *)
  em_weight : list Z;                    (* weight_shape given to _create_parameters *)
  em_bias : option (list Z);             (* bias_shape given to _create_parameters *)
  em_fan_in : Z;                         (* the bounds are the roots of 3/fan_in and 1/fan_in *)
  em_einsum : pystr                      (* self.einsum_pattern *)
}.
Arguments mkMix {T}. Arguments em_pattern {T}. Arguments em_weight_text {T}. Arguments em_bias_text {T}. Arguments em_sizes {T}.
Arguments em_pre {T}. Arguments em_post {T}. Arguments em_weight {T}. Arguments em_bias {T}. Arguments em_fan_in {T}. Arguments em_einsum {T}.

Section Make.
  Context {T : Type} (U : unicode) (os os' : nat -> orders).

  (** _einmix.py:68-86: parsing and the checks before the layers are made; gives
      left_pattern, right_pattern, lft, rght, weight *)
  Definition einmix_parse (pattern weight_shape : pystr) : result (pystr * pystr * parsed * parsed * parsed * nat) :=
    match str_split s_arrow pattern with
    | [left_pattern; right_pattern] =>
        let* (lft, next) := parse_expression U false false 0 left_pattern in
        let* (rght, next) := parse_expression U false false next right_pattern in
        let* (weight, next) := parse_expression U false false next weight_shape in
        let* _ := report_axes (set_diff (p_identifiers rght) (set_union (p_identifiers lft) (p_identifiers weight))) in  (* 72-75 *)
        let* _ := raise_if (p_has_ellipsis weight) EinopsError in                                                          (* 76-77 *)
        let* _ := raise_if (xorb (p_has_ellipsis lft) (p_has_ellipsis rght)) EinopsError in                              (* 78-80 *)
        let* _ := raise_if ((p_has_ellipsis lft || p_has_ellipsis rght)
                            && match p_ell_par lft with Some true => true | _ => false end) EinopsError in                (* 81-82 *)
        let* _ := raise_if (p_anon lft || p_anon rght || p_anon weight) EinopsError in                                   (* 83-84 *)
        let* _ := raise_if (existsb (fun c => (c =? c_open)%N || (c =? c_close)%N) weight_shape) EinopsError in            (* 85-86 *)
        Ok (left_pattern, right_pattern, lft, rght, weight, next)
    | _ => Err ValueError                                                                                                  (* 68 *)
    end.

  (** _einmix.py:88-108 and [_create_rearrange_layers] *)
  Definition pre_reshape (left_pattern : pystr) (lft : parsed) (sizes : list (pystr * Z)) : option (pystr * list (pystr * Z)) :=
    if any_composed lft
    then Some (left_pattern ++ lit "-> " ++ str_join (lit " ") (flat_texts lft),
               filter (fun '(name, _) => str_mem name (flat_texts lft)) sizes)
    else None.
  Definition post_reshape (right_pattern : pystr) (rght : parsed) : option pystr :=
    if any_composed rght || match p_ell_par rght with Some true => true | _ => false end
    then Some (str_join (lit " ") (flat_texts rght) ++ lit " ->" ++ right_pattern)
    else None.
  Definition rearrange_layers (pre : option (pystr * list (pystr * Z))) (post : option pystr) : result (option (layer T) * option (layer T)) :=
    let* pre_rearrange := match pre with Some (p, lengths) => let* L := Rearrange U os p lengths in Ok (Some L) | None => Ok None end in
    let* post_rearrange := match post with Some p => let* L := Rearrange U os' p [] in Ok (Some L) | None => Ok None end in
    Ok (pre_rearrange, post_rearrange).

  (** _einmix.py:110-119: checks of the lengths *)
  Definition einmix_check (lft rght weight : parsed) (sizes : list (pystr * Z)) : result unit :=
    let* _ := raise_if (existsb (fun a => match a with AxName s => negb (dict_has str_eqb s sizes) | AxAnon _ _ => true end)
                                (p_identifiers weight)) EinopsError in
    let* _ := report_axes (set_diff (map AxName (map fst sizes)) (set_union (p_identifiers lft) (p_identifiers weight))) in
    report_axes (set_diff (p_identifiers weight) (set_union (p_identifiers lft) (p_identifiers rght))).

  (** _einmix.py:123 *)
  Definition weight_lengths (weight : parsed) (sizes : list (pystr * Z)) : result (list Z) :=
    mapM (fun c => let* axis := only_axis c in length_of sizes axis) (p_composition weight).
  (** _einmix.py:125; [_product] is einops.py:29-34 *)
  Definition fan_in (rght weight : parsed) (sizes : list (pystr * Z)) : result Z :=
    let* axes := mapM only_axis (p_composition weight) in
    let* lengths := mapM (length_of sizes) (filter (fun a => negb (axis_mem a (p_identifiers rght))) axes) in
    Ok (fold_left Z.mul lengths 1%Z).
  (** _einmix.py:126-158.  [bias_shape] is a string or [None] (128-129: LayerWarnings.v) *)
  Definition bias_lengths (rght : parsed) (next : nat) (bias_shape : option pystr) (sizes : list (pystr * Z)) : result (option (list Z)) :=
    match bias_shape with
    | None => Ok None
    | Some text =>
        let* (bias, _) := parse_expression U false false next text in
        let* _ := report_axes (set_diff (p_identifiers bias) (p_identifiers rght)) in
        let* _ := report_axes (set_diff (p_identifiers bias) (map AxName (map fst sizes))) in
        let* (shape, _) := foldM (bias_step (p_identifiers bias) sizes) (flat_axes rght) ([], false) in
        Ok (Some shape)
    end.

  (** _einmix.py:166-187 *)
  Definition letters_for (lft rght weight : parsed) : list (pystr * pystr) :=
    let mapped := set_union (set_union (p_identifiers lft) (p_identifiers rght)) (p_identifiers weight) in
    let names := str_sorted (axis_names (filter (fun a => negb (axis_eqb a ax_ellipsis)) mapped)) in
    dict_set str_eqb ellipsis_str s_dots (combine names (map (fun c => [c]) ascii_lowercase)).
  Definition einsum_text (lft rght weight : parsed) : result pystr :=
    let mapping := letters_for lft rght weight in
    let* l := write_flat_remapped mapping lft in
    let* w := write_flat_remapped mapping weight in
    let* r := write_flat_remapped mapping rght in
    Ok (l ++ lit "," ++ w ++ lit "->" ++ r).

  (** _einmix.py:67-187 [initialize_einmix].  The warning for a weight without
      axes (120-121) is in LayerWarnings.v; a fan_in too large for a float is not modelled *)
  Definition initialize_einmix (pattern weight_shape : pystr) (bias_shape : option pystr) (sizes : list (pystr * Z)) : result (einmix T) :=
    let* (left_pattern, right_pattern, lft, rght, weight, next) := einmix_parse pattern weight_shape in
    let* (pre, post) := rearrange_layers (pre_reshape left_pattern lft sizes) (post_reshape right_pattern rght) in
    let* _ := einmix_check lft rght weight sizes in
    let* wl := weight_lengths weight sizes in
    let* fi := fan_in rght weight sizes in
    let* bl := bias_lengths rght next bias_shape sizes in
    let* _ := raise_if (fi =? 0)%Z ZeroDivisionError in                                         (* 160-161 *)
    let* text := einsum_text lft rght weight in
    Ok (mkMix pattern weight_shape bias_shape sizes pre post wl bl fi text).

  (** _einmix.py:16-65 [__init__] *)
  Definition EinMix (pattern weight_shape : pystr) (bias_shape : option pystr) (sizes : list (pystr * Z)) : result (einmix T) :=
    let* _ := check_kwargs [lit "self"; lit "pattern"; lit "weight_shape"; lit "bias_shape"] sizes in
    initialize_einmix pattern weight_shape bias_shape sizes.
End Make.

(** the class of a framework, called with a tensor (torch.py:59-67 [forward],
    tensorflow.py:87-95, flax.py:74-82, paddle.py:49-58, oneflow.py:46-54).
    [lib_einsum] and [iadd] (the statement [result += bias]) are the library's. *)
Section Call.
  Context {A : Type} (r : runtime A) (lib_einsum : pystr -> list (tensor A) -> result (tensor A))
    (iadd : tensor A -> tensor A -> result (tensor A)).
  Definition call_option (L : option (layer (tensor A))) (x : tensor A) : result (tensor A) :=
    match L with Some L => call_layer r L x | None => Ok x end.
  Definition call_einmix (M : einmix (tensor A)) (weight : tensor A) (bias : option (tensor A)) (x : tensor A) : result (tensor A) :=
    let* input := call_option (em_pre M) x in
    let* result := lib_einsum (em_einsum M) [input; weight] in
    let* result := match bias with Some b => iadd result b | None => Ok result end in
    call_option (em_post M) result.
End Call.
