(** * Model of the error messages of the layers

    The constructors of Layers.v and EinMix.v once more, keeping which message an
    EinopsError carries (layers/__init__.py:34-40, 84-90; _einmix.py:10-12, 67-158).
    LayerMessageFacts.v shows that without the messages these are the functions of
    the other files.  The layers of flax, whose [__repr__] is flax's, are not
    covered. *)
From Verif Require Import Py Parsing Recipe Ops Layers EinMix Texts Messages.

(** ** layers/__init__.py *)

(** einops.py:445-457 *)
Definition prepare_all_dims_msg (U : unicode) (os : nat -> orders) (pattern : pystr) (op : operation) (names : list pystr)
    : outcome (list (nat * recipe)) :=
  match str_split s_arrow pattern with
  | [left_str; _] =>
      let! (lft, _) := parse_expression_msg U false false 0 left_str in
      mapO (fun ndim => let! rec := prepare_recipe_msg U (os ndim) pattern op names ndim in Fine (ndim, rec)) (dims_of_left lft)
  | _ => Fails ValueError
  end.

Section Layers.
  Context {T : Type} (U : unicode) (os : nat -> orders).
  Definition make_layer_msg (pattern : pystr) (red : reduction T) (sizes : list (pystr * Z)) : outcome (layer T) :=
    let! recipes := prepare_all_dims_msg U os pattern (op_of red) (map fst sizes) in
    Fine (mkLayer pattern red sizes recipes).
  (** 20-26, 34-40 *)
  Definition Rearrange_msg (pattern : pystr) (sizes : list (pystr * Z)) : outcome (layer T) :=
    let! _ := lift (check_kwargs [lit "self"; lit "pattern"] sizes) in
    make_layer_msg pattern (RStr s_rearrange) sizes.
  (** 70-76, 84-90 *)
  Definition Reduce_msg (pattern : pystr) (red : reduction T) (sizes : list (pystr * Z)) : outcome (layer T) :=
    let! _ := lift (check_kwargs [lit "self"; lit "pattern"; lit "reduction"] sizes) in
    make_layer_msg pattern red sizes.

  (** 39-40, 89-90.  [__repr__] looks at what the constructor has stored already:
      everything but the recipes.  [printable], [callable], [foreign]: see
      Messages.v; [fun_repr], [class_name]: see Texts.v *)
  Context (printable : N -> bool) (callable foreign : pystr) (fun_repr : (T -> list nat -> result T) -> pystr) (class_name : pystr).
  Definition preparing (self : pystr) (m : mistake) : pystr :=
    lit " Error while preparing " ++ self ++ newline ++ lit " " ++ mistake_text printable callable foreign m.
  Definition Rearrange_answer (pattern : pystr) (sizes : list (pystr * Z)) : answer (layer T) :=
    match Rearrange_msg pattern sizes with
    | Fine L => Returns L
    | Fails e => Raises e
    | Wrong m => Reports (preparing (Rearrange_repr printable class_name (mkLayer (T := T) pattern (RStr s_rearrange) sizes [])) m)
    end.
  Definition Reduce_answer (pattern : pystr) (red : reduction T) (sizes : list (pystr * Z)) : answer (layer T) :=
    match Reduce_msg pattern red sizes with
    | Fine L => Returns L
    | Fails e => Raises e
    | Wrong m => Reports (preparing (Reduce_repr printable fun_repr class_name (mkLayer pattern red sizes [])) m)
    end.
End Layers.

(** ** _einmix.py *)

(** what can be said, in order of appearance *)
Inductive fault :=
| InText (m : mistake)                  (* parsing.py, from 69-71 and 130 *)
| NewOnRight (axes : list axis)         (* 72-75 *)
| DotsInWeight                          (* 76-77 *)
| DotsOneSide (pattern : pystr)         (* 78-80 *)
| DotsGrouped (pattern : pystr)         (* 81-82 *)
| Numbers                               (* 83-84 *)
| Brackets (weight : pystr)             (* 85-86 *)
| Preparing (pattern : pystr) (sizes : list (pystr * Z)) (m : mistake)   (* a rearrange layer, 108 *)
| NoLength (a : axis)                   (* 110-112 *)
| Unused (axes : list axis)             (* 113-116 *)
| Redundant (axes : list axis)          (* 117-119 *)
| BiasNotOutput (axes : list axis)      (* 131-134 *)
| BiasNoLength (axes : list axis)       (* 135-138 *)
| BiasBeforeDots.                       (* 143-145, 149-151 *)

Inductive attempt (A : Type) := Made (a : A) | Faulty (f : fault) | Throws (e : exn).
Arguments Made {A} a.
Arguments Faulty {A} f.
Arguments Throws {A} e.
Definition and_made {A B} (m : attempt A) (f : A -> attempt B) : attempt B :=
  match m with Made a => f a | Faulty w => Faulty w | Throws e => Throws e end.
Notation "'let+' x ':=' m 'in' k" := (and_made m (fun x => k))
  (at level 200, x pattern, right associativity).
Definition faulty_if (c : bool) (f : fault) : attempt unit := if c then Faulty f else Made tt.
(** parts of the code without messages *)
Definition silent {A} (r : result A) : attempt A := match r with Ok a => Made a | Err e => Throws e end.
Definition text_of {A} (r : outcome A) : attempt A :=
  match r with Fine a => Made a | Wrong m => Faulty (InText m) | Fails e => Throws e end.
Fixpoint foldA {A B} (f : A -> B -> attempt A) (l : list B) (acc : A) : attempt A :=
  match l with
  | [] => Made acc
  | x :: l' => let+ acc' := f acc x in foldA f l' acc'
  end.

(** 10-12; [o]: the order in which a set is printed or iterated over *)
Definition report_axes_msg (o : orders) (axes : list axis) (f : list axis -> fault) : attempt unit :=
  faulty_if (negb (match axes with [] => true | _ => false end)) (f (o 3 axes)).

(** 140-156 *)
Definition bias_step_msg (bias_ids : list axis) (sizes : list (pystr * Z)) (st : list Z * bool) (a : axis) : attempt (list Z * bool) :=
  let '(shape, used) := st in
  if axis_eqb a ax_ellipsis then let+ _ := faulty_if used BiasBeforeDots in Made (shape, used)
  else if axis_mem a bias_ids then let+ z := silent (length_of sizes a) in Made (shape ++ [z], true)
  else Made (shape ++ [1%Z], used).

Section Mix.
  Context {T : Type} (U : unicode) (o : orders) (os os' : nat -> orders).

  (** 68-86 *)
  Definition einmix_parse_msg (pattern weight_shape : pystr) : attempt (pystr * pystr * parsed * parsed * parsed * nat) :=
    match str_split s_arrow pattern with
    | [left_pattern; right_pattern] =>
        let+ (lft, next) := text_of (parse_expression_msg U false false 0 left_pattern) in
        let+ (rght, next) := text_of (parse_expression_msg U false false next right_pattern) in
        let+ (weight, next) := text_of (parse_expression_msg U false false next weight_shape) in
        let+ _ := report_axes_msg o (set_diff (p_identifiers rght) (set_union (p_identifiers lft) (p_identifiers weight))) NewOnRight in
        let+ _ := faulty_if (p_has_ellipsis weight) DotsInWeight in
        let+ _ := faulty_if (xorb (p_has_ellipsis lft) (p_has_ellipsis rght)) (DotsOneSide pattern) in
        let+ _ := faulty_if ((p_has_ellipsis lft || p_has_ellipsis rght)
                             && match p_ell_par lft with Some true => true | _ => false end) (DotsGrouped pattern) in
        let+ _ := faulty_if (p_anon lft || p_anon rght || p_anon weight) Numbers in
        let+ _ := faulty_if (existsb (fun c => (c =? c_open)%N || (c =? c_close)%N) weight_shape) (Brackets weight_shape) in
        Made (left_pattern, right_pattern, lft, rght, weight, next)
    | _ => Throws ValueError
    end.

  (** 88-108 *)
  Definition rearrange_layer_msg (os : nat -> orders) (p : pystr) (lengths : list (pystr * Z)) : attempt (layer T) :=
    match Rearrange_msg U os p lengths with
    | Fine L => Made L
    | Wrong m => Faulty (Preparing p lengths m)
    | Fails e => Throws e
    end.
  Definition rearrange_layers_msg (pre : option (pystr * list (pystr * Z))) (post : option pystr) : attempt (option (layer T) * option (layer T)) :=
    let+ pre_rearrange := match pre with Some (p, lengths) => let+ L := rearrange_layer_msg os p lengths in Made (Some L) | None => Made None end in
    let+ post_rearrange := match post with Some p => let+ L := rearrange_layer_msg os' p [] in Made (Some L) | None => Made None end in
    Made (pre_rearrange, post_rearrange).

  (** 110-119 *)
  Definition einmix_check_msg (lft rght weight : parsed) (sizes : list (pystr * Z)) : attempt unit :=
    let+ _ := foldA (fun _ a => faulty_if (match a with AxName s => negb (dict_has str_eqb s sizes) | AxAnon _ _ => true end) (NoLength a))
                    (o 3 (p_identifiers weight)) tt in
    let+ _ := report_axes_msg o (set_diff (map AxName (map fst sizes)) (set_union (p_identifiers lft) (p_identifiers weight))) Unused in
    report_axes_msg o (set_diff (p_identifiers weight) (set_union (p_identifiers lft) (p_identifiers rght))) Redundant.

  (** 126-158 *)
  Definition bias_lengths_msg (rght : parsed) (next : nat) (bias_shape : option pystr) (sizes : list (pystr * Z)) : attempt (option (list Z)) :=
    match bias_shape with
    | None => Made None
    | Some text =>
        let+ (bias, _) := text_of (parse_expression_msg U false false next text) in
        let+ _ := report_axes_msg o (set_diff (p_identifiers bias) (p_identifiers rght)) BiasNotOutput in
        let+ _ := report_axes_msg o (set_diff (p_identifiers bias) (map AxName (map fst sizes))) BiasNoLength in
        let+ (shape, _) := foldA (bias_step_msg (p_identifiers bias) sizes) (flat_axes rght) ([], false) in
        Made (Some shape)
    end.

  (** 67-187 *)
  Definition initialize_einmix_msg (pattern weight_shape : pystr) (bias_shape : option pystr) (sizes : list (pystr * Z)) : attempt (einmix T) :=
    let+ (left_pattern, right_pattern, lft, rght, weight, next) := einmix_parse_msg pattern weight_shape in
    let+ (pre, post) := rearrange_layers_msg (pre_reshape left_pattern lft sizes) (post_reshape right_pattern rght) in
    let+ _ := einmix_check_msg lft rght weight sizes in
    let+ wl := silent (weight_lengths weight sizes) in
    let+ fi := silent (fan_in rght weight sizes) in
    let+ bl := bias_lengths_msg rght next bias_shape sizes in
    let+ _ := silent (raise_if (fi =? 0)%Z ZeroDivisionError) in
    let+ text := silent (einsum_text lft rght weight) in
    Made (mkMix pattern weight_shape bias_shape sizes pre post wl bl fi text).
  Definition EinMix_msg (pattern weight_shape : pystr) (bias_shape : option pystr) (sizes : list (pystr * Z)) : attempt (einmix T) :=
    let+ _ := silent (check_kwargs [lit "self"; lit "pattern"; lit "weight_shape"; lit "bias_shape"] sizes) in
    initialize_einmix_msg pattern weight_shape bias_shape sizes.

  (** *** the texts; the class of the inner layers is [Rearrange] in every framework *)
  Context (printable : N -> bool).
  Definition fault_text (f : fault) : pystr :=
    let set_text := set_text printable in
    match f with
    | InText m => mistake_text printable [] [] m
    | NewOnRight l => lit "Unrecognized identifiers on the right side of EinMix " ++ set_text l
    | DotsInWeight => lit "Ellipsis is not supported in weight, as its shape should be fully specified"
    | DotsOneSide p => lit "Ellipsis in EinMix should be on both sides, " ++ p
    | DotsGrouped p => lit "Ellipsis on left side can't be in parenthesis, got " ++ p
    | Numbers => lit "Anonymous axes (numbers) are not allowed in EinMix"
    | Brackets w => lit "Parenthesis is not allowed in weight shape: " ++ w
    | Preparing p lengths m => preparing printable [] [] (Rearrange_repr printable (lit "Rearrange") (mkLayer (T := T) p (RStr s_rearrange) lengths [])) m
    | NoLength a => lit "Dimension " ++ match a with AxName s => s | AxAnon _ _ => axis_repr printable a end ++ lit " of weight should be specified"
    | Unused l => lit "Axes " ++ set_text l ++ lit " are not used in pattern"
    | Redundant l => lit "Weight axes " ++ set_text l ++ lit " are redundant"
    | BiasNotOutput l => lit "Bias axes " ++ set_text l ++ lit " not present in output"
    | BiasNoLength l => lit "Sizes not provided for bias axes " ++ set_text l
    | BiasBeforeDots => lit "all bias dimensions should go after ellipsis in the output"
    end.
  Definition EinMix_answer (pattern weight_shape : pystr) (bias_shape : option pystr) (sizes : list (pystr * Z)) : answer (einmix T) :=
    match EinMix_msg pattern weight_shape bias_shape sizes with
    | Made M => Returns M
    | Faulty f => Reports (fault_text f)
    | Throws e => Raises e
    end.
End Mix.
