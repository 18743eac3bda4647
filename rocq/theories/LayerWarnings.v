(** * Warnings issued while layers are made, and by einsum

    As Warnings.v, for layers/__init__.py, layers/_einmix.py and
    [_compactify_pattern_for_einsum].  The recipes of a layer come from the cache
    of [_prepare_transformation_recipe], and a hit is silent; so a computation
    takes the contents of that cache, and gives the warnings issued, in order, the
    outcome, and the contents afterwards. *)
From Verif Require Import Py Tensor Parsing Recipe Ops Backends Api Einsum Cache Warnings Layers EinMix.

(** [EmptyWeight]: "EinMix: weight has no dimensions ..." (_einmix.py:121) *)
Inductive notice := AboutName (w : warning) | EmptyWeight.

Definition memo : Type := list (rkey * recipe).
Definition told (A : Type) : Type := memo -> list notice * result A * memo.
Definition told_log {A} (a : list notice * result A * memo) : list notice := fst (fst a).
Definition told_result {A} (a : list notice * result A * memo) : result A := snd (fst a).
Definition told_memo {A} (a : list notice * result A * memo) : memo := snd a.

Definition tret {A} (a : result A) : told A := fun c => ([], a, c).
Definition tnames {A} (a : logged A) : told A := fun c => (map AboutName (fst a), snd a, c).
Definition tsay (n : notice) : told unit := fun c => ([n], Ok tt, c).
Definition tbind {A B} (a : told A) (f : A -> told B) : told B := fun c =>
  let '(log, r, c) := a c in
  match r with
  | Ok x => let '(log', r', c) := f x c in (log ++ log', r', c)
  | Err e => (log, Err e, c)
  end.
Notation "'tlet' x ':=' a 'in' b" := (tbind a (fun x => b)) (at level 200, x pattern, a at level 100, b at level 200).
Fixpoint tmapM {A B} (f : A -> told B) (l : list A) : told (list B) :=
  match l with
  | [] => tret (Ok [])
  | x :: l => tlet y := f x in tlet ys := tmapM f l in tret (Ok (y :: ys))
  end.

(** the argument [bias_shape] of EinMix *)
Inductive bias_arg := NoBias | BiasText (s : pystr) | NotAString.
Definition bias_text (b : bias_arg) : option pystr := match b with BiasText s => Some s | _ => None end.

Section LayerWarnings.
  (** [maxsize]: 256 (einops.py:288) *)
  Context {T : Type} (U : unicode) (iskeyword : pystr -> bool) (maxsize : nat).

  (** [_prepare_transformation_recipe] through its cache *)
  Definition recipe_t (o : orders) (k : rkey) : told recipe := fun c =>
    let '(a, c) := cached_prepare_w U iskeyword maxsize o k c in (map AboutName (fst a), snd a, c).

  (** einops.py:445-457 [_prepare_recipes_for_all_dims]: the left side is parsed
      here as well (line 453), outside the cache *)
  Definition all_dims_t (os : nat -> orders) (pattern : pystr) (op : opkey) (names : list pystr) : told (list (nat * recipe)) :=
    match str_split s_arrow pattern with
    | [left_str; _] =>
        tlet (lft, _) := tnames (parse_expression_w U iskeyword false false 0 left_str) in
        tmapM (fun ndim => tlet rec := recipe_t (os ndim) (pattern, op, names, ndim) in tret (Ok (ndim, rec))) (dims_of_left lft)
    | _ => tret (Err ValueError)
    end.

  (** layers/__init__.py:20-26, 34-40 *)
  Definition Rearrange_t (os : nat -> orders) (pattern : pystr) (sizes : list (pystr * Z)) : told (layer T) :=
    tlet _ := tret (check_kwargs [lit "self"; lit "pattern"] sizes) in
    tlet recipes := all_dims_t os pattern (KStr s_rearrange) (map fst sizes) in
    tret (Ok (mkLayer pattern (RStr s_rearrange) sizes recipes)).
  (** layers/__init__.py:70-76, 84-90; [id] is the identity of a reduction that is a callable *)
  Definition red_key (id : nat) (red : reduction T) : opkey := match red with RStr s => KStr s | RCall _ => KCall id end.
  Definition Reduce_t (os : nat -> orders) (id : nat) (pattern : pystr) (red : reduction T) (sizes : list (pystr * Z)) : told (layer T) :=
    tlet _ := tret (check_kwargs [lit "self"; lit "pattern"; lit "reduction"] sizes) in
    tlet recipes := all_dims_t os pattern (red_key id red) (map fst sizes) in
    tret (Ok (mkLayer pattern red sizes recipes)).

  (** _einmix.py:68-86 *)
  Definition einmix_parse_t (pattern weight_shape : pystr) : told (pystr * pystr * parsed * parsed * parsed * nat) :=
    match str_split s_arrow pattern with
    | [left_pattern; right_pattern] =>
        tlet (lft, next) := tnames (parse_expression_w U iskeyword false false 0 left_pattern) in
        tlet (rght, next) := tnames (parse_expression_w U iskeyword false false next right_pattern) in
        tlet (weight, next) := tnames (parse_expression_w U iskeyword false false next weight_shape) in
        tret (let* _ := report_axes (set_diff (p_identifiers rght) (set_union (p_identifiers lft) (p_identifiers weight))) in
              let* _ := raise_if (p_has_ellipsis weight) EinopsError in
              let* _ := raise_if (xorb (p_has_ellipsis lft) (p_has_ellipsis rght)) EinopsError in
              let* _ := raise_if ((p_has_ellipsis lft || p_has_ellipsis rght)
                                  && match p_ell_par lft with Some true => true | _ => false end) EinopsError in
              let* _ := raise_if (p_anon lft || p_anon rght || p_anon weight) EinopsError in
              let* _ := raise_if (existsb (fun c => (c =? c_open)%N || (c =? c_close)%N) weight_shape) EinopsError in
              Ok (left_pattern, right_pattern, lft, rght, weight, next))
    | _ => tret (Err ValueError)
    end.

  (** [_create_rearrange_layers] of the frameworks *)
  Definition rearrange_layers_t (os os' : nat -> orders) (pre : option (pystr * list (pystr * Z))) (post : option pystr)
      : told (option (layer T) * option (layer T)) :=
    tlet pre_rearrange := match pre with Some (p, lengths) => tlet L := Rearrange_t os p lengths in tret (Ok (Some L)) | None => tret (Ok None) end in
    tlet post_rearrange := match post with Some p => tlet L := Rearrange_t os' p [] in tret (Ok (Some L)) | None => tret (Ok None) end in
    tret (Ok (pre_rearrange, post_rearrange)).

  (** _einmix.py:126-158, with 128-129 *)
  Definition bias_lengths_t (rght : parsed) (next : nat) (bias_shape : bias_arg) (sizes : list (pystr * Z)) : told (option (list Z)) :=
    match bias_shape with
    | NoBias => tret (Ok None)
    | NotAString => tret (Err EinopsError)
    | BiasText text =>
        tlet (bias, _) := tnames (parse_expression_w U iskeyword false false next text) in
        tret (let* _ := report_axes (set_diff (p_identifiers bias) (p_identifiers rght)) in
              let* _ := report_axes (set_diff (p_identifiers bias) (map AxName (map fst sizes))) in
              let* (shape, _) := foldM (bias_step (p_identifiers bias) sizes) (flat_axes rght) ([], false) in
              Ok (Some shape))
    end.

  (** _einmix.py:16-65 [__init__] and 67-187 [initialize_einmix], with the warning of 120-121 *)
  Definition EinMix_t (os os' : nat -> orders) (pattern weight_shape : pystr) (bias_shape : bias_arg) (sizes : list (pystr * Z)) : told (einmix T) :=
    tlet _ := tret (check_kwargs [lit "self"; lit "pattern"; lit "weight_shape"; lit "bias_shape"] sizes) in
    tlet (left_pattern, right_pattern, lft, rght, weight, next) := einmix_parse_t pattern weight_shape in
    tlet (pre, post) := rearrange_layers_t os os' (pre_reshape left_pattern lft sizes) (post_reshape right_pattern rght) in
    tlet _ := tret (einmix_check lft rght weight sizes) in
    tlet _ := match p_identifiers weight with [] => tsay EmptyWeight | _ :: _ => tret (Ok tt) end in     (* 120-121 *)
    tlet wl := tret (weight_lengths weight sizes) in
    tlet fi := tret (fan_in rght weight sizes) in
    tlet bl := bias_lengths_t rght next bias_shape sizes in
    tret (let* _ := raise_if (fi =? 0)%Z ZeroDivisionError in
          let* text := einsum_text lft rght weight in
          Ok (mkMix pattern weight_shape (bias_text bias_shape) sizes pre post wl bl fi text)).

  (** einops.py:771-822 [_compactify_pattern_for_einsum], without its cache *)
  Fixpoint parse_lefts_w (texts : list pystr) (lefts : list parsed) (next : nat) : logged (list parsed * nat) :=
    match texts with
    | [] => wret (Ok (lefts, next))
    | s :: texts => wlet (p, next) := parse_expression_w U iskeyword true true next s in parse_lefts_w texts (lefts ++ [p]) next
    end.
  Definition compactify_w (pattern : pystr) : logged pystr :=
    wlet _ := wret (raise_if (negb (str_contains s_arrow pattern)) ValueError) in
    match str_split s_arrow pattern with
    | [lefts_str; right_str] =>
        wlet (lefts, next) := parse_lefts_w (str_split s_comma lefts_str) [] 0 in
        wlet (rght, _) := parse_expression_w U iskeyword true false next right_str in
        wret (let* (axis_name_mapping, left_patterns) := foldM left_step lefts ([], []) in
              foldM (right_axis_step axis_name_mapping) (p_composition rght) (str_join s_comma left_patterns ++ s_arrow))
    | _ => wret (Err ValueError)
    end.
End LayerWarnings.

(** python -W error: the first warning is raised *)
Inductive strict_outcome (A : Type) := RaisedNotice (n : notice) | WentOn (a : result A).
Arguments RaisedNotice {A}. Arguments WentOn {A}.
Definition strictly_told {A} (a : list notice * result A * memo) : strict_outcome A :=
  match told_log a with n :: _ => RaisedNotice n | [] => WentOn (told_result a) end.
