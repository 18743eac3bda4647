(** * Model of einops/einops.py: einsum *)
From Verif Require Import Py Tensor Parsing Recipe Ops.

(** [string.ascii_letters] *)
Definition ascii_letters : pystr := lit "abcdefghijklmnopqrstuvwxyzABCDEFGHIJKLMNOPQRSTUVWXYZ".
Definition s_comma : pystr := lit ",".
Definition s_dots : pystr := lit "...".

(** einops.py:755-768 [_validate_einsum_axis_name] together with the test for
    [_ellipsis] (792-794, 810-812) and [raw_axis_name[0]]; [None] is the ellipsis.
    Names are never empty and always strings, the last two checks cannot fail. *)
Definition einsum_axis (raw_axis_name : comp) : result (option pystr) :=
  match raw_axis_name with
  | CEll => Ok None
  | CGrp [AxName s] => Ok (Some s)
  | CGrp _ => Err NotImplementedError
  end.

(** einops.py:791-804: one step of the loop over the axes of a left expression;
    [i] is the number of entries of [axis_name_mapping] *)
Definition left_axis_step (st : list (pystr * N) * pystr) (raw_axis_name : comp) : result (list (pystr * N) * pystr) :=
  let '(axis_name_mapping, left_pattern) := st in
  let* a := einsum_axis raw_axis_name in
  match a with
  | None => Ok (axis_name_mapping, left_pattern ++ s_dots)
  | Some axis_name =>
      let* axis_name_mapping :=
        if dict_has str_eqb axis_name axis_name_mapping then Ok axis_name_mapping
        else match nth_error ascii_letters (length axis_name_mapping) with
             | None => Err RuntimeError                                          (* 799-800 *)
             | Some letter => Ok (dict_set str_eqb axis_name letter axis_name_mapping)
             end in
      let* letter := of_option KeyError (dict_get str_eqb axis_name axis_name_mapping) in
      Ok (axis_name_mapping, left_pattern ++ [letter])
  end.

(** einops.py:789-805: the loop over the left expressions *)
Definition left_step (st : list (pystr * N) * list pystr) (lft : parsed) : result (list (pystr * N) * list pystr) :=
  let '(axis_name_mapping, left_patterns) := st in
  let* (axis_name_mapping, left_pattern) := foldM left_axis_step (p_composition lft) (axis_name_mapping, []) in
  Ok (axis_name_mapping, left_patterns ++ [left_pattern]).

(** einops.py:809-820: one step of the loop over the right expression *)
Definition right_axis_step (axis_name_mapping : list (pystr * N)) (compact_pattern : pystr) (raw_axis_name : comp) : result pystr :=
  let* a := einsum_axis raw_axis_name in
  match a with
  | None => Ok (compact_pattern ++ s_dots)
  | Some axis_name =>
      let* letter := of_option EinopsError (dict_get str_eqb axis_name axis_name_mapping) in   (* 817-820 *)
      Ok (compact_pattern ++ [letter])
  end.

(** einops.py:771-822 [_compactify_pattern_for_einsum].  The cache is dealt with in
    Cache.v. *)
Definition compactify (U : unicode) (pattern : pystr) : result pystr :=
  let* _ := raise_if (negb (str_contains s_arrow pattern)) ValueError in         (* 773-776 *)
  match str_split s_arrow pattern with                                            (* 777 *)
  | [lefts_str; right_str] =>
      let* (lefts, next) := foldM (fun '(lefts, next) s =>                        (* 779 *)
                                     let* (p, next) := parse_expression U true true next s in
                                     Ok (lefts ++ [p], next)) (str_split s_comma lefts_str) ([], 0) in
      let* (rght, _) := parse_expression U true false next right_str in          (* 781 *)
      let* (axis_name_mapping, left_patterns) := foldM left_step lefts ([], []) in
      foldM (right_axis_step axis_name_mapping) (p_composition rght)
        (str_join s_comma left_patterns ++ s_arrow)                               (* 807 *)
  | _ => Err ValueError
  end.

(** einops.py:841-916 [einsum].  The arguments are tensors or strings, in any
    order; [lib_einsum] is the library's einsum. *)
Section Einsum.
  Context {T : Type} (U : unicode) (lib_einsum : pystr -> list T -> result T).

  (** the arguments handed to the library; a string among them is not a tensor *)
  Definition as_tensor (a : T + pystr) : result T := match a with inl t => Ok t | inr _ => Err BackendError end.

  (** [compact_of] is [_compactify_pattern_for_einsum] *)
  Definition einsum_given (compact_of : pystr -> result pystr) (tensors_and_pattern : list (T + pystr)) : result T :=
    let* _ := raise_if (length tensors_and_pattern <=? 1) ValueError in
    match last tensors_and_pattern (inr []) with
    | inl _ => Err ValueError
    | inr pattern =>
        let tensors := removelast tensors_and_pattern in
        let* compact := compact_of pattern in
        match tensors with
        | inr _ :: _ => Err RuntimeError          (* get_backend of a string *)
        | _ => let* ts := mapM as_tensor tensors in lib_einsum compact ts
        end
    end.
  Definition einsum_with (tensors_and_pattern : list (T + pystr)) : result T := einsum_given (compactify U) tensors_and_pattern.
End Einsum.
