(** * Model of the error messages of pack, unpack, parse_shape and einsum

    The functions of Packing.v, Ops.v (parse_shape) and Einsum.v once more, keeping
    which message an exception carries (packing.py:20-27, 79-83, 144-154, 185-190;
    array_api.py:57-61, 78-88, 118-124; einops.py:679-711, 755-822, 905-916).
    ComplaintFacts.v shows that without the messages these are the functions of
    the other files. *)
From Verif Require Import Py Tensor Parsing Recipe Ops Backends SpecGrammar SpecPattern Api Packing Einsum Texts Messages.

(** the exceptions raised with a message *)
Inductive complaint :=
| RepeatedAxes                                  (* packing.py:20 *)
| NoStar                                        (* packing.py:22 *)
| InvalidAxis (x : pystr)                       (* packing.py:27 *)
| FewAxes (i : nat) (shape : list Z) (least : nat)   (* packing.py:80-83, array_api.py:58-61 *)
| WrongRank (shape : list Z)                    (* packing.py:144, array_api.py:78 *)
| ManyOpen                                      (* packing.py:152-154, array_api.py:86-88 *)
| NoSplit (n : Z)                               (* packing.py:187-190, array_api.py:121-124 *)
| InPattern (m : mistake)                       (* parsing.py *)
| Composite (shape : list Z)                    (* einops.py:682 *)
| FewDims (shape : list Z)                      (* einops.py:686 *)
| OtherDims (shape : list Z)                    (* einops.py:688 *)
| NotOne (shape : list Z)                       (* einops.py:703 *)
| NotNumber (shape : list Z)                    (* einops.py:711 *)
| FewArguments                                  (* einops.py:906-908 *)
| LastNotText                                   (* einops.py:911-913 *)
| NoArrow                                       (* einops.py:776 *)
| Singleton                                     (* einops.py:757 *)
| Composed                                      (* einops.py:759 *)
| Anonymous                                     (* einops.py:764 *)
| EmptyName                                     (* einops.py:766 *)
| ManyAxes                                      (* einops.py:800 *)
| UnknownAxis (x : pystr).                      (* einops.py:818 *)

(** the classes that are raised *)
Definition complaint_class (c : complaint) : exn :=
  match c with
  | RepeatedAxes | NoStar | InvalidAxis _ | FewAxes _ _ _ | WrongRank _ | ManyOpen | InPattern _ | UnknownAxis _ => EinopsError
  | NoSplit _ | Composite _ | FewDims _ | OtherDims _ | NotOne _ | NotNumber _ | EmptyName | ManyAxes => RuntimeError
  | FewArguments | LastNotText | NoArrow => ValueError
  | Singleton | Composed | Anonymous => NotImplementedError
  end.

(** a call returns, raises with a message of einops, or raises something else *)
Inductive told (A : Type) := Done (a : A) | Says (c : complaint) | Other (e : exn).
Arguments Done {A} a.
Arguments Says {A} c.
Arguments Other {A} e.
Definition and_if {A B} (m : told A) (f : A -> told B) : told B :=
  match m with Done a => f a | Says c => Says c | Other e => Other e end.
Notation "'let?' x ':=' m 'in' k" := (and_if m (fun x => k))
  (at level 200, x pattern, right associativity).
Definition says_if (c : bool) (m : complaint) : told unit := if c then Says m else Done tt.
Definition quiet {A} (r : result A) : told A := match r with Ok a => Done a | Err e => Other e end.
(** exceptions of the parser *)
Definition parsing {A} (r : outcome A) : told A :=
  match r with Fine a => Done a | Wrong m => Says (InPattern m) | Fails e => Other e end.
Fixpoint foldT {A B} (f : A -> B -> told A) (l : list B) (acc : A) : told A :=
  match l with
  | [] => Done acc
  | x :: l' => let? acc' := f acc x in foldT f l' acc'
  end.

(** ** packing.py *)

(** 14-31 *)
Definition analyze_pattern_msg (U : unicode) (pattern : pystr) : told (nat * nat * nat) :=
  let axes := str_words U pattern in
  let axes_set := nodup str_eq_dec axes in
  let? _ := says_if (negb (length axes =? length axes_set)) RepeatedAxes in
  let? _ := says_if (negb (str_mem star axes_set)) NoStar in
  let? _ := foldT (fun _ axis => says_if (negb (str_eqb axis star) && negb (check_axis_name U false axis)) (InvalidAxis axis)) axes tt in
  let? n_axes_before := quiet (of_option ValueError (index_of str_eqb star axes)) in
  let n_axes_after := length axes - n_axes_before - 1 in
  let min_axes := n_axes_before + n_axes_after in
  Done (n_axes_before, n_axes_after, min_axes).

Section Packing.
  Context {T : Type} (U : unicode)
          (shape_of : T -> list Z) (reshape : T -> list Z -> result T)
          (concat_ : list T -> nat -> result T) (slice : T -> nat -> Z -> Z -> result T).

  (** packing.py:34-88, array_api.py:51-68 *)
  Definition pack_told (tensors : list T) (pattern : pystr) : told (T * list (list Z)) :=
    let? (n_axes_before, n_axes_after, min_axes) := analyze_pattern_msg U pattern in
    let? _ := quiet (of_option IndexError (nth_error tensors 0)) in
    let? (reshaped_tensors, packed_shapes) :=
      foldT (fun '(reshaped, packed_shapes) '(i, tensor) =>
               let shape := shape_of tensor in
               let? _ := says_if (length shape <? min_axes) (FewAxes i shape min_axes) in
               let axis_after_packed_axes := length shape - n_axes_after in
               let packed_shapes := packed_shapes ++
                     [skipn n_axes_before (firstn axis_after_packed_axes shape)] in
               let? t := quiet (reshape tensor (firstn n_axes_before shape ++ [(-1)%Z]
                                           ++ skipn axis_after_packed_axes shape)) in
               Done (reshaped ++ [t], packed_shapes)) (enumerate tensors) ([], []) in
    let? t := quiet (concat_ reshaped_tensors n_axes_before) in
    Done (t, packed_shapes).

  (** packing.py:98-190, array_api.py:71-124 *)
  Definition unpack_told (tensor : T) (packed_shapes : list (list Z)) (pattern : pystr) : told (list T) :=
    let? (n_axes_before, n_axes_after, min_axes) := analyze_pattern_msg U pattern in
    let input_shape := shape_of tensor in
    let? _ := says_if (negb (length input_shape =? n_axes_before + 1 + n_axes_after)) (WrongRank input_shape) in
    let lengths := composed_lengths packed_shapes in
    let? _ := says_if (1 <? length (filter (fun x => (x =? -1)%Z) lengths)) ManyOpen in
    let? n := quiet (list_get input_shape n_axes_before) in
    let? sp := quiet (split_positions n lengths) in
    let shape_start := firstn n_axes_before input_shape in
    let shape_end := skipn (n_axes_before + 1) input_shape in
    match mapM (fun '(i, element_shape) =>
                  let* a := list_get sp i in
                  let* b := list_get sp (i + 1) in
                  let* piece := slice tensor n_axes_before a b in
                  reshape piece (shape_start ++ element_shape ++ shape_end))
            (enumerate packed_shapes) with
    | Ok ts => Done ts
    | Err _ => Says (NoSplit (last sp 0%Z))                    (* {split_positions[-1]} *)
    end.
End Packing.

Definition pack_said {A} (r : runtime A) (tensors : list (tensor A)) (pattern : pystr) :=
  pack_told (rt_unicode r) (b_shape (rt_backend r)) (b_reshape (rt_backend r)) (b_concat (rt_backend r)) tensors pattern.
Definition unpack_said {A} (r : runtime A) (x : tensor A) (packed_shapes : list (list Z)) (pattern : pystr) :=
  unpack_told (rt_unicode r) (b_shape (rt_backend r)) (b_reshape (rt_backend r)) (b_slice (rt_backend r)) x packed_shapes pattern.
Definition xp_pack_said {A} (r : runtime A) (tensors : list (tensor A)) (pattern : pystr) :=
  pack_told (rt_unicode r) (xp_shape (rt_ns r)) (xp_reshape (rt_ns r)) (xp_concat (rt_ns r)) tensors pattern.
Definition xp_unpack_said {A} (r : runtime A) (x : tensor A) (packed_shapes : list (list Z)) (pattern : pystr) :=
  unpack_told (rt_unicode r) (xp_shape (rt_ns r)) (xp_reshape (rt_ns r)) (xp_slice (rt_ns r)) x packed_shapes pattern.

(** ** einops.py:653-712 [parse_shape] *)
Definition cell_step_msg (shape : list Z) (result : list (pystr * Z)) (cl : comp * Z) : told (list (pystr * Z)) :=
  let '(c, axis_length) := cl in
  match cell_axes c with                                                          (* 699-711 *)
  | [] => if (axis_length =? 1)%Z then Done result else Says (NotOne shape)
  | [AxName s] => if str_eqb s [c_under] then Done result
                  else Done (dict_set str_eqb s axis_length result)
  | [AxAnon _ v] => if (v =? axis_length)%Z then Done result else Says (NotNumber shape)
  | _ => Other ValueError
  end.
Definition parse_shape_told (U : unicode) (shape : list Z) (pattern : pystr) : told (list (pystr * Z)) :=
  let? (exp, _) := parsing (parse_expression_msg U true false 0 pattern) in       (* 679 *)
  let? _ := says_if (has_composed_axes exp) (Composite shape) in                  (* 681-682 *)
  let ncomp := length (p_composition exp) in
  let? _ := if length shape =? ncomp then Done tt                                 (* 683-688 *)
            else if p_has_ellipsis exp
                 then says_if (length shape <? ncomp - 1) (FewDims shape)
                 else Says (OtherDims shape) in
  let? composition :=                                                             (* 689-697 *)
    if p_has_ellipsis exp
    then let? k := quiet (of_option ValueError (find_cell (p_composition exp))) in
         Done (firstn k (p_composition exp)
               ++ repeat underscore (length shape + 1 - ncomp)
               ++ skipn (S k) (p_composition exp))
    else Done (p_composition exp) in
  foldT (cell_step_msg shape) (combine composition shape) [].

(** ** einops.py: einsum *)

(** 755-768.  That a name is not a string (767-768) cannot be expressed. *)
Definition einsum_axis_msg (raw_axis_name : comp) : told (option pystr) :=
  match raw_axis_name with
  | CEll => Done None
  | CGrp [] => Says Singleton                                                     (* 756-757 *)
  | CGrp (_ :: _ :: _) => Says Composed                                           (* 758-759 *)
  | CGrp [AxAnon _ _] => Says Anonymous                                           (* 763-764 *)
  | CGrp [AxName s] => if length s =? 0 then Says EmptyName else Done (Some s)    (* 765-766 *)
  end.
(** 791-804 *)
Definition left_axis_step_msg (st : list (pystr * N) * pystr) (raw_axis_name : comp) : told (list (pystr * N) * pystr) :=
  let '(axis_name_mapping, left_pattern) := st in
  let? a := einsum_axis_msg raw_axis_name in
  match a with
  | None => Done (axis_name_mapping, left_pattern ++ s_dots)
  | Some axis_name =>
      let? axis_name_mapping :=
        if dict_has str_eqb axis_name axis_name_mapping then Done axis_name_mapping
        else match nth_error ascii_letters (length axis_name_mapping) with
             | None => Says ManyAxes                                              (* 799-800 *)
             | Some letter => Done (dict_set str_eqb axis_name letter axis_name_mapping)
             end in
      let? letter := quiet (of_option KeyError (dict_get str_eqb axis_name axis_name_mapping)) in
      Done (axis_name_mapping, left_pattern ++ [letter])
  end.
(** 789-805 *)
Definition left_step_msg (st : list (pystr * N) * list pystr) (lft : parsed) : told (list (pystr * N) * list pystr) :=
  let '(axis_name_mapping, left_patterns) := st in
  let? (axis_name_mapping, left_pattern) := foldT left_axis_step_msg (p_composition lft) (axis_name_mapping, []) in
  Done (axis_name_mapping, left_patterns ++ [left_pattern]).
(** 809-820 *)
Definition right_axis_step_msg (axis_name_mapping : list (pystr * N)) (compact_pattern : pystr) (raw_axis_name : comp) : told pystr :=
  let? a := einsum_axis_msg raw_axis_name in
  match a with
  | None => Done (compact_pattern ++ s_dots)
  | Some axis_name =>
      match dict_get str_eqb axis_name axis_name_mapping with
      | None => Says (UnknownAxis axis_name)                                      (* 817-818 *)
      | Some letter => Done (compact_pattern ++ [letter])
      end
  end.
(** 771-822.  A pattern with several arrows makes the assignment of line 777 fail. *)
Definition compactify_told (U : unicode) (pattern : pystr) : told pystr :=
  let? _ := says_if (negb (str_contains s_arrow pattern)) NoArrow in              (* 773-776 *)
  match str_split s_arrow pattern with                                            (* 777 *)
  | [lefts_str; right_str] =>
      let? (lefts, next) := foldT (fun '(lefts, next) s =>                        (* 779 *)
                                     let? (p, next) := parsing (parse_expression_msg U true true next s) in
                                     Done (lefts ++ [p], next)) (str_split s_comma lefts_str) ([], 0) in
      let? (rght, _) := parsing (parse_expression_msg U true false next right_str) in   (* 781 *)
      let? (axis_name_mapping, left_patterns) := foldT left_step_msg lefts ([], []) in
      foldT (right_axis_step_msg axis_name_mapping) (p_composition rght)
        (str_join s_comma left_patterns ++ s_arrow)                               (* 807 *)
  | _ => Other ValueError
  end.
(** 841-916 [einsum] *)
Definition einsum_told {T} (U : unicode) (lib_einsum : pystr -> list T -> result T) (tensors_and_pattern : list (T + pystr)) : told T :=
  let? _ := says_if (length tensors_and_pattern <=? 1) FewArguments in
  match last tensors_and_pattern (inr []) with
  | inl _ => Says LastNotText
  | inr pattern =>
      let tensors := removelast tensors_and_pattern in
      let? compact := compactify_told U pattern in
      match tensors with
      | inr _ :: _ => Other RuntimeError
      | _ => let? ts := quiet (mapM as_tensor tensors) in quiet (lib_einsum compact ts)
      end
  end.

(** ** The texts

    [opname]: "pack" or "unpack"; [shapes_text]: the shapes given to unpack, as
    printed; [shape_text]: how a shape is printed *)
Section Text.
  Context (opname pattern shapes_text : pystr) (shape_text : list Z -> pystr).
  Definition call_text : pystr := opname ++ lit "(..., " ++ quoted pattern ++ lit ")".
  Definition complaint_text (c : complaint) : pystr :=
    match c with
    | RepeatedAxes => lit "Duplicates in axes names in " ++ call_text
    | NoStar => lit "No *-axis in " ++ call_text
    | InvalidAxis x => lit "Invalid axis name " ++ x ++ lit " in " ++ call_text
    | FewAxes i shape least =>
        lit "packed tensor #" ++ str_of_nat i ++ lit " (enumeration starts with 0) has shape " ++ shape_text shape ++
        lit ", while pattern " ++ pattern ++ lit " assumes at least " ++ str_of_nat least ++ lit " axes"
    | WrongRank shape => lit "unpack(..., " ++ pattern ++ lit ") received input of wrong dim with shape " ++ shape_text shape
    | ManyOpen => lit "unpack(..., " ++ pattern ++ lit ") received more than one -1 in " ++ shapes_text ++ lit " and can't infer dimensions"
    | NoSplit n =>
        lit "Error during unpack(..., " ++ quoted pattern ++ lit "): could not split axis of size " ++ str_of_int n ++
        lit " into requested " ++ shapes_text
    | InPattern m => mistake_text (fun _ => true) [] [] m     (* the parser's messages use none of these *)
    | Composite shape => lit "Can't parse shape with composite axes: " ++ pattern ++ lit " " ++ shape_text shape
    | FewDims shape => lit "Can't parse shape with this number of dimensions: " ++ pattern ++ lit " " ++ shape_text shape
    | OtherDims shape => lit "Can't parse shape with different number of dimensions: " ++ pattern ++ lit " " ++ shape_text shape
    | NotOne shape => lit "Length of axis is not 1: " ++ pattern ++ lit " " ++ shape_text shape
    | NotNumber shape => lit "Length of anonymous axis does not match: " ++ pattern ++ lit " " ++ shape_text shape
    | FewArguments => lit "`einops.einsum` takes at minimum two arguments: the tensors (at least one), followed by the pattern."
    | LastNotText => lit "The last argument passed to `einops.einsum` must be a string, representing the einsum pattern."
    | NoArrow => lit "Einsum pattern must contain '->'."
    | Singleton => lit "Singleton () axes are not yet supported in einsum."
    | Composed => lit "Shape rearrangement is not yet supported in einsum."
    | Anonymous => lit "Anonymous axes are not yet supported in einsum."
    | EmptyName => lit "Encountered empty axis name in einsum."
    | ManyAxes => lit "Too many axes in einsum."
    | UnknownAxis x => lit "Unknown axis " ++ x ++ lit " on right side of einsum " ++ pattern ++ lit "."
    end.
End Text.
