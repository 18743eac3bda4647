(** * pack, unpack, parse_shape and _enumerate_directions on graph tensors

    The same functions as in Packing.v and Ops.v, with dimensions that may be
    symbols. *)
From Verif Require Import Py Tensor Parsing Recipe Ops Backends Api Symbolic Packing SpecGrammar SpecForms.

Section SymPacking.
  Context {E A : Type} (r : runtime A).
  Notation B := (@the_graph_backend E A r).
  Implicit Types (d : sdim E) (n : node E A).

  (** [d == z].  UnknownSize equals everything (_backends.py:144-145).  Symbols:
      pytensor variables are compared by identity, so that they differ from every
      number; the comparison of tensorflow (and keras) symbols is another symbol,
      and its truth value, which the code asks for, is a TypeError
      (OperatorNotAllowedInGraphError). *)
  Definition sym_eqb d (z : Z) : result bool :=
    match d with
    | SInt x => Ok (x =? z)%Z
    | SUnknown => Ok true
    | SSym _ => match rt_framework r with Pytensor => Ok false | _ => Err TypeError end
    end.
  (** [z in l] *)
  Fixpoint sym_in (z : Z) (l : list (sdim E)) : result bool :=
    match l with
    | [] => Ok false
    | d :: l' => let* b := sym_eqb d z in if b then Ok true else sym_in z l'
    end.
  (** [l.index(z)] *)
  Fixpoint sym_index (z : Z) (l : list (sdim E)) : result nat :=
    match l with
    | [] => Err ValueError
    | d :: l' => let* b := sym_eqb d z in if b then Ok 0 else let* i := sym_index z l' in Ok (S i)
    end.
  (** [a + b] and [a - b]; UnknownSize has neither *)
  Definition sym_lift (f : Z -> Z -> Z) a b : result (sdim E) :=
    match a, b with
    | SInt x, SInt y => Ok (SInt (f x y))
    | SUnknown, _ => Err TypeError
    | _, SUnknown => Err TypeError
    | _, _ => Ok (SSym (fun e => let* x := s_run a e in let* y := s_run b e in Ok (f x y)))
    end.
  Definition sym_add := sym_lift Z.add.
  Definition sym_sub := sym_lift Z.sub.

  (** packing.py:34-88 [pack] *)
  Definition graph_pack (tensors : list (node E A)) (pattern : pystr) : result (node E A * list (list (sdim E))) :=
    let* (n_axes_before, n_axes_after, min_axes) := analyze_pattern (rt_unicode r) pattern in  (* 70 *)
    let* _ := of_option IndexError (nth_error tensors 0) in                                    (* 73 *)
    let* (reshaped_tensors, packed_shapes) :=
      foldM (fun '(reshaped, packed_shapes) tensor =>                                          (* 77-86 *)
               let shape := b_shape B tensor in
               let* _ := raise_if (length shape <? min_axes) EinopsError in
               let axis_after_packed_axes := length shape - n_axes_after in
               let packed_shapes := packed_shapes ++
                     [skipn n_axes_before (firstn axis_after_packed_axes shape)] in
               let* t := b_reshape B tensor (firstn n_axes_before shape ++ [SInt (-1)%Z]
                                               ++ skipn axis_after_packed_axes shape) in
               Ok (reshaped ++ [t], packed_shapes)) tensors ([], []) in
    let* t := b_concat B reshaped_tensors n_axes_before in
    Ok (t, packed_shapes).

  (** packing.py:148 *)
  Definition graph_lengths (packed_shapes : list (list (sdim E))) : result (list (sdim E)) :=
    mapM (fun p => let* b := sym_in (-1)%Z p in Ok (if b then SInt (-1)%Z else product sym_ops p)) packed_shapes.
  (** packing.py:150: [sum(int(x == -1) for x in ...)] *)
  Definition graph_unknowns (lengths : list (sdim E)) : result nat :=
    let* bs := mapM (fun x => sym_eqb x (-1)%Z) lengths in
    Ok (length (filter (fun b : bool => b) bs)).
  (** packing.py:162-171 *)
  Definition graph_positions (n : sdim E) (lengths : list (sdim E)) (n_unknown : nat) : result (list (sdim E)) :=
    let init := repeat (SInt 0%Z) (length lengths) ++ [n] in
    if n_unknown =? 0
    then foldM (fun sp '(i, x) => let* a := list_get sp i in let* c := sym_add a x in list_upd sp (i + 1) c)
           (enumerate (removelast lengths)) init
    else
      let* u := sym_index (-1)%Z lengths in
      let* sp := foldM (fun sp i => let* a := list_get sp i in let* x := list_get lengths i in
                                    let* c := sym_add a x in list_upd sp (i + 1) c) (seq 0 u) init in
      foldM (fun sp j => let* b := list_get sp (j + 1) in let* x := list_get lengths j in
                         let* c := sym_sub b x in list_upd sp j c)
        (rev (seq (u + 1) (length lengths - (u + 1)))) sp.

  (** packing.py:98-190 [unpack]; what fails when the graph is run is not caught *)
  Definition graph_unpack n (packed_shapes : list (list (sdim E))) (pattern : pystr) : result (list (node E A)) :=
    let* (n_axes_before, n_axes_after, min_axes) := analyze_pattern (rt_unicode r) pattern in
    let input_shape := b_shape B n in
    let* _ := raise_if (negb (length input_shape =? n_axes_before + 1 + n_axes_after)) EinopsError in
    let* lengths := graph_lengths packed_shapes in
    let* n_unknown := graph_unknowns lengths in
    let* _ := raise_if (1 <? n_unknown) EinopsError in
    let* m := list_get input_shape n_axes_before in
    let* sp := graph_positions m lengths n_unknown in
    let shape_start := firstn n_axes_before input_shape in
    let shape_end := skipn (n_axes_before + 1) input_shape in
    match mapM (fun '(i, element_shape) =>
                  let* a := list_get sp i in
                  let* b := list_get sp (i + 1) in
                  let* piece := b_slice B n n_axes_before a b in
                  b_reshape B piece (shape_start ++ element_shape ++ shape_end))
            (enumerate packed_shapes) with
    | Ok ts => Ok ts
    | Err _ => Err RuntimeError
    end.

  (** einops.py:653-712 [parse_shape] *)
  Definition graph_parse_shape n (pattern : pystr) : result (list (pystr * sdim E)) :=
    let shape := b_shape B n in
    let* (exp, _) := parse_expression (rt_unicode r) true false 0 pattern in
    let* _ := raise_if (has_composed_axes exp) RuntimeError in
    let ncomp := length (p_composition exp) in
    let* _ := if length shape =? ncomp then Ok tt
              else if p_has_ellipsis exp
                   then raise_if (length shape <? ncomp - 1) RuntimeError
                   else Err RuntimeError in
    let* composition :=
      if p_has_ellipsis exp
      then let* k := of_option ValueError (find_cell (p_composition exp)) in
           Ok (firstn k (p_composition exp)
                 ++ repeat underscore (length shape + 1 - ncomp)
                 ++ skipn (S k) (p_composition exp))
      else Ok (p_composition exp) in
    foldM (fun result '(c, axis_length) =>
             match cell_axes c with
             | [] => let* b := sym_eqb axis_length 1 in if b then Ok result else Err RuntimeError
             | [AxName s] => if str_eqb s [c_under] then Ok result
                             else Ok (dict_set str_eqb s axis_length result)
             | [AxAnon _ v] => let* b := sym_eqb axis_length v in if b then Ok result else Err RuntimeError
             | _ => Err ValueError
             end) (combine composition shape) [].

  (** einops.py:716-735 [_enumerate_directions] *)
  Definition graph_directions n : result (list (node E A)) := enumerate_directions sym_ops B n.
End SymPacking.

(** a Python int *)
Definition is_int {E} (d : sdim E) : Prop := match d with SInt _ => True | _ => False end.
(** the item [i] of a pattern of parse_shape asks nothing about the length of its
    dimension: a name or [_] *)
Definition unasked (i : item) : Prop := exists s, content i = [AName s].
(** [d] is an int, or a symbol of pytensor, and not a symbol that stands for -1 *)
Definition comparable {E} (f : framework) (e : E) (d : sdim E) : Prop :=
  match d with
  | SInt _ => True
  | SSym _ => f = Pytensor /\ ~ stands_for e d (-1)%Z
  | SUnknown => False
  end.
