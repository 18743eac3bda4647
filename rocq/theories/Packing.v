(** * Model of einops/packing.py and of pack/unpack in einops/array_api.py *)
From Verif Require Import Py Tensor Parsing Recipe Ops Backends SpecGrammar SpecPattern Api.

Definition star : pystr := [c_star].

(** packing.py:14-31 [analyze_pattern]; [opname] only occurs in messages.  The
    cache is dealt with in Cache.v. *)
Definition analyze_pattern (U : unicode) (pattern : pystr) : result (nat * nat * nat) :=
  let axes := str_words U pattern in                                              (* 17 *)
  let axes_set := nodup str_eq_dec axes in                                        (* 18 *)
  let* _ := raise_if (negb (length axes =? length axes_set)) EinopsError in       (* 19-20 *)
  let* _ := raise_if (negb (str_mem star axes_set)) EinopsError in                (* 21-22 *)
  let* _ := raise_if (existsb (fun axis => negb (str_eqb axis star)
                                           && negb (check_axis_name U false axis)) axes)
                     EinopsError in                                               (* 23-27 *)
  let* n_axes_before := of_option ValueError (index_of str_eqb star axes) in      (* 28 *)
  let n_axes_after := length axes - n_axes_before - 1 in
  let min_axes := n_axes_before + n_axes_after in
  Ok (n_axes_before, n_axes_after, min_axes).

(** packing.py:91-95 [prod] *)
Definition prod_shape (x : list Z) : Z := fold_left Z.mul x 1%Z.

(** what [get_backend]/[__array_namespace__] provide to pack and unpack *)
Section Packing.
  Context {T : Type} (U : unicode)
          (shape_of : T -> list Z) (reshape : T -> list Z -> result T)
          (concat_ : list T -> nat -> result T) (slice : T -> nat -> Z -> Z -> result T).

  (** packing.py:34-88, array_api.py:51-68 [pack]; [analysis] is the outcome of
      [analyze_pattern] (70) *)
  Definition pack_given (analysis : result (nat * nat * nat)) (tensors : list T) : result (T * list (list Z)) :=
    let* (n_axes_before, n_axes_after, min_axes) := analysis in
    let* _ := of_option IndexError (nth_error tensors 0) in                       (* 73: tensors[0] *)
    let* (reshaped_tensors, packed_shapes) :=
      foldM (fun '(reshaped, packed_shapes) tensor =>                             (* 77-86 *)
               let shape := shape_of tensor in
               let* _ := raise_if (length shape <? min_axes) EinopsError in
               let axis_after_packed_axes := length shape - n_axes_after in
               let packed_shapes := packed_shapes ++
                     [skipn n_axes_before (firstn axis_after_packed_axes shape)] in
               let* t := reshape tensor (firstn n_axes_before shape ++ [(-1)%Z]
                                           ++ skipn axis_after_packed_axes shape) in
               Ok (reshaped ++ [t], packed_shapes)) tensors ([], []) in
    let* t := concat_ reshaped_tensors n_axes_before in
    Ok (t, packed_shapes).
  Definition pack_with (tensors : list T) (pattern : pystr) : result (T * list (list Z)) :=
    pack_given (analyze_pattern U pattern) tensors.

  (** [-1 in p_shape] *)
  Definition has_minus1 (p : list Z) : bool := existsb (fun d => (d =? -1)%Z) p.

  (** packing.py:148: lengths of the pieces, -1 where unknown *)
  Definition composed_lengths (packed_shapes : list (list Z)) : list Z :=
    map (fun p => if has_minus1 p then (-1)%Z else prod_shape p) packed_shapes.

  (** packing.py:162-171: the split positions; [n] is the length of the axis *)
  Definition split_positions (n : Z) (lengths : list Z) : result (list Z) :=
    let init := repeat 0%Z (length lengths) ++ [n] in
    if length (filter (fun x => (x =? -1)%Z) lengths) =? 0
    then foldM (fun sp '(i, x) => let* a := list_get sp i in list_upd sp (i + 1) (a + x)%Z)
           (enumerate (removelast lengths)) init
    else
      let* u := of_option ValueError (index_of Z.eqb (-1)%Z lengths) in
      let* sp := foldM (fun sp i => let* a := list_get sp i in let* x := list_get lengths i in
                                    list_upd sp (i + 1) (a + x)%Z) (seq 0 u) init in
      foldM (fun sp j => let* b := list_get sp (j + 1) in let* x := list_get lengths j in
                         list_upd sp j (b - x)%Z)
        (rev (seq (u + 1) (length lengths - (u + 1)))) sp.

  (** packing.py:98-190, array_api.py:71-124 [unpack]; [analysis] is the outcome of
      [analyze_pattern] (139) *)
  Definition unpack_given (analysis : result (nat * nat * nat)) (tensor : T) (packed_shapes : list (list Z)) : result (list T) :=
    let* (n_axes_before, n_axes_after, min_axes) := analysis in
    let input_shape := shape_of tensor in
    let* _ := raise_if (negb (length input_shape =? n_axes_before + 1 + n_axes_after)) EinopsError in (* 143-144 *)
    let lengths := composed_lengths packed_shapes in
    let* _ := raise_if (1 <? length (filter (fun x => (x =? -1)%Z) lengths)) EinopsError in (* 150-154 *)
    let* n := list_get input_shape n_axes_before in
    let* sp := split_positions n lengths in
    let shape_start := firstn n_axes_before input_shape in
    let shape_end := skipn (n_axes_before + 1) input_shape in
    match mapM (fun '(i, element_shape) =>                                        (* 176-184 *)
                  let* a := list_get sp i in
                  let* b := list_get sp (i + 1) in
                  let* piece := slice tensor n_axes_before a b in
                  reshape piece (shape_start ++ element_shape ++ shape_end))
            (enumerate packed_shapes) with
    | Ok ts => Ok ts
    | Err _ => Err RuntimeError                                                   (* 185-190 *)
    end.
  Definition unpack_with (tensor : T) (packed_shapes : list (list Z)) (pattern : pystr) : result (list T) :=
    unpack_given (analyze_pattern U pattern) tensor packed_shapes.
End Packing.

(** einops.pack, einops.unpack and their namesakes in einops.array_api *)
Definition pack {A} (r : runtime A) (tensors : list (tensor A)) (pattern : pystr) :=
  pack_with (rt_unicode r) (b_shape (rt_backend r)) (b_reshape (rt_backend r)) (b_concat (rt_backend r)) tensors pattern.
Definition unpack {A} (r : runtime A) (x : tensor A) (packed_shapes : list (list Z)) (pattern : pystr) :=
  unpack_with (rt_unicode r) (b_shape (rt_backend r)) (b_reshape (rt_backend r)) (b_slice (rt_backend r)) x packed_shapes pattern.
Definition xp_pack {A} (r : runtime A) (tensors : list (tensor A)) (pattern : pystr) :=
  pack_with (rt_unicode r) (xp_shape (rt_ns r)) (xp_reshape (rt_ns r)) (xp_concat (rt_ns r)) tensors pattern.
Definition xp_unpack {A} (r : runtime A) (x : tensor A) (packed_shapes : list (list Z)) (pattern : pystr) :=
  unpack_with (rt_unicode r) (xp_shape (rt_ns r)) (xp_reshape (rt_ns r)) (xp_slice (rt_ns r)) x packed_shapes pattern.
