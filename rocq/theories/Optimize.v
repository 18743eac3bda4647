(** * Model of einops/einops.py: _optimize_transformation *)
From Verif Require Import Py Tensor.

(** [sorted(axes)] *)
Fixpoint insert_asc (x : nat) (l : list nat) : list nat :=
  match l with [] => [x] | y :: l' => if x <=? y then x :: l else y :: insert_asc x l' end.
Definition sort_asc (l : list nat) : list nat := fold_right insert_asc [] l.

(** einops.py:60-62, 85, 89-90: [init_shapes = init_shapes[:a] + init_shapes[a + 1:];
    init_shapes[a - 1] *= removed_length].  [a] is at least 1 wherever this is used *)
Definition join_axis (init_shapes : list nat) (a : nat) : result (list nat) :=
  let* removed_length := list_get init_shapes a in                               (* 60, 85 *)
  let init_shapes := firstn a init_shapes ++ skipn (a + 1) init_shapes in
  let* d := list_get init_shapes (a - 1) in
  list_upd init_shapes (a - 1) (d * removed_length).

(** einops.py:58-63: one round of the first loop *)
Definition join_reduced (st : list nat * list nat) (i : nat) : result (list nat * list nat) :=
  let '(init_shapes, reduced_axes) := st in
  let* a := list_get reduced_axes i in
  let* b := list_get reduced_axes (i + 1) in
  if a + 1 =? b
  then let* init_shapes := join_axis init_shapes b in
       Ok (init_shapes, firstn (i + 1) reduced_axes ++ map (fun axis => axis - 1) (skipn (i + 2) reduced_axes))
  else Ok st.

(** einops.py:66-74 [build_mapping]; the dict's keys are 0, 1, ... *)
Definition build_mapping (n : nat) (reduced_axes axes_reordering : list nat) : result (list (option nat)) :=
  foldM (fun init_to_final axis =>
           if nat_mem axis reduced_axes then Ok (init_to_final ++ [None])
           else let after_reduction := length (filter (fun x => match x with Some _ => true | None => false end) init_to_final) in
                let* k := of_option ValueError (index_of Nat.eqb after_reduction axes_reordering) in
                Ok (init_to_final ++ [Some k]))
    (seq 0 n) [].

(** einops.py:91-99 *)
Definition drop_from_order (axes_reordering : list nat) (removed : nat) : list nat :=
  flat_map (fun axis => if axis =? removed then [] else if axis <? removed then [axis] else [axis - 1]) axes_reordering.

(** einops.py:79-100: one round of the second loop *)
Definition join_kept (st : list nat * list nat * list nat * list (option nat)) (init_axis : nat)
    : result (list nat * list nat * list nat * list (option nat)) :=
  let '(init_shapes, reduced_axes, axes_reordering, init_axis_to_final_axis) := st in
  let* a := of_option KeyError (nth_error init_axis_to_final_axis init_axis) in
  match a with
  | None => Ok st
  | Some fa =>
      let* b := of_option KeyError (nth_error init_axis_to_final_axis (init_axis + 1)) in
      match b with
      | None => Ok st
      | Some fb =>
          if fa + 1 =? fb
          then let removed_axis := init_axis + 1 in
               let removed_after := length (filter (fun x => negb (nat_mem x reduced_axes)) (seq 0 removed_axis)) in
               let reduced_axes := map (fun axis => if axis <? removed_axis then axis else axis - 1) reduced_axes in
               let* init_shapes := join_axis init_shapes removed_axis in
               let axes_reordering := drop_from_order axes_reordering removed_after in
               let* m := build_mapping (length init_shapes) reduced_axes axes_reordering in
               Ok (init_shapes, reduced_axes, axes_reordering, m)
          else Ok st
      end
  end.

(** einops.py:50-102 [_optimize_transformation]; axes are non-negative.  Nothing
    is done with [final_shapes]. *)
Definition optimize_transformation {F} (init_shapes reduced_axes axes_reordering : list nat) (final_shapes : F)
    : result (list nat * list nat * list nat * F) :=
  let* _ := raise_if (negb (length axes_reordering + length reduced_axes =? length init_shapes)) AssertionError in
  let reduced_axes := sort_asc reduced_axes in                                    (* 56 *)
  let* (init_shapes, reduced_axes) :=
    foldM join_reduced (rev (seq 0 (length reduced_axes - 1))) (init_shapes, reduced_axes) in
  let* m := build_mapping (length init_shapes) reduced_axes axes_reordering in    (* 76 *)
  let* (init_shapes, reduced_axes, axes_reordering, _) :=
    foldM join_kept (rev (seq 0 (length init_shapes - 1))) (init_shapes, reduced_axes, axes_reordering, m) in
  Ok (init_shapes, reduced_axes, axes_reordering, final_shapes).
