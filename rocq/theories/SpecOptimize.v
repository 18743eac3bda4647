(** * Specification: what shape, reduced axes and reordering stand for

    Part of the specification. *)
From Coq Require Import Permutation.
From Verif Require Import Py Tensor.

(** the elements of the result of reshape, reduction and transposition, in C order *)
Definition flat_result {A} (lib : bool) (red : list A -> result A) (x : tensor A) (init_shapes reduced_axes axes_reordering : list nat) : result (list A) :=
  let* t := t_reshape lib x (map Z.of_nat init_shapes) in
  let* t := t_reduce red t reduced_axes in
  let* t := t_transpose t axes_reordering in
  Ok (dat t).

(** the reduced axes are different axes of the shape, and the reordering is a
    permutation of the others *)
Definition sensible (init_shapes reduced_axes axes_reordering : list nat) : Prop :=
  length axes_reordering + length reduced_axes = length init_shapes /\
  NoDup reduced_axes /\ (forall a, In a reduced_axes -> a < length init_shapes) /\
  Permutation axes_reordering (seq 0 (length axes_reordering)).

(** there is nothing left to join: no two neighbouring axes are both reduced, and
    no two neighbouring axes that are kept stay neighbours, in this order *)
Definition fully_joined (init_shapes reduced_axes axes_reordering : list nat) : Prop :=
  (forall a, In a reduced_axes -> ~ In (S a) reduced_axes) /\
  (forall a o1 o2, S a < length init_shapes -> ~ In a reduced_axes -> ~ In (S a) reduced_axes ->
     let k := length (filter (fun b => negb (nat_mem b reduced_axes)) (seq 0 a)) in
     axes_reordering <> o1 ++ k :: S k :: o2).
