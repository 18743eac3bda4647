(** * Specification: packing in stages

    Part of the specification; independent of the model. *)
From Verif Require Import Py Tensor SpecPacking.

(** the length of the axis into which a group of shapes goes: -1 if it is not determined *)
Definition group_length (ps : list (list Z)) : Z :=
  if existsb is_open ps then (-1)%Z else Z.of_nat (known_total ps).
(** shapes that do not ask for more than there are, [n], or are all known *)
Definition no_overlap (n : nat) (ps : list (list Z)) : Prop := existsb is_open ps = true -> known_total ps <= n.
