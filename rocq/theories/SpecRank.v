(** * Specification: how many dimensions tensors have

    Part of the specification. *)
From Verif Require Import Py Tensor SpecSem SpecGrammar SpecPattern.

Definition rank {A} (t : tensor A) : nat := length (shp t).
(** The most dimensions that are needed: those of the input and of the result, and the
    single axes of either side. *)
Definition most_dims (gl gr : list (list label)) : nat :=
  Nat.max (Nat.max (length gl) (length (concat gl))) (Nat.max (length gr) (length (concat gr))).
