(** * Specification: einsum as a sum of products

    Part of the specification. *)
From Verif Require Import Py Tensor SpecGrammar SpecEinsum SpecElements.

(** the operands of a call with their part of the pattern *)
Definition operands (A : Type) := list (list entry * tensor A).

(** the lengths of the axes of [all] that [names] does not have *)
Definition other_sizes (len : pystr -> nat) (names all : list pystr) : list (pystr * Z) :=
  map (fun s => (s, Z.of_nat (len s))) (filter (fun s => negb (str_mem s names)) all).

(** a tensor of one value; the product of tensors of one shape *)
Definition t_full {A} (shape : list nat) (a : A) : tensor A := mkT shape (repeat a (prodn shape)).
Definition t_product {A} (mul : A -> A -> A) (one : A) (shape : list nat) (ts : list (tensor A)) : tensor A :=
  fold_right (t_zip mul) (t_full shape one) ts.
