(** * Specification: scalar products of tensors

    Part of the specification. *)
From Verif Require Import Py Tensor SpecElements.

(** the sum of the products of the elements of two tensors of one shape *)
Definition inner {A} (add mul : A -> A -> A) (zero : A) (x y : tensor A) : A :=
  fold_right add zero (dat (t_zip mul x y)).

(** a commutative monoid, and products that distribute over its sums (from the left) *)
Record sums_and_products {A} (add mul : A -> A -> A) (zero : A) : Prop := {
  sp_comm : forall a b, add a b = add b a;
  sp_assoc : forall a b c, add a (add b c) = add (add a b) c;
  sp_zero : forall a, add zero a = a;
  sp_distr : forall a b c, mul a (add b c) = add (mul a b) (mul a c);
  sp_mul_zero : forall a, mul a zero = zero
}.
