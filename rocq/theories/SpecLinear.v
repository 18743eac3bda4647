(** * Specification: linear layers

    Part of the specification. *)
From Verif Require Import Py Tensor SpecElements.

(** biases added up; a layer without bias has none *)
Definition bias_zip {A} (add : A -> A -> A) (b c : option (tensor A)) : option (tensor A) :=
  match b, c with Some b, Some c => Some (t_zip add b c) | _, _ => None end.

(** a value for the bias of a layer whose bias has the given shape *)
Definition bias_of {A} (shape : option (list Z)) (b : option (tensor A)) : Prop :=
  match shape with None => b = None | Some s => exists b0, b = Some b0 /\ wf b0 /\ map Z.of_nat (shp b0) = s end.

(** multiplication by a scalar, from one side or the other *)
Record scaling {A} (add : A -> A -> A) (zero : A) (h : A -> A) : Prop := {
  sc_add : forall a b, h (add a b) = add (h a) (h b);
  sc_zero : h zero = zero
}.
