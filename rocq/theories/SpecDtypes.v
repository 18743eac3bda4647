(** * Specification: element types

    Part of the specification. *)
From Verif Require Import Py Tensor Ops Dtypes.

(** a result without its type *)
Definition forget {A} (m : result (typed A)) : result (tensor A) := let* x := m in Ok (ty_val x).
Definition forget_input {A} (x : input (typed A)) : input (tensor A) :=
  match x with One t => One (ty_val t) | Many ts => Many (map ty_val ts) end.

(** a reduction of typed tensors that does to their elements what the other does *)
Inductive forgets_to {A} : reduction (typed A) -> reduction (tensor A) -> Prop :=
| F_str s : forgets_to (RStr s) (RStr s)
| F_call g f : (forall x axes, forget (g x axes) = f (ty_val x) axes) -> forgets_to (RCall g) (RCall f).

(** the type of the tensor that a call works on: of the tensor, or of the stacked list *)
Inductive type_of_input {A} (rules : type_rules) : input (typed A) -> dtype -> Prop :=
| TI_one x : type_of_input rules (One x) (ty_dtype x)
| TI_many xs d : tr_common rules (map ty_dtype xs) = Ok d -> type_of_input rules (Many xs) d.
