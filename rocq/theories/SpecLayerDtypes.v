(** * Specification: element types in einsum and EinMix

    Part of the specification. *)
From Verif Require Import Py Tensor Dtypes.

(** an argument of einsum without its type; the types of the tensors among the arguments *)
Definition value_of {A} (a : typed A + pystr) : tensor A + pystr := match a with inl t => inl (ty_val t) | inr s => inr s end.
Definition types_in {A} (args : list (typed A + pystr)) : list dtype := flat_map (fun a => match a with inl t => [ty_dtype t] | inr _ => [] end) args.

(** the type after a bias, if there is one, has been added *)
Definition bias_type {A} (iadd_type : dtype -> dtype -> result dtype) (d : dtype) (b : option (typed A)) : result dtype :=
  match b with Some b => iadd_type d (ty_dtype b) | None => Ok d end.
