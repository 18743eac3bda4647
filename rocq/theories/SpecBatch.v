(** * Specification: slices of a tensor

    Part of the specification. *)
From Verif Require Import Py Tensor SpecGrammar SpecPattern SpecOps Parsing Recipe Ops Backends Api.

(** [x] is [X] with index [i] at dimension [k], which [x] does not have *)
Definition slice_of {A} (k i : nat) (X x : tensor A) : Prop :=
  wf X /\ wf x /\ k <= length (shp x) /\
  (exists n, i < n /\ shp X = firstn k (shp x) ++ n :: skipn k (shp x)) /\
  forall idx, length idx = length (shp x) -> get x idx = get X (firstn k idx ++ i :: skipn k idx).

(** number of indices at dimension [k] *)
Definition count_at {A} (k : nat) (X : tensor A) : nat := nth k (shp X) 0.

(** the three operations on one tensor or a list of tensors, with fixed sizes; [p] is the
    pattern that [repeat] is called with first *)
Inductive operation {A} (r : runtime A) (p : pystr) (sizes : list (pystr * Z)) :
  (input (tensor A) -> pystr -> result (tensor A)) -> Prop :=
| op_rearrange : operation r p sizes (fun x q => rearrange r x q sizes)
| op_repeat : repeat_sizes_ok r p sizes -> operation r p sizes (fun x q => repeat_ r x q sizes)
| op_reduce s : builtin s -> reduction_fits r s -> float_if_mean r s ->
    operation r p sizes (fun x q => reduce r x q (RStr s) sizes).
