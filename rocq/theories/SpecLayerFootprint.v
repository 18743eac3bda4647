(** * Specification: sizes of the tensors that layers, einsum and EinMix make

    Part of the specification. *)
From Verif Require Import Py Tensor Api Footprint SpecFootprint.

Section Args.
  Context {A : Type}.
  (** a tensor of which nothing has been made, and the arguments of einsum without and with such logs *)
  Definition new (t : tensor A) : logged A := (t, []).
  Definition without_log (a : logged A + pystr) : tensor A + pystr := match a with inl x => inl (fst x) | inr s => inr s end.
  Definition with_new (a : tensor A + pystr) : logged A + pystr := match a with inl t => inl (new t) | inr s => inr s end.
  (** all these shapes have [n] elements *)
  Definition all_of_size (n : nat) (ss : list (list nat)) : Prop := forall s, In s ss -> prodn s = n.
  (** [+=] keeps the shape of its left side *)
  Definition keeps_shape (iadd : tensor A -> tensor A -> result (tensor A)) : Prop := forall t b y, iadd t b = Ok y -> shp y = shp t.
End Args.
