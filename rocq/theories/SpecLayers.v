(** * Vocabulary for the properties of layers *)
From Verif Require Import Py Tensor Parsing Recipe Ops Backends SpecGrammar SpecPattern Api Layers.

(** A layer made from [pattern] behaves like the function [f]: on every tensor
    whose number of dimensions the pattern allows with less than 8 dimensions under
    the ellipsis; for others it has no recipe. *)
Definition like_function {A} (r : runtime A) (L : layer (tensor A)) (pattern : pystr) (f : tensor A -> result (tensor A)) : Prop :=
  exists l rr, reads (rt_unicode r) pattern l rr /\ forall x,
    (forall e, rank_fits l (length (shp x)) e -> e < 8 -> call_layer r L x = f x) /\
    ((forall e, rank_fits l (length (shp x)) e -> 8 <= e) -> call_layer r L x = Err KeyError).

(** the torch layer knows the named reductions except "any" and "all", and leaves
    it to torch to refuse the mean of integers *)
Definition torch_fits {A} (r : runtime A) (red : reduction (tensor A)) : Prop :=
  rt_framework r = Torch -> exists s, red = RStr s /\ s <> lit "any" /\ s <> lit "all" /\ float_if_mean r s.
