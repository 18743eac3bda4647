(** * Specification: transposed operands

    Part of the specification. *)
From Verif Require Import Py Tensor SpecGrammar SpecPattern SpecShape SpecEinsum SpecDocumented Ops Api.

(** the shape of a tensor with these dimensions: lengths of the names, lengths of the
    dimensions under the ellipsis *)
Definition entry_shape (len : pystr -> nat) (dots : list nat) (es : list entry) : list nat :=
  flat_map (fun en => match en with EName s => [len s] | EDots => dots end) es.

(** an operand of einsum, left as it is or transposed by rearrange *)
Definition turned {A} (r : runtime A) (o o' : list entry * tensor A) : Prop :=
  o' = o \/
  exists q E F, reads (rt_unicode r) q E F /\ ungrouped E /\ ungrouped F /\ incl (keys E) (keys F) /\ incl (keys F) (keys E) /\
    fst o = entries_of E /\ fst o' = entries_of F /\ rearrange r (One (snd o)) q [] = Ok (snd o').
