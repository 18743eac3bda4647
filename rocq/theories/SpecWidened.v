(** * Specification: repeated operands

    Part of the specification. *)
From Verif Require Import Py Tensor SpecGrammar SpecPattern SpecShape SpecEinsum SpecDocumented Ops Api.

(** an operand of einsum, left as it is or repeated along new axes (and transposed), which
    get the lengths they have elsewhere *)
Definition widened {A} (r : runtime A) (len : pystr -> nat) (o o' : list entry * tensor A) : Prop :=
  o' = o \/
  exists q E F sizes, reads (rt_unicode r) q E F /\ ungrouped E /\ ungrouped F /\ fst o = entries_of E /\ fst o' = entries_of F /\
    NoDup (map fst sizes) /\ (forall s z, In (s, z) sizes -> z = Z.of_nat (len s)) /\ repeat_ r (One (snd o)) q sizes = Ok (snd o').
