(** * Specification: reductions that notice a change of one element

    Part of the specification. *)
From Verif Require Import Py.

(** among [a]s, a single [b] makes a difference, wherever it stands *)
Definition notices {A} (red : list A -> result A) (a b : A) : Prop :=
  a <> b /\ forall k m, exists u v, red (repeat a (S (k + m))) = Ok u /\ red (repeat a k ++ b :: repeat a m) = Ok v /\ u <> v.
