(** * Specification: choosing nothing from a batch

    Part of the specification. *)
From Verif Require Import Py Tensor Parsing SpecEinsum.

(** [x'] is [x] with nothing chosen along dimension [k]: the length there is 0 *)
Definition emptied {A} (k : nat) (x x' : tensor A) : Prop :=
  wf x /\ wf x' /\ exists s n, k <= length s /\ shp x = firstn k s ++ n :: skipn k s /\ shp x' = firstn k s ++ 0 :: skipn k s.

(** the same for every operand whose term has the name [b] (the terms [Ls] are those without
    [b]); the other operands stay *)
Inductive emptied_all {A} (b : pystr) :
  list (list entry) -> list (list entry) -> list (tensor A) -> list (tensor A) -> Prop :=
| emptied_none : emptied_all b [] [] [] []
| emptied_same L x Ls Ls' Xs Zs : emptied_all b Ls Ls' Xs Zs -> emptied_all b (L :: Ls) (L :: Ls') (x :: Xs) (x :: Zs)
| emptied_more L1 L2 X Z Ls Ls' Xs Zs :
    emptied (length (term_labs (spare (to_term (L1 ++ EName b :: L2)) X) (to_term L1))) X Z ->
    emptied_all b Ls Ls' Xs Zs ->
    emptied_all b ((L1 ++ L2) :: Ls) ((L1 ++ EName b :: L2) :: Ls') (X :: Xs) (Z :: Zs).
