(** * Specification: choosing elements of a batch

    Part of the specification. *)
From Verif Require Import Py Tensor SpecSem SpecGrammar SpecForms SpecBatch Parsing Recipe Ops Backends SpecEinsum.

(** [Z] consists of the slices of [X] at the indices [js] along dimension [k], in this order:
    what [X[:, ..., js]] is in numpy *)
Definition selects {A} (k : nat) (js : list nat) (X Z : tensor A) : Prop :=
  wf Z /\ count_at k Z = length js /\
  forall i j, nth_error js i = Some j -> exists x, slice_of k i Z x /\ slice_of k j X x.

(** the same choice from every operand whose term has the name [b] (the terms [Ls] are those
    without [b]); the other operands stay *)
Inductive chosen {A} (b : pystr) (js : list nat) :
  list (list entry) -> list (list entry) -> list (tensor A) -> list (tensor A) -> Prop :=
| chosen_none : chosen b js [] [] [] []
| chosen_same L x Ls Ls' Xs Zs : chosen b js Ls Ls' Xs Zs -> chosen b js (L :: Ls) (L :: Ls') (x :: Xs) (x :: Zs)
| chosen_more L1 L2 X Z Ls Ls' Xs Zs :
    selects (length (term_labs (spare (to_term (L1 ++ EName b :: L2)) X) (to_term L1))) js X Z ->
    chosen b js Ls Ls' Xs Zs ->
    chosen b js ((L1 ++ L2) :: Ls) ((L1 ++ EName b :: L2) :: Ls') (X :: Xs) (Z :: Zs).

(** the dimension of the name [w] in a tensor to which a pattern of pack or unpack applies, with
    these names before and after the star (after the star: counted from the end) *)
Inductive dim_of {A} (w : pystr) : list pystr -> list pystr -> (tensor A -> nat) -> Prop :=
| dim_before b1 b2 after : dim_of w (b1 ++ w :: b2) after (fun _ => length b1)
| dim_after before a1 a2 : dim_of w before (a1 ++ w :: a2) (fun T => length (shp T) - S (length a2)).
