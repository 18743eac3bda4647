(** * Specification: one more axis in the operands of a contraction

    Part of the specification. *)
From Verif Require Import Py Tensor SpecSem SpecGrammar SpecForms SpecBatch Parsing Recipe Ops Backends SpecEinsum.

(** The call with terms [Ls'] and operands [Xs] is the call with terms [Ls] and
    operands [xs] where some terms have one more name, [b], and the operands of
    those terms have a dimension in its place; [x] is the operand at index [i] of
    that dimension.  The other operands are the same in both. *)
Inductive batch_of {A} (b : pystr) (i : nat) :
  list (list entry) -> list (list entry) -> list (tensor A) -> list (tensor A) -> Prop :=
| batch_none : batch_of b i [] [] [] []
| batch_same L x Ls Ls' xs Xs : batch_of b i Ls Ls' xs Xs -> batch_of b i (L :: Ls) (L :: Ls') (x :: xs) (x :: Xs)
| batch_more L1 L2 x X Ls Ls' xs Xs :
    slice_of (length (term_labs (spare (to_term (L1 ++ L2)) x) (to_term L1))) i X x ->
    batch_of b i Ls Ls' xs Xs ->
    batch_of b i ((L1 ++ L2) :: Ls) ((L1 ++ EName b :: L2) :: Ls') (x :: xs) (X :: Xs).

(** A pattern of pack or unpack with one more name, on either side of the star; the
    last argument is the place of its dimension in a tensor without it (after the
    star: counted from the end). *)
Inductive one_more {A} : list pystr -> list pystr -> list pystr -> list pystr -> (tensor A -> nat) -> Prop :=
| more_before b1 w b2 after : one_more (b1 ++ b2) after (b1 ++ w :: b2) after (fun _ => length b1)
| more_after before a1 w a2 : one_more before (a1 ++ a2) before (a1 ++ w :: a2) (fun t => length (shp t) - length a2).

(** the same bias for a layer with one more name: a dimension of length 1 at place [k] *)
Definition bias_more {A} (k : nat) (big small : option (tensor A)) : Prop :=
  match big, small with
  | None, None => True
  | Some b', Some b => count_at k b' = 1 /\ slice_of k 0 b' b
  | _, _ => False
  end.
