(** * Specification: operands of a contraction in pieces

    Part of the specification. *)
From Verif Require Import Py Tensor SpecSem SpecGrammar SpecForms SpecBatch Parsing Recipe Ops Backends SpecEinsum.

(** The terms [Ls'] are the terms [Ls], some with one more name, [b]; [Ps] has a list of pieces
    for each of the operands [Xs]: for a term with [b], tensors that make up the operand when laid
    end to end along the dimension of [b], with lengths [ns]; for the other terms, the operand
    itself each time. *)
Inductive laid {A} (b : pystr) (ns : list nat) :
  list (list entry) -> list (list entry) -> list (tensor A) -> list (list (tensor A)) -> Prop :=
| laid_none : laid b ns [] [] [] []
| laid_same L x Ls Ls' Xs Ps : laid b ns Ls Ls' Xs Ps -> laid b ns (L :: Ls) (L :: Ls') (x :: Xs) (List.repeat x (length ns) :: Ps)
| laid_more L1 L2 k X P Ls Ls' Xs Ps :
    k = length (term_labs (spare (to_term (L1 ++ EName b :: L2)) X) (to_term L1)) ->
    t_concat P k = Ok X -> (forall x, In x P -> wf x) -> map (count_at k) P = ns ->
    laid b ns Ls Ls' Xs Ps ->
    laid b ns ((L1 ++ L2) :: Ls) ((L1 ++ EName b :: L2) :: Ls') (X :: Xs) (P :: Ps).

(** the operands of the call for piece [m] *)
Definition piece {A} (m : nat) (Ps : list (list (tensor A))) (xs : list (tensor A)) : Prop :=
  Forall2 (fun P x => nth_error P m = Some x) Ps xs.

(** [T] is cut into the pieces [P], of lengths [ns], along the dimension that [place] gives *)
Definition cut_at {A} (ns : list nat) (place : tensor A -> nat) (T : tensor A) (P : list (tensor A)) : Prop :=
  t_concat P (place T) = Ok T /\ (forall x, In x P -> wf x) /\ map (count_at (place T)) P = ns.
