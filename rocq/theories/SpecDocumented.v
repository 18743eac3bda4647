(** * Specification: sums of products

    Part of the specification: words for the formulas in the documentation of einsum
    and EinMix. *)
From Verif Require Import Py Tensor SpecGrammar SpecEinsum SpecPattern.

Section Sums.
  Context {A : Type} (add : A -> A -> A) (zero : A).
  (** the element at an index *)
  Definition elt (x : tensor A) (idx : list nat) : A := match get x idx with Some a => a | None => zero end.
  (** the sum over [0 <= i < n] *)
  Definition sum_to (n : nat) (f : nat -> A) : A := fold_right add zero (map f (seq 0 n)).
  (** the sum over all indices of a shape *)
  Definition sum_over (s : list nat) (f : list nat -> A) : A := fold_right add zero (map f (indices s)).
End Sums.

(** number of dimensions, [e] of them under the ellipsis *)
Definition width (e : nat) (es : list entry) : nat := list_sum (map (fun en => match en with EName _ => 1 | EDots => e end) es).

(** the entries of an expression without parentheses and numbers *)
Definition entries_of (E : expr) : list entry := map (fun i => match i with Atom (AName s) => EName s | _ => EDots end) E.

(** 's', or '(h1 h2 s)' *)
Definition joined (heads : list pystr) (s : pystr) : item :=
  match heads with [] => Atom (AName s) | _ => Group (map AName (heads ++ [s])) end.

Definition name_entries (names : list pystr) : list entry := map EName names.
