(** * Specification: what the two sides of a pattern denote

    Part of the specification.  A side of a pattern denotes a list of groups of
    axis labels, one group per dimension. *)
From Verif Require Import Py Tensor SpecSem SpecGrammar.

(** An axis of a pattern: a name; the [i]-th of the dimensions an ellipsis stands
    for; or a number greater than 1.  Every occurrence of such a number is an axis
    of its own, [k] counts them through the whole pattern. *)
Inductive label := LName (s : pystr) | LDots (i : nat) | LNum (k : nat) (n : Z).
Definition label_eq_dec : forall a b : label, {a = b} + {a <> b}.
Proof. decide equality; [apply str_eq_dec | apply Nat.eq_dec | apply Z.eq_dec | apply Nat.eq_dec]. Defined.
Definition label_eqb (a b : label) : bool := if label_eq_dec a b then true else false.

Section Groups.
  (** [dots]: the left-hand side has an ellipsis, standing for [e] dimensions *)
  Context (dots : bool) (e : nat).

  (** quirk (see SpecGrammar.v): next to an ellipsis on the left, the word U+2026
      on the right is an ellipsis as well *)
  Definition stands_for_dots (a : atom) : bool :=
    match a with ADots => true | AName s => dots && str_eqb s ell_name | ANum _ => false end.

  (** [k]: how many numbers greater than 1 came before *)
  Definition atom_labels (k : nat) (a : atom) : list label :=
    if stands_for_dots a then map LDots (seq 0 e)
    else match a with
         | AName s => [LName s]
         | ANum n => if (n =? 1)%Z then [] else [LNum k n]
         | ADots => []
         end.
  Fixpoint atoms_labels (k : nat) (l : list atom) : list label :=
    match l with [] => [] | a :: l' => atom_labels k a ++ atoms_labels (k + nbig [a]) l' end.

  (** outside parentheses every dimension of an ellipsis is its own group *)
  Definition item_groups (k : nat) (i : item) : list (list label) :=
    match i with
    | Atom a => if stands_for_dots a then map (fun x => [x]) (atom_labels k a) else [atom_labels k a]
    | Group l => [atoms_labels k l]
    end.
  Fixpoint groups (k : nat) (ex : expr) : list (list label) :=
    match ex with [] => [] | i :: ex' => item_groups k i ++ groups (k + nbig (item_atoms i)) ex' end.
End Groups.

(** the left side matches tensors with [n] dimensions, [e] of them under the ellipsis *)
Definition rank_fits (L : expr) (n e : nat) : Prop :=
  if has_dots L then length L + e = S n else length L = n /\ e = 0.

Definition left_groups (e : nat) (L : expr) : list (list label) := groups (has_dots L) e 0 L.
Definition right_groups (e : nat) (L R : expr) : list (list label) :=
  groups (has_dots L) e (nbig (atoms L)) R.

(** [pattern] is "[L] -> [R]" *)
Definition reads (U : unicode) (pattern : pystr) (L R : expr) : Prop :=
  exists l r, pattern = l ++ lit "->" ++ r /\ written U l L /\ written U r R.

(** lengths of the axes agree with the shape of the input, with the numbers in
    the pattern and with the sizes given by the caller *)
Definition fits (len : label -> nat) (gl gr : list (list label)) (shape : list nat)
    (sizes : list (pystr * Z)) : Prop :=
  gshape len gl = shape /\
  (forall k n, In (LNum k n) (concat gl ++ concat gr) -> Z.of_nat (len (LNum k n)) = n) /\
  (forall s z, In (s, z) sizes -> Z.of_nat (len (LName s)) = z).

(** two assignments agree on the axes of the pattern *)
Definition same_on (l : list label) (len1 len2 : label -> nat) : Prop := forall a, In a l -> len1 a = len2 a.

(** axes of the left side that do not occur on the right *)
Definition missing (gl gr : list (list label)) : list label :=
  filter (fun a => negb (existsb (label_eqb a) (concat gr))) (concat gl).

(** ** Which identifiers may appear where *)
Inductive role := Rearranging | Repeating | Reducing.
Definition ident_ok (w : role) (L R : expr) (names : list pystr) : Prop :=
  match w with
  | Rearranging => has_numbers L = false /\ has_numbers R = false /\ incl (keys L) (keys R) /\ incl (keys R) (keys L)
  | Repeating => has_numbers L = false /\ incl (keys L) (keys R) /\ incl (keys R) (keys L ++ names)
  | Reducing => has_numbers R = false /\ incl (keys R) (keys L)
  end.

(** the ellipsis of an expression is inside parentheses *)
Definition grouped_dots (ex : expr) : Prop := exists l, In (Group l) ex /\ In ADots l.
