(** * How a syntax tree looks as a ParsedExpression object

    The fields of [ParsedExpression] (parsing.py:31-37) for a given syntax tree:
    1s disappear, every other number becomes an axis object of its own ([k] is the
    first free object identity), an ellipsis outside parentheses becomes the string
    [_ellipsis]. *)
From Verif Require Import Py Parsing SpecGrammar.

Definition is_ell (a : atom) : bool :=
  match a with ADots => true | AName s => str_eqb s ell_name | ANum _ => false end.

Definition atom_axes (k : nat) (a : atom) : list axis :=
  match a with
  | AName s => [AxName s]
  | ANum n => if (n =? 1)%Z then [] else [AxAnon k n]
  | ADots => [ax_ellipsis]
  end.
Fixpoint atoms_axes (k : nat) (l : list atom) : list axis :=
  match l with [] => [] | a :: l' => atom_axes k a ++ atoms_axes (k + nbig [a]) l' end.
Definition item_comp (k : nat) (i : item) : comp :=
  match i with
  | Atom a => if is_ell a then CEll else CGrp (atom_axes k a)
  | Group l => CGrp (atoms_axes k l)
  end.
Fixpoint comps (k : nat) (e : expr) : list comp :=
  match e with [] => [] | i :: e' => item_comp k i :: comps (k + nbig (item_atoms i)) e' end.

(** whether the (last) ellipsis is inside parentheses *)
Definition ell_par_step (acc : option bool) (i : item) : option bool :=
  match i with
  | Atom a => if is_ell a then Some false else acc
  | Group l => if existsb is_ell l then Some true else acc
  end.

Definition compile (k : nat) (e : expr) : parsed * nat :=
  ({| p_has_ellipsis := has_dots e;
      p_ell_par := fold_left ell_par_step e None;
      p_identifiers := set_of (concat (map comp_axes (comps k e)));
      p_anon := has_numbers e;
      p_composition := comps k e |}, k + nbig (atoms e)).
