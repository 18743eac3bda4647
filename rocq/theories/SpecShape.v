(** * Specification: parse_shape followed by other calls

    Part of the specification. *)
From Verif Require Import Py Tensor SpecGrammar SpecForms.

(** [M] is [L] with some of the items, but not the ellipsis, replaced by [_] *)
Definition masks (M L : expr) : Prop :=
  Forall2 (fun i j => i = j \/ (i = skip /\ j <> Atom ADots)) M L.

(** ** pack as a rearrangement

    [a ... b] and [a (...) b], for the names around the star of a packing pattern *)
Definition axes_named (l : list pystr) : expr := map (fun s => Atom (AName s)) l.
Definition star_apart (before after : list pystr) : expr := axes_named before ++ [Atom ADots] ++ axes_named after.
Definition star_joined (before after : list pystr) : expr := axes_named before ++ [Group [ADots]] ++ axes_named after.
(** the lengths of the named axes: the first and the last dimensions *)
Definition named_dims (before after : list pystr) (shape : list nat) : list nat :=
  firstn (length before) shape ++ skipn (length shape - length after) shape.

(** [a (i j) b] and [a i j b]; the lengths of [i], [j] that a requested shape gives *)
Definition star_named (before names after : list pystr) : expr :=
  axes_named before ++ [Group (map AName names)] ++ axes_named after.
Definition given (names : list pystr) (q : list Z) : list (pystr * Z) :=
  filter (fun '(_, z) => negb (z =? -1)%Z) (combine names q).

(** ** einsum as a reduction: sides without parentheses and numbers *)
Definition ungrouped (E : expr) : Prop :=
  forall i, In i E -> i = Atom ADots \/ exists s, i = Atom (AName s) /\ s <> ell_name.
