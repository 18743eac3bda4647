(** * Specification: different ways to write the same expression; parse_shape

    Part of the specification. *)
From Verif Require Import Py Tensor Ops SpecGrammar SpecPattern.

Definition is_one (a : atom) : bool := match a with ANum n => (n =? 1)%Z | _ => false end.

(** two strings made of the same words and parentheses: they differ only in spaces *)
Definition same_words (s s' : pystr) : Prop := exists ts, spells s ts /\ spells s' ts.

(** the space between [a] and [b] does not separate two words *)
Definition redundant_between (a b : pystr) : Prop :=
  a = [] \/ b = [] \/ (exists a' c, a = a' ++ [c] /\ separator c) \/ (exists c b', b = c :: b' /\ separator c).

(** one form for all ways to write an item: [a] as [(a)], [1] as [()], no 1s in
    groups.  The ellipsis is left alone: [...] and [(...)] are different things. *)
Definition simple_item (i : item) : item :=
  match i with
  | Atom ADots => Atom ADots
  | Atom (AName s) => if str_eqb s ell_name then i else Group [AName s]
  | Atom (ANum n) => if (n =? 1)%Z then Group [] else Group [ANum n]
  | Group l => Group (filter (fun a => negb (is_one a)) l)
  end.
Definition simple (e : expr) : expr := map simple_item e.

(** ** parse_shape *)
Definition skip : item := Atom (AName [c_under]).
(** the ellipsis counts as the right number of underscores *)
Definition opened (e : expr) (n : nat) : expr :=
  flat_map (fun i => match i with Atom ADots => repeat skip (n + 1 - length e) | _ => [i] end) e.
(** what an item says about its dimension, 1s left out *)
Definition content (i : item) : list atom := filter (fun a => negb (is_one a)) (item_atoms i).
(** a dimension of length [d] may be described by [i] *)
Definition describes (i : item) (d : Z) : Prop :=
  match content i with
  | [] => d = 1%Z
  | [ANum n] => d = n
  | [_] => True
  | _ => False
  end.
(** what is reported about it *)
Definition named (i : item) (d : Z) : list (pystr * Z) :=
  match content i with [AName s] => if str_eqb s [c_under] then [] else [(s, d)] | _ => [] end.

(** the shape has the form that is described by the expression *)
Definition shape_ok (e : expr) (shape : list Z) : Prop :=
  (forall i, In i e -> length (content i) <= 1) /\ ~ grouped_dots e /\ Forall2 describes (opened e (length shape)) shape.
Definition shape_dict (e : expr) (shape : list Z) : list (pystr * Z) :=
  flat_map (fun '(i, d) => named i d) (combine (opened e (length shape)) shape).


(** ** the same expression with other names, with the ellipsis written out, with a
    number instead of a name *)
Definition rename_atom (f : pystr -> pystr) (a : atom) : atom := match a with AName s => AName (f s) | _ => a end.
Definition on_atoms (g : atom -> atom) (i : item) : item := match i with Atom a => Atom (g a) | Group l => Group (map g l) end.
Definition rename (f : pystr -> pystr) (e : expr) : expr := map (on_atoms (rename_atom f)) e.
Definition rename_sizes (f : pystr -> pystr) (sizes : list (pystr * Z)) : list (pystr * Z) := map (fun '(s, z) => (f s, z)) sizes.
(** [f] is a renaming of the given names; it does not touch the word U+2026 *)
Definition renaming (f : pystr -> pystr) (names : list pystr) : Prop :=
  f ell_name = ell_name /\ forall s t, In s (ell_name :: names) -> In t (ell_name :: names) -> f s = f t -> s = t.

(** the names [fs] in place of the ellipsis *)
Definition open_atom (fs : list pystr) (a : atom) : list atom := match a with ADots => map AName fs | _ => [a] end.
Definition open_item (fs : list pystr) (i : item) : list item :=
  match i with Atom a => map Atom (open_atom fs a) | Group l => [Group (flat_map (open_atom fs) l)] end.
Definition open_dots (fs : list pystr) (e : expr) : expr := flat_map (open_item fs) e.

(** the number [n] in place of the name [s] *)
Definition number_atom (s : pystr) (n : Z) (a : atom) : atom :=
  match a with AName t => if str_eqb t s then ANum n else a | _ => a end.
Definition number (s : pystr) (n : Z) (e : expr) : expr := map (on_atoms (number_atom s n)) e.

(** the number of dimensions of the tensor, of the stacked tensors *)
Definition input_rank {A} (x : input (tensor A)) (n : nat) : Prop :=
  match x with One t => length (shp t) = n | Many ts => forall t, In t ts -> S (length (shp t)) = n end.

(** ** [1], [()], [(1 1)]: a dimension without axes *)
Definition trivial (i : item) : Prop := content i = [].
(** the same elements, with a dimension of length 1 inserted at position [k] *)
Definition unit_at {A} (k : nat) (t : tensor A) : tensor A := mkT (firstn k (shp t) ++ 1 :: skipn k (shp t)) (dat t).
