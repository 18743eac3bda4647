(** * Specification: warnings issued while layers are made

    Part of the specification. *)
From Verif Require Import Py Parsing Recipe Cache SpecGrammar SpecPattern SpecEinsum Warnings SpecWarnings LayerWarnings.

(** what is said about names *)
Definition said (iskeyword : pystr -> bool) (names : list pystr) : list notice := map AboutName (flat_map (discouraged iskeyword) names).

(** a layer has recipes for up to seven axes in place of the ellipsis *)
Definition recipes_of (L : expr) : nat := if has_dots L then 8 else 1.

(** the names on the left are reported once, then each recipe reports all names,
    and the names of the given lengths *)
Definition layer_notices (iskeyword : pystr -> bool) (lft rght given : list pystr) (recipes : nat) : list notice :=
  said iskeyword lft ++ concat (repeat (said iskeyword (lft ++ rght ++ given)) recipes).

(** some dimension is not exactly one axis; a written 1 is no axis *)
Definition composed (E : expr) : bool :=
  existsb (fun i => negb (length (filter (fun a => match a with ANum n => negb (n =? 1)%Z | _ => true end) (item_atoms i)) =? 1)) E.
(** the dots are in parentheses *)
Definition dots_inside (E : expr) : bool := existsb (fun i => match i with Group l => existsb is_dots l | Atom _ => false end) E.
Definition named (E : expr) : list pystr := flat_map (fun a => match a with AName s => [s] | _ => [] end) (atoms E).

(** EinMix: the pattern and the weight; the layer before, if a dimension of the
    input is composed; the layer after, if one of the output is; a weight without
    axes; the bias *)
Definition mix_notices (iskeyword : pystr -> bool) (L R W : expr) (B : list pystr) (sizes : list pystr) : list notice :=
  let names E := written_names E in
  said iskeyword (names L ++ names R ++ names W) ++
  (if composed L then layer_notices iskeyword (names L) (names L) (filter (fun s => str_mem s (named L)) sizes) (recipes_of L) else []) ++
  (if composed R || dots_inside R then layer_notices iskeyword (names R) (names R) [] (recipes_of R) else []) ++
  (match W with [] => [EmptyWeight] | _ :: _ => [] end) ++
  said iskeyword B.

(** einsum: every entry, each time it is written; neither [_] nor the ellipsis *)
Definition einsum_notices (iskeyword : pystr -> bool) (Ls : list (list entry)) (R : list entry) : list warning :=
  flat_map (discouraged iskeyword) (filter (fun s => negb (str_eqb s ell_name) && negb (str_eqb s [c_under])) (all_names Ls ++ entry_names R)).

(** the cache holds what [_prepare_transformation_recipe] computed earlier, with
    sets iterated in whatever order *)
Definition filled (U : unicode) (c : memo) : Prop :=
  forall p op names n rec, In ((p, op, names, n), rec) c -> exists o, orders_ok o /\ prepare_recipe U o p (op_of_key op) names n = Ok rec.
