(** * Specification: patterns for well-known functions of array libraries

    Part of the specification. *)
From Verif Require Import Py Tensor SpecGrammar SpecPattern SpecShape.

(** both sides list the same axes in the same order, whatever the parentheses; 1 and () do not count *)
Definition counts (a : atom) : bool := match a with ANum n => negb (n =? 1)%Z | _ => true end.
Definition same_order (L R : expr) : Prop := filter counts (atoms L) = filter counts (atoms R).

(** the names at the given places *)
Definition pick (names : list pystr) (places : list nat) : list pystr := map (fun k => nth k names []) places.

(** the places that are marked *)
Definition marked (mask : list bool) : list nat := filter (fun k => nth k mask false) (seq 0 (length mask)).

(** [(r1 a1) (r2 a2) ...] *)
Definition in_pairs (ls rs : list pystr) : expr := map2 (fun l r => Group [AName l; AName r]) ls rs.

(** every index divided (element by element) *)
Definition quotients (idx ds : list nat) : list nat := map2 (fun i d => i / d) idx ds.
