(** * Specification: histories of get_backend

    Part of the specification. *)
From Verif Require Import Py Registry.

(** all classes below the given ones *)
Fixpoint classes (t : ctree) : list bclass := match t with Node c s => c :: flat_map classes s end.

(** the backends constructed *)
Definition successes (l : list attempt) : list instance := flat_map (fun a => match at_result a with Some b => [b] | None => [] end) l.

(** the states a process may be in *)
Definition reachable {T} (type_of : T -> nat) (accepts : bclass -> T -> bool) build (st : registry) : Prop :=
  exists es, st = run type_of accepts build es fresh_registry.

(** constructors do not raise, and unload no module *)
Definition honest (build : nat -> bclass -> list pystr -> option exn * list pystr) : Prop :=
  forall n c ms, fst (build n c ms) = None /\ incl ms (snd (build n c ms)).
