(** * Specification: histories with several threads

    Part of the specification. *)
From Verif Require Import Py Registry Threads.

Section Histories.
  Context {T : Type} (type_of : T -> nat) (accepts : bclass -> T -> bool)
          (build : nat -> bclass -> list pystr -> option exn * list pystr).
  (** modules are imported, none is removed from sys.modules *)
  Fixpoint grows (hs : list (happening T)) (s : process T) : Prop :=
    match hs with
    | [] => True
    | h :: hs => match h with Import ms => incl (modules (shared s)) ms | _ => True end /\ grows hs (happen type_of accepts build s h)
    end.
End Histories.

(** the framework has a backend in use *)
Definition has_backend (fw : pystr) (st : registry) : Prop := exists b, In (fw, b) (loaded st).
(** call number [i] has ended with [r] *)
Definition ended {T} (s : process T) (i : nat) (r : result instance) : Prop := exists x, nth_error (calls s) i = Some (Finished x r).
