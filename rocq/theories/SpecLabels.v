(** * Specification: other names for the axes of einsum and parse_shape

    Part of the specification. *)
From Verif Require Import Py SpecGrammar SpecForms SpecEinsum.

Definition rename_entry (f : pystr -> pystr) (e : entry) : entry := match e with EName s => EName (f s) | EDots => EDots end.
Definition rename_entries (f : pystr -> pystr) (es : list entry) : list entry := map (rename_entry f) es.

(** different names stay different *)
Definition injective_on (f : pystr -> pystr) (names : list pystr) : Prop :=
  forall s t, In s names -> In t names -> f s = f t -> s = t.

(** the value of a call, changed in some way; errors stay *)
Definition on_ok {A B} (g : A -> B) (r : result A) : result B := match r with Ok a => Ok (g a) | Err e => Err e end.

(** the texts of the bias of two EinMix layers; the axes are renamed *)
Definition bias_renamed (U : unicode) (f : pystr -> pystr) (bt bt' : option pystr) (B : expr) : Prop :=
  match bt, bt' with
  | None, None => B = []
  | Some t, Some t' => written U t B /\ written U t' (rename f B)
  | _, _ => False
  end.
