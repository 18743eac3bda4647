(** * Specification: one pattern, spelled in several ways

    Part of the specification. *)
From Verif Require Import Py Tensor SpecGrammar SpecForms.

(** Two spellings of one side of a pattern: other spacing of the same words and
    parentheses (right or wrong ones), or other trivial parentheses: [(a)] for
    [a], [()] for [1], 1s inside groups. *)
Definition same_side_as (U : unicode) (au ad : bool) (s s' : pystr) : Prop :=
  same_words s s' \/ exists e e', written_as U au ad s e /\ written_as U au ad s' e' /\ simple e = simple e'.
Definition same_side (U : unicode) : pystr -> pystr -> Prop := same_side_as U false false.

(** an optional text *)
Definition same_option (R : pystr -> pystr -> Prop) (a b : option pystr) : Prop :=
  match a, b with Some s, Some s' => R s s' | None, None => True | _, _ => False end.

(** the same error, or results related by [R] *)
Definition same_outcome {X} (R : X -> X -> Prop) (a b : result X) : Prop :=
  match a, b with Ok x, Ok y => R x y | Err ex, Err ex' => ex = ex' | _, _ => False end.

(** the same words separated by other white space *)
Definition same_list (U : unicode) (s s' : pystr) : Prop := str_words U s = str_words U s'.

(** without the character [,] *)
Definition no_comma (s : pystr) : Prop := ~ In 44%N s.
