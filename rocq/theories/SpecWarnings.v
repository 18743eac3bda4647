(** * Specification: discouraged names

    Part of the specification.  A name is discouraged because it is a keyword of
    Python, or because it is "axis". *)
From Verif Require Import Py SpecGrammar Warnings.

Definition discouraged (iskeyword : pystr -> bool) (name : pystr) : list warning :=
  (if iskeyword name then [KeywordName name] else []) ++ (if str_eq_dec name (lit "axis") then [AxisName] else []).

(** the names in an expression, in the order they are written; neither the
    ellipsis nor the anonymous name [_] is one *)
Definition written_name (a : atom) : list pystr :=
  match a with
  | AName s => if str_eq_dec s ell_name then [] else if str_eq_dec s [c_under] then [] else [s]
  | _ => []
  end.
Definition written_names (e : expr) : list pystr := flat_map written_name (atoms e).
