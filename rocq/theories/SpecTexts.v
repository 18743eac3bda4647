(** * Specification: calls written out as text

    Part of the specification: the fragment of Python's syntax that descriptions
    of layers use.  A call expression is the name of a class and, in parentheses
    and separated by comma and space, string literals in single quotes without
    escapes and then keyword arguments [name=number]. *)
From Verif Require Import Py SpecGrammar.

Record call_expr := mkCall { ce_name : pystr; ce_args : list pystr; ce_kwargs : list (pystr * Z) }.

(** decimal numerals, as Python accepts and prints them *)
Definition digits_value (l : pystr) : Z := fold_left (fun acc c => (acc * 10 + (Z.of_N c - 48))%Z) l 0%Z.
Definition digits (l : pystr) : Prop :=
  l <> [] /\ (forall c, In c l -> ascii_digit c = true) /\ (hd 0%N l = 48%N -> l = [48%N]).
Inductive numeral : pystr -> Z -> Prop :=
| num_pos l : digits l -> numeral l (digits_value l)
| num_neg l : digits l -> digits_value l <> 0%Z -> numeral (lit "-" ++ l) (- digits_value l).

(** no end of the literal, no escape, no end of line *)
Definition literal_char (c : N) : Prop := c <> 39%N /\ c <> 92%N /\ c <> 10%N /\ c <> 13%N.
Definition literal (t s : pystr) : Prop := t = lit "'" ++ s ++ lit "'" /\ forall c, In c s -> literal_char c.
Definition keyword (U : unicode) (t : pystr) (kw : pystr * Z) : Prop :=
  isidentifier U (fst kw) = true /\ exists n, t = fst kw ++ lit "=" ++ n /\ numeral n (snd kw).

(** the text [t] is the call [c] *)
Definition denotes (U : unicode) (t : pystr) (c : call_expr) : Prop :=
  isidentifier U (ce_name c) = true /\
  exists args kws, t = ce_name c ++ lit "(" ++ str_join (lit ", ") (args ++ kws) ++ lit ")" /\
    Forall2 literal args (ce_args c) /\ Forall2 (keyword U) kws (ce_kwargs c).

(** what is assumed about printing: characters of words are printable *)
Definition prints_words (U : unicode) (printable : N -> bool) : Prop :=
  printable c_ell = true /\ forall c, u_alnum U c = true -> printable c = true.
