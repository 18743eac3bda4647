(** * Specification: the documented grammar of axis expressions

    Part of the specification.  An expression is a sequence of items; an item is
    an atom or a one-level parenthesised group of atoms; an atom is a name, a
    positive decimal number or an ellipsis.  Spaces separate words and otherwise
    mean nothing. *)
From Verif Require Import Py.

(** What is assumed about the interpreter's character database: its values on
    ASCII, that decimal digits are alphanumeric, have a value below 10 and do not
    start identifiers, and that U+2026 is a symbol. *)
Definition ascii_digit (c : N) : bool := (48 <=? c)%N && (c <=? 57)%N.
Definition ascii_letter (c : N) : bool :=
  ((65 <=? c)%N && (c <=? 90)%N) || ((97 <=? c)%N && (c <=? 122)%N).
Definition ascii_space (c : N) : bool := ((9 <=? c)%N && (c <=? 13)%N) || ((28 <=? c)%N && (c <=? 32)%N).
Record unicode_ok (U : unicode) : Prop := {
  uo_alnum : forall c, (c < 128)%N -> u_alnum U c = ascii_letter c || ascii_digit c;
  uo_digit : forall c, (c < 128)%N -> u_digit U c = if ascii_digit c then Some (c - 48)%N else None;
  uo_idstart : forall c, (c < 128)%N -> u_idstart U c = ascii_letter c || (c =? c_under)%N;
  uo_idcont : forall c, (c < 128)%N -> u_idcont U c = ascii_letter c || ascii_digit c || (c =? c_under)%N;
  uo_space : forall c, (c < 128)%N -> u_space U c = ascii_space c;
  uo_digit_range : forall c d, u_digit U c = Some d -> (d < 10)%N;
  uo_digit_alnum : forall c d, u_digit U c = Some d -> u_alnum U c = true;
  uo_digit_start : forall c d, u_digit U c = Some d -> u_idstart U c = false;
  uo_ell : u_alnum U c_ell = false /\ u_digit U c_ell = None /\ u_idstart U c_ell = false
           /\ u_idcont U c_ell = false /\ u_space U c_ell = false
}.

(** ** Syntax trees *)
Inductive atom :=
| AName (s : pystr)   (* a named axis *)
| ANum (n : Z)        (* a number *)
| ADots.              (* ... *)
Inductive item := Atom (a : atom) | Group (l : list atom).
Definition expr := list item.

(** ** Lexical structure *)
Inductive token := TOpen | TClose | TWord (w : pystr).

Definition separator (c : N) : Prop := c = c_open \/ c = c_close \/ c = c_space.

(** [spells s ts]: the string [s] consists of the tokens [ts]; words are maximal *)
Inductive spells : pystr -> list token -> Prop :=
| sp_nil : spells [] []
| sp_space s ts : spells s ts -> spells (c_space :: s) ts
| sp_open s ts : spells s ts -> spells (c_open :: s) (TOpen :: ts)
| sp_close s ts : spells s ts -> spells (c_close :: s) (TClose :: ts)
| sp_word w s ts :
    w <> [] -> (forall c, In c w -> ~ separator c) ->
    (s = [] \/ exists c s', s = c :: s' /\ separator c) ->
    spells s ts -> spells (w ++ s) (TWord w :: ts).

Definition dots_word : pystr := lit "...".
Definition ell_name : pystr := [c_ell].

(** Names: Python identifiers made of letters, digits and underscores, that do
    not start or end with an underscore; the single name [_] where the caller
    allows it ([au]).  Quirk of the code, not documented: the one-character word
    U+2026 is accepted as well (it is what [...] is turned into internally). *)
Definition legal_name (U : unicode) (au : bool) (w : pystr) : Prop :=
  w = ell_name \/
  (isidentifier U w = true /\ (forall c, In c w -> u_alnum U c = true \/ c = c_under) /\
   ((hd 0%N w <> c_under /\ last w 0%N <> c_under) \/ (au = true /\ w = [c_under]))).

Inductive word_atom (U : unicode) (au : bool) : pystr -> atom -> Prop :=
| wa_dots : word_atom U au dots_word ADots
| wa_num w : isdecimal U w = true -> (1 <= int_of_str U w)%Z -> word_atom U au w (ANum (int_of_str U w))
| wa_name w : legal_name U au w -> word_atom U au w (AName w).

(** ** Grouping *)
Inductive structured (U : unicode) (au : bool) : list token -> expr -> Prop :=
| st_nil : structured U au [] []
| st_word w a ts e :
    word_atom U au w a -> structured U au ts e -> structured U au (TWord w :: ts) (Atom a :: e)
| st_group ws l ts e :
    Forall2 (word_atom U au) ws l -> structured U au ts e ->
    structured U au (TOpen :: map TWord ws ++ TClose :: ts) (Group l :: e).

Definition item_atoms (i : item) : list atom := match i with Atom a => [a] | Group l => l end.
Definition atoms (e : expr) : list atom := flat_map item_atoms e.

(** the name under which an atom may not be repeated *)
Definition atom_key (a : atom) : list pystr :=
  match a with AName s => [s] | ANum _ => [] | ADots => [ell_name] end.
Definition keys (e : expr) : list pystr := flat_map atom_key (atoms e).
Definition is_dots (a : atom) : bool := match a with ADots => true | _ => false end.
Definition has_dots (e : expr) : bool := existsb is_dots (atoms e).
Definition ndots (e : expr) : nat := length (filter is_dots (atoms e)).
(** some number greater than 1 is written *)
Definition is_big (a : atom) : bool := match a with ANum n => negb (n =? 1)%Z | _ => false end.
Definition has_numbers (e : expr) : bool := existsb is_big (atoms e).
Definition nbig (l : list atom) : nat := length (filter is_big l).

(** [...] at most once; no name twice (unless duplicates are allowed [ad]; the
    name [_] may be repeated where it is allowed at all) *)
Definition no_repeats (au ad : bool) (e : expr) : Prop :=
  ndots e <= 1 /\
  (ad = true \/ NoDup (filter (fun s => negb (au && str_eqb s [c_under])) (keys e))).

(** the string [s] is a legal way to write [e] *)
Definition written_as (U : unicode) (au ad : bool) (s : pystr) (e : expr) : Prop :=
  exists ts, spells s ts /\ structured U au ts e /\ no_repeats au ad e.
Definition written (U : unicode) (s : pystr) (e : expr) : Prop := written_as U false false s e.
(** the expression does not make use of the quirk *)
Definition plain (e : expr) : Prop := ~ In (AName ell_name) (atoms e).
