(** * Fragment of the Python runtime used by einops

    Exceptions are values, Python [str] is a list of Unicode code points,
    Python [int] is [Z] (or [nat] where a value is a position/length that is
    non-negative by construction), [dict] is an association list in insertion
    order and [set] is a duplicate-free list whose *iteration order* is decided
    by an oracle (see [orders] in Parsing.v). *)
From Coq Require Export List NArith ZArith Lia Bool Arith Permutation.
From Coq Require String Ascii Decimal.
Export ListNotations.
Export Coq.Strings.String.StringSyntax.
#[local] Open Scope list_scope.

(** ** Exceptions as values *)

(** Exception classes einops code can raise.  [EinopsError]:
    einops/__init__.py:8-11; the others are Python built-ins raised explicitly
    (e.g. einops.py:523, 682, 776, 757) or implicitly (dict/list lookups,
    division).  [BackendError] stands for whatever the array library raises.
    Simplification: messages are dropped. *)
Inductive exn :=
| EinopsError | ValueError | TypeError | KeyError | IndexError
| ZeroDivisionError | RuntimeError | NotImplementedError | AssertionError
| BackendError.

Inductive result (A : Type) := Ok (a : A) | Err (e : exn).
Arguments Ok {A} a.
Arguments Err {A} e.

Definition bind {A B} (m : result A) (f : A -> result B) : result B :=
  match m with Ok a => f a | Err e => Err e end.
Notation "'let*' x ':=' m 'in' k" := (bind m (fun x => k))
  (at level 200, x pattern, right associativity).

(** [if c: raise e] *)
Definition raise_if (c : bool) (e : exn) : result unit := if c then Err e else Ok tt.
Definition of_option {A} (e : exn) (o : option A) : result A :=
  match o with Some a => Ok a | None => Err e end.

(** list comprehension whose body may raise *)
Fixpoint mapM {A B} (f : A -> result B) (l : list A) : result (list B) :=
  match l with
  | [] => Ok []
  | x :: l' => let* y := f x in let* ys := mapM f l' in Ok (y :: ys)
  end.

(** [for x in l: acc = f acc x] whose body may raise *)
Fixpoint foldM {A B} (f : A -> B -> result A) (l : list B) (acc : A) : result A :=
  match l with
  | [] => Ok acc
  | x :: l' => let* acc' := f acc x in foldM f l' acc'
  end.

(** ** Strings *)

Definition pystr := list N.

(** string literal (ASCII) *)
Fixpoint lit (s : String.string) : pystr :=
  match s with
  | String.EmptyString => []
  | String.String c s' => Ascii.N_of_ascii c :: lit s'
  end.

Definition str_eq_dec : forall a b : pystr, {a = b} + {a <> b} := list_eq_dec N.eq_dec.
Definition str_eqb (a b : pystr) : bool := if str_eq_dec a b then true else false.
Definition str_mem (x : pystr) (l : list pystr) : bool := existsb (str_eqb x) l.

Arguments lit s%string_scope.

(** code points that matter to the code *)
Definition c_space : N := 32.
Definition c_open : N := 40.
Definition c_close : N := 41.
Definition c_dot : N := 46.
Definition c_under : N := 95.
Definition c_star : N := 42.
Definition c_ell : N := 8230.  (* U+2026, parsing.py:6 *)

Fixpoint prefixb (p s : pystr) : bool :=
  match p, s with
  | [], _ => true
  | _ :: _, [] => false
  | a :: p', b :: s' => (a =? b)%N && prefixb p' s'
  end.

(** [sub in s] *)
Fixpoint str_contains (sub s : pystr) : bool :=
  prefixb sub s || match s with [] => false | _ :: s' => str_contains sub s' end.

(** [s.count(sub)], non-overlapping, [sub] non-empty.  [skip] counts characters
    of the current occurrence that are still to be passed over. *)
Fixpoint str_count_aux (sub : pystr) (skip : nat) (s : pystr) : nat :=
  match s with
  | [] => 0
  | _ :: s' =>
      match skip with
      | S k => str_count_aux sub k s'
      | O => if prefixb sub s then S (str_count_aux sub (length sub - 1) s')
             else str_count_aux sub 0 s'
      end
  end.
Definition str_count (sub s : pystr) : nat := str_count_aux sub 0 s.

(** [s.replace(sub, new)], [sub] non-empty *)
Fixpoint str_replace_aux (sub new : pystr) (skip : nat) (s : pystr) : pystr :=
  match s with
  | [] => []
  | c :: s' =>
      match skip with
      | S k => str_replace_aux sub new k s'
      | O => if prefixb sub s then new ++ str_replace_aux sub new (length sub - 1) s'
             else c :: str_replace_aux sub new 0 s'
      end
  end.
Definition str_replace (sub new s : pystr) : pystr := str_replace_aux sub new 0 s.

Definition cons_head (c : N) (l : list pystr) : list pystr :=
  match l with [] => [[c]] | p :: l' => (c :: p) :: l' end.

(** [s.split(sep)], [sep] non-empty *)
Fixpoint str_split_aux (sep : pystr) (skip : nat) (s : pystr) : list pystr :=
  match s with
  | [] => [[]]
  | c :: s' =>
      match skip with
      | S k => str_split_aux sep k s'
      | O => if prefixb sep s then [] :: str_split_aux sep (length sep - 1) s'
             else cons_head c (str_split_aux sep 0 s')
      end
  end.
Definition str_split (sep s : pystr) : list pystr := str_split_aux sep 0 s.

(** ** Unicode

    The character database of the running interpreter is a parameter of the
    model: every theorem quantifies over it, constrained only by [unicode_ok]
    (SpecGrammar.v), which fixes the ASCII range and U+2026. *)
Record unicode := {
  u_alnum : N -> bool;         (* str.isalnum of a one-character string *)
  u_digit : N -> option N;     (* decimal digit value: str.isdecimal, int() *)
  u_idstart : N -> bool;       (* may start an identifier *)
  u_idcont : N -> bool;        (* may continue an identifier *)
  u_space : N -> bool          (* str.isspace: separators of str.split() *)
}.

(** [str.isdecimal(x)] *)
Definition isdecimal (U : unicode) (x : pystr) : bool :=
  match x with [] => false | _ => true end
  && forallb (fun c => match u_digit U c with Some _ => true | None => false end) x.

(** [int(x)] for a decimal string.  Simplification: the interpreter's limit on
    the number of digits (4300) is not modelled. *)
Definition int_of_str (U : unicode) (x : pystr) : Z :=
  fold_left (fun acc c => (acc * 10 + match u_digit U c with Some d => Z.of_N d | None => 0 end)%Z) x 0%Z.

(** [str.isidentifier(x)] *)
Definition isidentifier (U : unicode) (x : pystr) : bool :=
  match x with
  | [] => false
  | c :: x' => u_idstart U c && forallb (u_idcont U) x'
  end.

(** [s.split()] : maximal runs of non-whitespace *)
Fixpoint str_words_aux (U : unicode) (cur : option pystr) (s : pystr) : list pystr :=
  match s with
  | [] => match cur with Some w => [w] | None => [] end
  | c :: s' =>
      if u_space U c
      then match cur with Some w => w :: str_words_aux U None s' | None => str_words_aux U None s' end
      else str_words_aux U (Some (match cur with Some w => w | None => [] end ++ [c])) s'
  end.
Definition str_words (U : unicode) (s : pystr) : list pystr := str_words_aux U None s.

(** [sep.join(l)] *)
Fixpoint str_join (sep : pystr) (l : list pystr) : pystr :=
  match l with
  | [] => []
  | [x] => x
  | x :: l' => x ++ sep ++ str_join sep l'
  end.

(** [str(n)] for a non-negative int *)
Fixpoint uint_codes (d : Decimal.uint) : pystr :=
  match d with
  | Decimal.Nil => []
  | Decimal.D0 d => 48%N :: uint_codes d
  | Decimal.D1 d => 49%N :: uint_codes d
  | Decimal.D2 d => 50%N :: uint_codes d
  | Decimal.D3 d => 51%N :: uint_codes d
  | Decimal.D4 d => 52%N :: uint_codes d
  | Decimal.D5 d => 53%N :: uint_codes d
  | Decimal.D6 d => 54%N :: uint_codes d
  | Decimal.D7 d => 55%N :: uint_codes d
  | Decimal.D8 d => 56%N :: uint_codes d
  | Decimal.D9 d => 57%N :: uint_codes d
  end.
Definition str_of_nat (n : nat) : pystr := uint_codes (Nat.to_uint n).

(** ** dict and list helpers *)

Section Dict.
  Context {K V : Type} (keqb : K -> K -> bool).
  (** [d.get(k)] *)
  Fixpoint dict_get (k : K) (d : list (K * V)) : option V :=
    match d with
    | [] => None
    | (k', v) :: d' => if keqb k k' then Some v else dict_get k d'
    end.
  (** [k in d] *)
  Definition dict_has (k : K) (d : list (K * V)) : bool :=
    match dict_get k d with Some _ => true | None => false end.
  (** [d[k] = v] : keeps the position of an existing key *)
  Fixpoint dict_set (k : K) (v : V) (d : list (K * V)) : list (K * V) :=
    match d with
    | [] => [(k, v)]
    | (k', v') :: d' => if keqb k k' then (k', v) :: d' else (k', v') :: dict_set k v d'
    end.
End Dict.

(** [l[i] = v] *)
Fixpoint list_upd {A} (l : list A) (i : nat) (v : A) : result (list A) :=
  match l, i with
  | [], _ => Err IndexError
  | _ :: l', O => Ok (v :: l')
  | x :: l', S i' => let* r := list_upd l' i' v in Ok (x :: r)
  end.

(** [l[i]] for a non-negative [i] *)
Definition list_get {A} (l : list A) (i : nat) : result A := of_option IndexError (nth_error l i).

(** [l.index(x)] *)
Fixpoint index_of {A} (eqb : A -> A -> bool) (x : A) (l : list A) : option nat :=
  match l with
  | [] => None
  | y :: l' => if eqb x y then Some 0 else option_map S (index_of eqb x l')
  end.

(** [list(enumerate(l, start))] *)
Fixpoint enumerate_from {A} (start : nat) (l : list A) : list (nat * A) :=
  match l with
  | [] => []
  | x :: l' => (start, x) :: enumerate_from (S start) l'
  end.
Definition enumerate {A} (l : list A) := enumerate_from 0 l.
