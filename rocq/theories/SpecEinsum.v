(** * Specification: einsum patterns and what they mean

    Part of the specification. *)
From Verif Require Import Py Tensor SpecSem SpecGrammar SpecForms.

(** ** Patterns *)
Inductive entry := EName (s : pystr) | EDots.

(** What a dimension is called: a name or part of the ellipsis.  [1]s in
    parentheses do not count.  Quirks: the word U+2026 is an ellipsis, and an
    ellipsis in parentheses is an axis with the name U+2026. *)
Definition item_entry (i : item) : option entry :=
  match i with
  | Atom ADots => Some EDots
  | Atom (AName s) => if str_eqb s ell_name then Some EDots else Some (EName s)
  | Atom (ANum _) => None
  | Group _ => match content i with
               | [AName s] => Some (EName s)
               | [ADots] => Some (EName ell_name)
               | _ => None
               end
  end.
(** the string [s] lists the entries [es] *)
Definition lists (U : unicode) (ad : bool) (s : pystr) (es : list entry) : Prop :=
  exists e, written_as U true ad s e /\ map item_entry e = map Some es.
(** [pattern] is "[L1], ..., [Ln] -> [R]".  Names may be repeated in one [Li] *)
Definition einsum_reads (U : unicode) (pattern : pystr) (Ls : list (list entry)) (R : list entry) : Prop :=
  exists ls r, pattern = str_join (lit ",") ls ++ lit "->" ++ r /\ ls <> [] /\
    Forall2 (lists U true) ls Ls /\ lists U false r R.

Definition entry_names (es : list entry) : list pystr := flat_map (fun e => match e with EName s => [s] | EDots => [] end) es.
Definition all_names (Ls : list (list entry)) : list pystr := flat_map entry_names Ls.

(** without repetitions, in order of first occurrence *)
Definition distinct (l : list pystr) : list pystr :=
  fold_left (fun acc s => if str_mem s acc then acc else acc ++ [s]) l [].

(** ** One letter per name *)
Definition letters : pystr := lit "abcdefghijklmnopqrstuvwxyzABCDEFGHIJKLMNOPQRSTUVWXYZ".
Definition letter_of (names : list pystr) (s : pystr) : N :=
  match index_of str_eqb s names with Some k => nth k letters 0%N | None => 0%N end.

(** the pattern written with one character per name *)
Definition short_entry (f : pystr -> N) (e : entry) : pystr :=
  match e with EName s => [f s] | EDots => lit "..." end.
Definition short (f : pystr -> N) (es : list entry) : pystr := flat_map (short_entry f) es.
Definition short_pattern (f : pystr -> N) (Ls : list (list entry)) (R : list entry) : pystr :=
  str_join (lit ",") (map (short f) Ls) ++ lit "->" ++ short f R.

(** the names an expression mentions *)
Definition item_names (i : item) : list pystr := match item_entry i with Some (EName s) => [s] | _ => [] end.
Definition expr_names (e : expr) : list pystr := flat_map item_names e.

(** ** The formula

    A term lists names; [None] stands for the dimensions under the ellipsis. *)
Inductive lab (X : Type) := LName (a : X) | LDot (k : nat).
Arguments LName {X} a.
Arguments LDot {X} k.

Section Formula.
  Context {X A : Type} (eqb : X -> X -> bool) (add mul : A -> A -> A) (zero one : A).

  Definition lab_eqb (l m : lab X) : bool :=
    match l, m with LName a, LName b => eqb a b | LDot j, LDot k => j =? k | _, _ => false end.

  Definition term := list (option X).
  Definition term_names (t : term) : list X := flat_map (fun o => match o with Some a => [a] | None => [] end) t.
  Definition term_dots (t : term) : nat := length (filter (fun o => match o with Some _ => false | None => true end) t).

  (** the dimensions under an ellipsis are counted from the right, as broadcasting does *)
  Definition term_labs (e : nat) (t : term) : list (lab X) :=
    flat_map (fun o => match o with Some a => [LName a] | None => map LDot (rev (seq 0 e)) end) t.
  (** number of dimensions under the ellipsis *)
  Definition spare (t : term) (x : tensor A) : nat := length (shp x) - length (term_names t).
  Definition operand_labs (t : term) (x : tensor A) : list (lab X) := term_labs (spare t x) t.
  Definition all_labs (Ts : list term) (xs : list (tensor A)) : list (lab X) := concat (map2 operand_labs Ts xs).
  Definition out_labs (Ts : list term) (xs : list (tensor A)) (R : term) : list (lab X) :=
    term_labs (list_max (map2 spare Ts xs)) R.

  (** the tensor has one dimension per label: a name's dimension has the name's
      length; a dimension under the ellipsis may also have length 1 *)
  Definition dim_fits (len : lab X -> nat) (l : lab X) (d : nat) : Prop :=
    match l with LName _ => d = len l | LDot _ => d = len l \/ d = 1 end.
  Definition operand_fits (len : lab X -> nat) (t : term) (x : tensor A) : Prop :=
    wf x /\ term_dots t <= 1 /\ Forall2 (dim_fits len) (operand_labs t x) (shp x).

  (** A call the formula is meant for: every operand fits; each name is at most
      once on the right and occurs on the left; an ellipsis on the left needs
      one on the right; the length of each dimension under the ellipsis is the
      length in some operand. *)
  Definition good_call (len : lab X -> nat) (Ts : list term) (R : term) (xs : list (tensor A)) : Prop :=
    Forall2 (operand_fits len) Ts xs /\
    NoDup (term_names R) /\ incl (term_names R) (flat_map term_names Ts) /\ term_dots R <= 1 /\
    (In None (concat Ts) -> In None R) /\
    (forall k, k < list_max (map2 spare Ts xs) ->
       exists t x, In (t, x) (combine Ts xs) /\ In (LDot k, len (LDot k)) (combine (operand_labs t x) (shp x))).

  (** [ms] enumerates the labels that are summed over *)
  Definition summed (Ts : list term) (R : term) (xs : list (tensor A)) (ms : list (lab X)) : Prop :=
    NoDup ms /\ forall l, In l ms <-> In l (all_labs Ts xs) /\ ~ In l (out_labs Ts xs R).

  (** the element of an operand at the indices of its labels; along a broadcast
      dimension the only element *)
  Definition element_at (ix : lab X -> nat) (t : term) (x : tensor A) : A :=
    match get x (map2 (fun l d => if d =? 1 then 0 else ix l) (operand_labs t x) (shp x)) with Some a => a | None => zero end.
  Definition product_at (ix : lab X -> nat) (Ts : list term) (xs : list (tensor A)) : A :=
    fold_right mul one (map2 (element_at ix) Ts xs).

  (** [y] at each index of the right-hand labels is the sum over all indices of
      the other labels of the product of the operands *)
  Definition is_einsum (len : lab X -> nat) (Ts : list term) (R : term) (xs : list (tensor A)) (ms : list (lab X)) (y : tensor A) : Prop :=
    wf y /\ shp y = map len (out_labs Ts xs R) /\
    forall ix, within len ix (out_labs Ts xs R) ->
      get y (map ix (out_labs Ts xs R)) =
      Some (fold_right add zero (map (fun v => product_at (assign lab_eqb ix ms v) Ts xs) (indices (map len ms)))).
End Formula.

Definition to_term (es : list entry) : term (X := pystr) := map (fun e => match e with EName s => Some s | EDots => None end) es.

(** ** What is assumed of the library's einsum: the formula, for patterns with
    single letters as names *)
Definition compact_term (t : term (X := N)) : pystr := flat_map (fun o => match o with Some c => [c] | None => lit "..." end) t.
Definition compact_pattern (Ts : list (term (X := N))) (R : term (X := N)) : pystr :=
  str_join (lit ",") (map compact_term Ts) ++ lit "->" ++ compact_term R.
Definition einsum_contract {A} (add mul : A -> A -> A) (zero one : A) (lib_einsum : pystr -> list (tensor A) -> result (tensor A)) : Prop :=
  forall len Ts R xs, Ts <> [] -> incl (flat_map term_names Ts) letters -> good_call len Ts R xs ->
    exists y ms, lib_einsum (compact_pattern Ts R) xs = Ok y /\ summed Ts R xs ms /\ is_einsum N.eqb add mul zero one len Ts R xs ms y.
