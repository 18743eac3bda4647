(** * Specification: which calls are correct and what they return

    Part of the specification.  [L] and [R] are the two sides of the pattern, [e]
    the number of dimensions the ellipsis stands for, [len] the lengths of the
    axes. *)
From Verif Require Import Py Tensor SpecSem SpecGrammar SpecPattern.

(** the length of an axis follows neither from the pattern nor from the sizes *)
Definition unknown (names : list pystr) (a : label) : bool :=
  match a with LName s => negb (str_mem s names) | LDots _ => true | LNum _ _ => false end.

(** [...] on the left next to the word U+2026 on the right (see SpecGrammar.v):
    such calls work only if the ellipsis stands for no dimension at all *)
Definition odd_pattern (L R : expr) : Prop := has_dots L = true /\ has_dots R = false /\ In ell_name (keys R).

Record call_ok (U : unicode) (w : role) (pattern : pystr) (sizes : list (pystr * Z)) (shape : list nat)
    (L R : expr) (e : nat) (len : label -> nat) : Prop := {
  co_reads : reads U pattern L R;
  co_ident : ident_ok w L R (map fst sizes);
  co_dots : has_dots R = true -> has_dots L = true;
  co_flat : has_dots L = true -> ~ grouped_dots L;
  co_rank : rank_fits L (length shape) e;
  co_names : forall s, In s (map fst sizes) -> s <> ell_name /\ In s (keys L ++ keys R);
  co_one : forall g, In g (left_groups e L) -> length (filter (unknown (map fst sizes)) g) <= 1;
  co_fits : fits len (left_groups e L) (right_groups e L R) shape sizes;
  (** where a length has to be found by division, the divisor is not 0 *)
  co_div : forall g, In g (left_groups e L) -> filter (unknown (map fst sizes)) g <> [] ->
           prodn (map len (filter (fun a => negb (unknown (map fst sizes) a)) g)) <> 0;
  co_plain : odd_pattern L R -> e = 0
}.

(** the call is correct, and there is no other way to read the pattern and to give
    lengths to its axes *)
Definition only_reading (U : unicode) (w : role) (pattern : pystr) (sizes : list (pystr * Z)) (shape : list nat)
    (L R : expr) (e : nat) (len : label -> nat) : Prop :=
  call_ok U w pattern sizes shape L R e len /\
  forall L' R' e' len',
    reads U pattern L' R' -> rank_fits L' (length shape) e' ->
    fits len' (left_groups e' L') (right_groups e' L' R') shape sizes ->
    L' = L /\ R' = R /\ e' = e /\ same_on (concat (left_groups e L) ++ concat (right_groups e L R)) len len'.

(** the sizes give the length of every named axis of the left side *)
Record gives_all (L R : expr) (len : label -> nat) (sizes : list (pystr * Z)) : Prop := {
  ga_distinct : NoDup (map fst sizes);
  ga_names : forall s, In s (map fst sizes) -> s <> ell_name /\ In s (keys L ++ keys R);
  ga_all : forall s, In s (keys L) -> s <> ell_name -> In s (map fst sizes);
  ga_lengths : forall s z, In (s, z) sizes -> Z.of_nat (len (LName s)) = z
}.

(** the sizes do not use the names of the other parameters of the functions *)
Definition no_reserved (sizes : list (pystr * Z)) : Prop :=
  forall s, In s (map fst sizes) -> ~ In s [lit "tensor"; lit "pattern"; lit "reduction"].
Definition nonneg (sizes : list (pystr * Z)) : Prop := forall s z, In (s, z) sizes -> (0 <= z)%Z.

(** axes that are new on the right do not have length 0 *)
Definition positive_new (gl gr : list (list label)) (len : label -> nat) : Prop :=
  forall a, In a (concat gr) -> ~ In a (concat gl) -> len a <> 0.

Definition no_arrow (s : pystr) : Prop := forall a b, s <> a ++ lit "->" ++ b.

(** how calls with non-negative sizes may fail, apart from failures of the
    reduction itself *)
Definition listed_failure (U : unicode) (pattern : pystr) (sizes : list (pystr * Z)) (ex : exn) : Prop :=
  ex = EinopsError \/
  (** not exactly one arrow in the pattern *)
  (ex = ValueError /\ forall l r, no_arrow l -> no_arrow r -> pattern <> l ++ lit "->" ++ r) \/
  (** a length has to be found by dividing by a size of 0 *)
  (exists L R e g s, ex = ZeroDivisionError /\ reads U pattern L R /\ In g (left_groups e L) /\
      filter (unknown (map fst sizes)) g <> [] /\ In (LName s) g /\ In (s, 0%Z) sizes) \/
  (exists L R, ex = BackendError /\ reads U pattern L R /\ odd_pattern L R).

(** axes of the right side that occur on the left as well *)
Definition kept (gl gr : list (list label)) : list label :=
  filter (fun a => existsb (label_eqb a) (concat gl)) (concat gr).

Section Meaning.
  Context {A : Type}.
  Implicit Types x y : tensor A.

  (** [y] has the right-hand shape, and at every assignment of indices its
      element is the element of [x] *)
  Definition moves (gl gr : list (list label)) (len : label -> nat) x y : Prop :=
    wf y /\ shp y = gshape len gr /\
    forall ix, within len ix (concat gl ++ concat gr) ->
      get y (gindex len ix gr) = get x (gindex len ix gl).

  (** the elements of [x] when the axes [axs] run over all their values *)
  Definition elements x (len : label -> nat) (gl : list (list label)) (axs : list label) (ix : label -> nat)
      : list (option A) :=
    map (fun r => get x (gindex len (assign label_eqb ix axs r) gl)) (indices (map len axs)).

  (** [y] has the right-hand shape, and at every assignment of indices its
      element is [red] of the elements of [x] with the missing axes running *)
  Definition reduces (red : list A -> result A) (gl gr : list (list label)) (len : label -> nat) x y : Prop :=
    wf y /\ shp y = gshape len gr /\
    forall ix, within len ix (concat gr) ->
      exists vs v, elements x len gl (missing gl gr) ix = map Some vs /\ red vs = Ok v /\
                   get y (gindex len ix gr) = Some v.

  (** reshaping to the shape of the right side, left out when every group is one axis *)
  Definition reshape_to (lib : bool) (gr : list (list label)) (len : label -> nat) (t : tensor A) : result (tensor A) :=
    if existsb (fun g => negb (length g =? 1)) gr then t_reshape lib t (map Z.of_nat (gshape len gr)) else Ok t.

  (** [t] holds the elements of [x], one dimension for each of the axes [axs] *)
  Definition spread (gl : list (list label)) (axs : list label) (len : label -> nat) x t : Prop :=
    wf t /\ shp t = map len axs /\
    forall ix, within len ix axs -> get t (map ix axs) = get x (gindex len ix gl).
End Meaning.

(** ** Inserting axes

    A target lists the dimensions of the result: [Some n] is a new axis of length
    [n], [None] the next old one. *)
Definition inserted (target : list (option nat)) : list (nat * Z) :=
  flat_map (fun '(i, a) => match a with Some n => [(i, Z.of_nat n)] | None => [] end) (enumerate target).
(** shape of the result, from the old shape *)
Fixpoint filled (target : list (option nat)) (s : list nat) : list nat :=
  match target with
  | [] => []
  | Some n :: t => n :: filled t s
  | None :: t => match s with d :: s' => d :: filled t s' | [] => 0 :: filled t [] end
  end.
(** the entries of an index of the result that belong to old axes *)
Fixpoint olds (target : list (option nat)) (idx : list nat) : list nat :=
  match target, idx with
  | Some _ :: t, _ :: idx' => olds t idx'
  | None :: t, i :: idx' => i :: olds t idx'
  | _, _ => []
  end.
Definition count_old (target : list (option nat)) : nat :=
  length (filter (fun a => match a with None => true | Some _ => false end) target).

(** the reductions that are called by name *)
Definition builtin (s : pystr) : Prop :=
  In s [lit "min"; lit "max"; lit "sum"; lit "mean"; lit "prod"; lit "any"; lit "all"].
