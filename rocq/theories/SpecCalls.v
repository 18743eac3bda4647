(** * Specification: the library functions that a call runs

    Part of the specification.  [gl] and [gr] are the groups of the two sides of
    the pattern and [len] the lengths of the axes. *)
From Verif Require Import Py Tensor SpecSem SpecGrammar SpecPattern SpecOps Parsing Recipe Ops.

(** a call of a function of the array library *)
Inductive lib_call :=
| Reshape (shape : list nat)
| Transpose (axes : list nat)
| Aggregate (axes : list nat)
| Insert (ndim : nat) (axes : list (nat * nat)).   (* positions and lengths of the new axes *)

(** every group is one axis: nothing to split, nothing to join *)
Definition singles (gs : list (list label)) : bool := forallb (fun g => length g =? 1) gs.

(** position of an axis *)
Fixpoint place (l : list label) (a : label) : nat :=
  match l with
  | [] => 0
  | b :: l' => if label_eqb a b then 0 else S (place l' a)
  end.

(** axes that only the right side has, with their positions there *)
Definition fresh_axes (gl gr : list (list label)) : list (nat * label) :=
  filter (fun '(_, a) => negb (existsb (label_eqb a) (concat gl))) (enumerate (concat gr)).

(** what is run, in this order: split the dimensions into axes; put the axes that
    stay into the order of the right side, followed by the axes that go; reduce
    these; insert the new axes; join the axes into dimensions.  Whatever would do
    nothing is not run. *)
Definition lib_calls (gl gr : list (list label)) (len : label -> nat) : list lib_call :=
  let order := kept gl gr ++ missing gl gr in
  (if singles gl then [] else [Reshape (map len (concat gl))]) ++
  (if list_eq_dec label_eq_dec order (concat gl) then [] else [Transpose (map (place (concat gl)) order)]) ++
  (match missing gl gr with
   | [] => []
   | _ => [Aggregate (seq (length (kept gl gr)) (length (missing gl gr)))]
   end) ++
  (match fresh_axes gl gr with
   | [] => []
   | new => [Insert (length (concat gr)) (map (fun '(i, a) => (i, len a)) new)]
   end) ++
  (if singles gr then [] else [Reshape (gshape len gr)]).

(** running these with any backend, and with any array-API library *)
Definition perform {T} (B : backend T Z) (rd : reduction T) (t : T) (c : lib_call) : result T :=
  match c with
  | Reshape s => b_reshape B t (map Z.of_nat s)
  | Transpose p => b_transpose B t p
  | Aggregate axes => reduce_axes B t rd axes
  | Insert n l => b_add_axes B t n (map (fun '(i, k) => (i, Z.of_nat k)) l)
  end.

Definition perform_xp {T} (X : array_ns T) (rd : reduction T) (t : T) (c : lib_call) : result T :=
  match c with
  | Reshape s => xp_reshape X t (map Z.of_nat s)
  | Transpose p => xp_permute_dims X t p
  | Aggregate axes =>
      match rd with
      | RCall f => f t axes
      | RStr s => if str_mem s reductions then xp_reduce X t s axes else Err AssertionError
      end
  | Insert _ l =>
      let* t' := foldM (fun t '(i, _) => xp_expand_dims X t i) l t in
      let* s := foldM (fun s '(i, k) => list_upd s i (Z.of_nat k)) l (xp_shape X t') in
      xp_broadcast_to X t' s
  end.

(** what kind of call the [reduction] argument makes it *)
Inductive runs_as {T} : reduction T -> role -> Prop :=
| as_rearrange : runs_as (RStr (lit "rearrange")) Rearranging
| as_repeat : runs_as (RStr (lit "repeat")) Repeating
| as_builtin s : builtin s -> runs_as (RStr s) Reducing
| as_callable f : runs_as (RCall f) Reducing.
