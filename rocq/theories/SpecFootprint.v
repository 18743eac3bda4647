(** * Specification: sizes of the tensors that are made

    Part of the specification. *)
From Verif Require Import Py Tensor SpecSem SpecGrammar SpecPattern SpecOps SpecCalls Parsing Recipe Ops Backends Api Packing Footprint.

Section Size.
  Context {A : Type}.
  (** number of elements *)
  Definition size (t : tensor A) : nat := prodn (shp t).
  Definition input_size (x : input (tensor A)) : nat := match x with One t => size t | Many ts => list_sum (map size ts) end.
  (** the input without, and with empty logs *)
  Definition plain (x : input (logged A)) : input (tensor A) := match x with One t => One (fst t) | Many ts => Many (map fst ts) end.
  Definition fresh (x : input (tensor A)) : input (logged A) := match x with One t => One (t, []) | Many ts => Many (map (fun t => (t, [])) ts) end.
  (** without the log *)
  Definition erase (m : result (logged A)) : result (tensor A) := match m with Ok y => Ok (fst y) | Err e => Err e end.
  Inductive erases_to : reduction (logged A) -> reduction (tensor A) -> Prop :=
  | Erases_str s : erases_to (RStr s) (RStr s)
  | Erases_call g f : (forall x axes, erase (g x axes) = f (fst x) axes) -> erases_to (RCall g) (RCall f).
  (** a callable that makes nothing that is larger than its argument, if that is not empty *)
  Definition modest (red : reduction (logged A)) : Prop :=
    match red with
    | RStr _ => True
    | RCall g => forall x axes y, g x axes = Ok y -> size (fst x) <> 0 -> size (fst y) <= size (fst x) /\ forall s, In s (snd y) -> In s (snd x) \/ prodn s <= size (fst x)
    end.
End Size.

(** How a library class reduces several axes: all at once, one by one from the last, or
    all at once where a tensor without axes is first one of shape (1). *)
Inductive manner := Together | One_by_one | Squeezing.
Definition manner_of (f : framework) (op : pystr) : manner :=
  match f with
  | Paddle => Squeezing
  | Oneflow | Tinygrad => One_by_one
  | Torch | TorchJit => if str_mem op [lit "any"; lit "all"; lit "prod"] then One_by_one else Together
  | Numpy | Jax | Cupy | Tensorflow | Keras | Pytensor => Together
  end.
(** The shapes of all tensors made by a correct call, in this order: split; put in order;
    reduced; with the new axes, each of length one at first; joined. *)
Section Made.
  Context (m : manner) (gl gr : list (list label)) (len : label -> nat).
  Definition is_old (a : label) : bool := existsb (label_eqb a) (concat gl).
  Definition shapes_made : list (list nat) :=
    let order := kept gl gr ++ missing gl gr in
    (if singles gl then [] else [map len (concat gl)]) ++
    (if list_eq_dec label_eq_dec order (concat gl) then [] else [map len order]) ++
    (match missing gl gr with
     | [] => []
     | gone =>
         match m with
         | Together => [map len (kept gl gr)]
         | One_by_one => map (fun k => map len (kept gl gr ++ firstn k gone)) (rev (seq 0 (length gone)))
         | Squeezing => (match kept gl gr with [] => [[1]] | _ => [] end) ++ [map len (kept gl gr)]
         end
     end) ++
    (match fresh_axes gl gr with
     | [] => []
     | new =>
         map (fun '(i, _) => map (fun a => if is_old a then len a else 1) (firstn (S i) (concat gr)) ++
                             map len (filter is_old (skipn (S i) (concat gr)))) new ++
         [map len (concat gr)]
     end) ++
    (if singles gr then [] else [gshape len gr]).
End Made.

(** the input has this shape; a list of tensors is stacked first *)
Definition input_shape {A} (sh : list nat) (x : input (tensor A)) : Prop :=
  match x with One t => shp t = sh | Many ts => exists s, sh = length ts :: s /\ forall t, In t ts -> shp t = s end.
Definition stacked {A} (sh : list nat) (x : input (tensor A)) : list (list nat) := match x with One _ => [] | Many _ => [sh] end.
