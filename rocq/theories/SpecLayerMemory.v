(** * Specification: what is assumed about the library's einsum in memory

    Part of the specification. *)
From Verif Require Import Py Tensor SpecElements Ops Strides SpecStrides.

(** The result has the right elements, is in memory of its own, and no two of its
    elements are at the same place. *)
Definition einsum_in_memory {A} (lib : memory A -> pystr -> list (array A) -> result (array A)) (ref : pystr -> list (tensor A) -> result (tensor A)) : Prop :=
  forall mem eq vs ts, Forall2 (shows mem) vs ts ->
    both (fun v t => shows mem v t /\ own_buffer v /\ NoDup (dat (places v))) (lib mem eq vs) (ref eq ts).
(** adding does not change the shape *)
Definition keeps_shape {A} (iadd : tensor A -> tensor A -> result (tensor A)) : Prop :=
  forall t c t', wf t -> wf c -> iadd t c = Ok t' -> wf t' /\ shp t' = shp t.
(** the same argument, in memory and as values *)
Definition option_shows {A} (mem : memory A) (b : option (array A)) (b' : option (tensor A)) : Prop :=
  match b, b' with Some v, Some t => shows mem v t | None, None => True | _, _ => False end.
(** Only that the result has the right elements and no two of them at the same place:
    it may be in memory that is in use, for instance be one of the operands. *)
Definition einsum_shows {A} (lib : memory A -> pystr -> list (array A) -> result (array A)) (ref : pystr -> list (tensor A) -> result (tensor A)) : Prop :=
  forall mem eq vs ts, Forall2 (shows mem) vs ts ->
    both (fun v t => shows mem v t /\ NoDup (dat (places v))) (lib mem eq vs) (ref eq ts).
