(** * Specification: arrays that share memory

    Part of the specification.  A place is a position in a buffer (Strides.v). *)
From Verif Require Import Py Tensor SpecSem SpecElements Ops Api Strides.

Section Shows.
  Context {A : Type} (mem : memory A).
  (** [v] has as many strides as dimensions, and its elements are those of the tensor [t] *)
  Definition at_place (b : buffer A) (k : Z) (a : A) : Prop := (0 <= k)%Z /\ nth_error (contents mem b) (Z.to_nat k) = Some a.
  Definition shows (v : array A) (t : tensor A) : Prop :=
    length (a_str v) = length (a_shp v) /\ alike (at_place (a_buf v)) (places v) t.
  (** the same for arguments: a callable must treat an array as its elements *)
  Definition reds_show (red : reduction (array A)) (red' : reduction (tensor A)) : Prop :=
    match red, red' with
    | RStr s, RStr s' => s = s'
    | RCall f, RCall g => forall v t axes, shows v t -> both shows (f v axes) (g t axes)
    | _, _ => False
    end.
  Definition inputs_show (x : input (array A)) (x' : input (tensor A)) : Prop :=
    match x, x' with One v, One t => shows v t | Many vs, Many ts => Forall2 shows vs ts | _, _ => False end.
  (** and for the results of pack *)
  Definition packed_shows (p : array A * list (list Z)) (q : tensor A * list (list Z)) : Prop := shows (fst p) (fst q) /\ snd p = snd q.
End Shows.

(** a buffer of its own *)
Definition own_buffer {A} (v : array A) : Prop := exists d, a_buf v = New d.
(** the same interpreter and library, for tensors of places *)
Definition place_runtime {A} (r : runtime A) : runtime Z :=
  mkR Z (rt_unicode r) (rt_orders r) (rt_framework r) (rt_lib r) (fun _ _ => Err BackendError) (fun _ => false) Z.of_nat.

(** What is assumed about reshape: if it returns a view, the elements are at the same
    places in the same order; and it returns a view whenever dimensions are only split
    ([gs]: the parts of each dimension; [[]] for a dimension of length 1 that is
    dropped), when dimensions of length 1 are put in front, and when there are no
    elements. *)
Record nocopy_ok (nocopy : list nat -> list Z -> list nat -> option (list Z)) : Prop := {
  nc_sound : forall s st s' st', length st = length s -> prodn s' = prodn s -> nocopy s st s' = Some st' ->
    length st' = length s' /\ forall off, places_of off s' st' = places_of off s st;
  nc_split : forall gs st k, length st = length gs -> nocopy (map prodn gs) st (repeat 1 k ++ concat gs) <> None;
  nc_empty : forall s st s', length st = length s -> prodn s = 0 -> prodn s' = 0 -> nocopy s st s' <> None
}.

(** no two axes of the result share one dimension *)
Definition flat_groups {X} (gs : list (list X)) : Prop := Forall (fun g => length g <= 1) gs.
