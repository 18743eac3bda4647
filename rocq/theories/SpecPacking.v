(** * Specification: packing patterns, and what it means to pack

    Part of the specification; independent of the model. *)
From Verif Require Import Py Tensor.

(** ** Patterns *)

(** [words U s ws]: the string [s] consists of the words [ws], separated (and
    possibly surrounded) by white space *)
Inductive words (U : unicode) : pystr -> list pystr -> Prop :=
| wd_nil : words U [] []
| wd_space c s ws : u_space U c = true -> words U s ws -> words U (c :: s) ws
| wd_word w s ws :
    w <> [] -> (forall c, In c w -> u_space U c = false) ->
    (s = [] \/ exists c s', s = c :: s' /\ u_space U c = true) ->
    words U s ws -> words U (w ++ s) (w :: ws).

(** legal axis names *)
Definition axis_name (U : unicode) (w : pystr) : Prop :=
  isidentifier U w = true /\ hd 0%N w <> c_under /\ last w 0%N <> c_under.

(** the pattern names the axes [before], then has the star, then names [after] *)
Definition pack_pattern (U : unicode) (pattern : pystr) (before after : list pystr) : Prop :=
  words U pattern (before ++ [lit "*"] ++ after) /\
  NoDup (before ++ after) /\ Forall (axis_name U) (before ++ after).

(** ** Packing *)
Section Packing.
  Context {A : Type}.
  Implicit Types (x t : tensor A) (b a m : list nat) (ms : list (list nat)).

  (** [x] has shape [b ++ [n] ++ a]; [t], of shape [b ++ m ++ a], is the part of
      [x] that starts at [off] on the middle axis, with that axis split up as [m] *)
  Definition piece_of b a x off m t : Prop :=
    wf t /\ shp t = b ++ m ++ a /\
    forall ib im ia, inb b ib = true -> inb m im = true -> inb a ia = true ->
      get t (ib ++ im ++ ia) = get x (ib ++ [off + ravel m im] ++ ia).

  (** where piece [k] starts: after all earlier pieces *)
  Definition offset ms (k : nat) : nat := list_sum (map prodn (firstn k ms)).

  (** number of elements on the axis in the pieces from number [k] on *)
  Definition suffix ms (k : nat) : nat := list_sum (map prodn (skipn k ms)).

  (** [x] consists of the pieces [ts], one after the other, in order, without
      gaps or overlaps; piece number [k] has the shape [b ++ nth k ms ++ a] *)
  Definition consists_of b a x ms (ts : list (tensor A)) : Prop :=
    wf x /\ shp x = b ++ [list_sum (map prodn ms)] ++ a /\ length ts = length ms /\
    forall k m t, nth_error ms k = Some m -> nth_error ts k = Some t ->
      piece_of b a x (offset ms k) m t.
End Packing.

(** ** Requested shapes *)

(** [m] is a way to read the requested shape [p], in which -1 stands for any number *)
Definition reads_as (p : list Z) (m : list nat) : Prop :=
  Forall2 (fun d n => d = Z.of_nat n \/ d = (-1)%Z) p m.
Definition open_shape (p : list Z) : Prop := In (-1)%Z p.
Definition closed_shape (p : list Z) : Prop := forall d, In d p -> (0 <= d)%Z.
(** exactly one -1, the other numbers are non-negative *)
Definition half_open (p : list Z) : Prop :=
  exists p1 p2, p = p1 ++ (-1)%Z :: p2 /\ closed_shape p1 /\ closed_shape p2.
(** number of elements on the axis that the shapes without -1 ask for *)
Definition is_open (p : list Z) : bool := existsb (Z.eqb (-1)) p.
Definition known_total (ps : list (list Z)) : nat :=
  list_sum (map (fun p => prodn (map Z.to_nat p)) (filter (fun p => negb (is_open p)) ps)).

(** Libraries differ in which negative numbers a reshape accepts ([lib = true]:
    all of them; otherwise only -1); [tame] holds when that does not matter. *)
Definition tame (lib : bool) (p : list Z) : Prop := lib = false \/ forall d, In d p -> (-1 <= d)%Z.

(** ** What unpack returns, exactly *)

(** the requested shape [p], with [len] elements, comes out as [m] *)
Definition fills (p : list Z) (len : nat) (m : list nat) : Prop :=
  prodn m = len /\
  ((closed_shape p /\ m = to_nats p) \/
   exists p1 p2 k, p = p1 ++ (-1)%Z :: p2 /\ closed_shape p1 /\ closed_shape p2 /\
                   prodn (to_nats (p1 ++ p2)) <> 0 /\ m = to_nats p1 ++ k :: to_nats p2).

(** [pu] is where the slack goes: the shape with -1, or else the last one *)
Definition slack (ps1 : list (list Z)) (pu : list Z) (ps2 : list (list Z)) : Prop :=
  (forall p, In p (ps1 ++ ps2) -> is_open p = false) /\ (is_open pu = true \/ ps2 = []).

(** The shape with a -1, or else the last one, takes what the others leave; the
    pieces before it are counted from the start of the axis, those after it from
    the end.  [start]: where piece [k] starts when piece [u] takes the rest. *)
Definition start (n u : nat) (ms : list (list nat)) (k : nat) : nat :=
  if k <=? u then offset ms k else n - suffix ms k.
Definition split_off {A} (b a : list nat) (n : nat) (x : tensor A) (u : nat) (ps : list (list Z))
    (ms : list (list nat)) (ts : list (tensor A)) : Prop :=
  Forall2 (fun p m => fills p (prodn m) m) ps ms /\
  offset ms u <= n /\ suffix ms (S u) <= n /\
  (forall m, nth_error ms u = Some m -> prodn m = n - suffix ms (S u) - offset ms u) /\
  length ts = length ms /\
  forall k m t, nth_error ms k = Some m -> nth_error ts k = Some t -> piece_of b a x (start n u ms k) m t.
