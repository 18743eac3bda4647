(** * Specification: numbers drawn at random

    Part of the specification.  Elements are rational numbers here; a bound may be a
    root, so it is given by its sign and its square. *)
From Coq Require Import QArith.
From Verif Require Import Py Tensor SpecGrammar SpecPattern.
Open Scope Q_scope.

(** [b_sign * sqrt b_square] *)
Record bound := mkBound { b_sign : Z; b_square : Q }.
Definition opposite (b : bound) : bound := mkBound (- b_sign b) (b_square b).
Definition nought : bound := mkBound 0 0.

(** [q <= b], without roots *)
Definition at_most (q : Q) (b : bound) : Prop :=
  match b_sign b with
  | Z0 => q <= 0
  | Zpos _ => q <= 0 \/ q * q <= b_square b
  | Zneg _ => q <= 0 /\ b_square b <= q * q
  end.
(** [b <= q] *)
Definition at_least (q : Q) (b : bound) : Prop := at_most (- q) (opposite b).

(** what is asked of the library: a tensor of this shape with elements between these bounds *)
Record request := mkRequest { q_shape : list Z; q_low : bound; q_high : bound }.
Definition answers (q : request) (t : tensor Q) : Prop :=
  wf t /\ map Z.of_nat (shp t) = q_shape q /\ Forall (fun w => at_least w (q_low q) /\ at_most w (q_high q)) (dat t).
Definition answers_option (q : option request) (t : option (tensor Q)) : Prop :=
  match q, t with None, None => True | Some q, Some t => answers q t | _, _ => False end.

(** the random numbers of a library, draw by draw, for ranges that contain 0; only a shape with
    a negative length is refused *)
Definition draws (draw : nat -> request -> result (tensor Q)) : Prop :=
  forall n q, at_least 0 (q_low q) -> at_most 0 (q_high q) ->
              match draw n q with
              | Ok t => answers q t
              | Err _ => exists z, In z (q_shape q) /\ (z < 0)%Z
              end.

Definition sum_of_squares (l : list Q) : Q := fold_right (fun a s => a * a + s) 0 l.

(** the axes that do not belong to the weight *)
Definition unweighted (W : expr) (axs : list label) : list label :=
  filter (fun a => negb (existsb (label_eqb a) (map LName (keys W)))) axs.
