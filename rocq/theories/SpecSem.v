(** * Specification: what a list of groups of named axes means

    This file is part of the specification, not of the model: it says how an
    assignment of lengths and indices to axis labels determines shapes and
    positions.  [X] is the type of labels. *)
From Verif Require Import Py Tensor.

Section Sem.
  Context {X : Type}.

  (** every listed axis has an index smaller than its length *)
  Definition within (len ix : X -> nat) (l : list X) : Prop := forall a, In a l -> ix a < len a.

  (** shape of a tensor whose dimensions are the given groups of axes *)
  Definition gshape (len : X -> nat) (gs : list (list X)) : list nat :=
    map (fun g => prodn (map len g)) gs.

  (** index tuple: in each group the C-order position of its axes' indices *)
  Definition gindex (len ix : X -> nat) (gs : list (list X)) : list nat :=
    map (fun g => ravel (map len g) (map ix g)) gs.

  (** change the indices of the axes [axs] to [vals] *)
  Definition assign (eqb : X -> X -> bool) (ix : X -> nat) (axs : list X) (vals : list nat) : X -> nat :=
    fun a => match index_of eqb a axs with Some k => nth k vals 0 | None => ix a end.
End Sem.
