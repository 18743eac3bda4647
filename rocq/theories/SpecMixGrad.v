(** * Specification: gradients of the parameters of EinMix

    Part of the specification.  [z] is the gradient of a function of the output of
    the layer, [x] its input. *)
From Verif Require Import Py Tensor SpecSem SpecGrammar SpecPattern SpecOps SpecEinMix.

Definition weight_axes (W : expr) : list label := map LName (keys W).
(** the axes of the bias, in the order of the output *)
Definition bias_axes (B R : expr) : list label := map LName (filter (fun s => str_mem s (keys B)) (written_names R)).
(** all axes but those of a parameter *)
Definition others (axs own : list label) : list label := filter (fun a => negb (existsb (label_eqb a) own)) axs.

Section Gradients.
  Context {A : Type} (add mul : A -> A -> A) (zero : A).
  Implicit Types x z g : tensor A.
  (** at every assignment of indices to the axes of the weight: the sum, over all other
      axes of input and output, of the products of the elements of [x] and [z] *)
  Definition weight_gradient (gl gr : list (list label)) (W : expr) (len : label -> nat) x z g : Prop :=
    wf g /\ shp g = map len (weight_axes W) /\
    forall ix, within len ix (weight_axes W) ->
      let rest := others (concat gr ++ missing gl gr) (weight_axes W) in
      exists xs zs, elements x len gl rest ix = map Some xs /\ elements z len gr rest ix = map Some zs /\
        get g (map ix (weight_axes W)) = Some (fold_right add zero (map2 mul xs zs)).
  (** the sum of the elements of [z] over the axes of the output that the bias lacks *)
  Definition bias_gradient (gr : list (list label)) (B R : expr) (len : label -> nat) z g : Prop :=
    wf g /\ shp g = map (fun s => if str_mem s (keys B) then len (LName s) else 1) (written_names R) /\
    forall ix, within len ix (bias_axes B R) ->
      exists zs, elements z len gr (others (concat gr) (bias_axes B R)) ix = map Some zs /\
        get g (bias_index B R ix) = Some (fold_right add zero zs).
End Gradients.
