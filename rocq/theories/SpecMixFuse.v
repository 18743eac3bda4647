(** * Specification: one weight for two EinMix layers

    Part of the specification.  The first layer leads from axes grouped as [gl] to axes
    grouped as [gm], the second from there to [gr]. *)
From Verif Require Import Py Tensor SpecSem SpecGrammar SpecPattern SpecOps SpecEinMix SpecMixGrad.

(** lengths that are left to be found are not found by a division by zero *)
Definition no_division (sizes : list (pystr * Z)) (len : label -> nat) (gl : list (list label)) : Prop :=
  forall g, In g gl -> filter (unknown (map fst sizes)) g <> [] ->
    prodn (map len (filter (fun a => negb (unknown (map fst sizes) a)) g)) <> 0.

Section Fused.
  Context {A : Type} (add mul : A -> A -> A) (zero : A).
  Implicit Types u v w : tensor A.
  (** the sum of the products of the two weights over the axes that occur only between
      the layers *)
  Definition fused (gl gm gr : list (list label)) (U V W : expr) (len : label -> nat) u v w : Prop :=
    wf w /\ shp w = map len (weight_axes W) /\
    forall ix, within len ix (weight_axes W) ->
      let between := others (concat gm) (concat gl ++ concat gr) in
      exists us vs, weight_elements u U len between ix = map Some us /\ weight_elements v V len between ix = map Some vs /\
        get w (map ix (weight_axes W)) = Some (fold_right add zero (map2 mul us vs)).

  (** the elements of a bias *)
  Definition bias_elements b (B K : expr) (len : label -> nat) (axs : list label) (ix : label -> nat) : list (option A) :=
    map (fun i => get b (bias_index B K (assign label_eqb ix axs i))) (indices (map len axs)).
  (** the bias [b] of the first layer as it leaves the second one (weight [v]), plus the
      bias of the second *)
  Definition fused_bias (gm gr : list (list label)) (V B K B' R : expr) (len : label -> nat) v (b : tensor A) (second : option (expr * tensor A)) (b' : tensor A) : Prop :=
    forall ix, within len ix (concat gr) ->
      exists bs vs, bias_elements b B K len (missing gm gr) ix = map Some bs /\ weight_elements v V len (missing gm gr) ix = map Some vs /\
        let total := fold_right add zero (map2 mul bs vs) in
        match second with
        | None => get b' (bias_index B' R ix) = Some total
        | Some (B2, b2) => exists c, get b2 (bias_index B2 R ix) = Some c /\ get b' (bias_index B' R ix) = Some (add total c)
        end.
End Fused.
