(** * Joining axes: properties of _optimize_transformation *)
From Verif Require Import Py Tensor SpecSem SpecOptimize Optimize OptFacts2 Instances.

(** ** C35: for every shape, set of reduced axes and order of the others the
    function succeeds.  Reshaping, reducing (with any reduction) and transposing
    any tensor with the new parameters gives the same elements, or the same
    error, as with the given ones.  Nothing is left to join *)
Theorem C35_preserves : forall {F} (init_shapes reduced_axes axes_reordering : list nat) (final_shapes : F),
  sensible init_shapes reduced_axes axes_reordering ->
  exists s r o, optimize_transformation init_shapes reduced_axes axes_reordering final_shapes = Ok (s, r, o, final_shapes) /\
    sensible s r o /\ prodn s = prodn init_shapes /\ fully_joined s r o /\
    (forall A (lib : bool) (red : list A -> result A) (x : tensor A), wf x ->
       flat_result lib red x s r o = flat_result lib red x init_shapes reduced_axes axes_reordering) /\
    optimize_transformation s r o final_shapes = Ok (s, r, o, final_shapes).
Proof. exact @optimize_correct. Qed.
Print Assumptions C35_preserves.

(** axes 1 and 2 are both reduced, axes 3, 4 and 5 stay neighbours *)
Example C35_preserves_case : sensible [2; 3; 5; 7; 11; 13] [2; 1] [1; 2; 3; 0] /\
  optimize_transformation [2; 3; 5; 7; 11; 13] [2; 1] [1; 2; 3; 0] tt = Ok ([2; 15; 7 * 11 * 13], [1], [1; 0], tt).
Proof.
  split; [|vm_compute; reflexivity]. split; [reflexivity|]. split; [solve_NoDup|]. split.
  - intros a [<-|[<-|[]]]; cbn; lia.
  - cbn. apply Permutation.Permutation_sym, (Permutation.Permutation_cons_append [1; 2; 3] 0).
Qed.
Example C35_flat_case :
  flat_result false (fun l => Ok (fold_right Z.add 0%Z l)) (iota [2; 3; 2; 2]) [2; 3; 2; 2] [1] [1; 2; 0] = Ok [12; 48; 15; 51; 18; 54; 21; 57]%Z /\
  optimize_transformation [2; 3; 2; 2] [1] [1; 2; 0] tt = Ok ([2; 3; 4], [1], [1; 0], tt) /\
  flat_result false (fun l => Ok (fold_right Z.add 0%Z l)) (iota [2; 3; 2; 2]) [2; 3; 4] [1] [1; 0] = Ok [12; 48; 15; 51; 18; 54; 21; 57]%Z.
Proof. vm_compute. repeat split. Qed.
