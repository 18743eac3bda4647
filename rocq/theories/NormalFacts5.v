(** * The normal form on examples *)
From Coq Require Import Permutation Sorted.
From Verif Require Import Py Tensor ListFacts TensorFacts SpecSem SpecOptimize SpecDistinct StepFacts DistinctFacts DistinctFacts3 Optimize Instances.
From Verif Require Export NormalFacts4.

Ltac perm := match goal with |- Permutation ?l ?m => apply NoDup_Permutation; [solve_NoDup|solve_NoDup|intros ?k; cbn; intuition subst; auto 9] end.
Ltac solve_sensible := split; [reflexivity|]; split; [solve_NoDup|]; split; [cbn; intros ?k ?H; intuition lia|perm].

Lemma unit_same :
  sensible [2; 1; 3] [] [1; 0; 2] /\ sensible [6] [] [0] /\ Forall (fun d => 1 <= d) [2; 1; 3] /\
  (forall (A : Type) (red : list A -> result A) (lib : bool) (x : tensor A), wf x -> prodn (shp x) = 6 ->
     flat_result lib red x [2; 1; 3] [] [1; 0; 2] = flat_result lib red x [6] [] [0]) /\
  optimize_transformation [2; 1; 3] [] [1; 0; 2] tt = Ok ([2; 1; 3], [], [1; 0; 2], tt) /\
  optimize_transformation [6] [] [0] tt = Ok ([6], [], [0], tt).
Proof.
  split; [solve_sensible|]. split; [solve_sensible|]. split; [repeat constructor|]. split; [|split; vm_compute; reflexivity].
  intros A red lib [s d] W P. unfold wf in W. cbn [shp dat] in *. rewrite P in W. do 6 (destruct d as [|? d]; [discriminate|]). destruct d; [|discriminate].
  assert (E : forall l, prodn l = 6 -> t_reshape lib (mkT s [a; a0; a1; a2; a3; a4]) (map Z.of_nat l) = Ok (mkT l [a; a0; a1; a2; a3; a4])).
  { intros l Hl. apply (reshape_nat lib (mkT s [a; a0; a1; a2; a3; a4])). cbn [shp]. congruence. }
  unfold flat_result. rewrite !E by reflexivity. vm_compute.
  repeat (match goal with |- context [red ?l] => destruct (red l) end; try reflexivity).
Qed.
Lemma normal_case : sensible [2; 3; 5; 7; 2] [2; 1] [1; 2; 0] /\ sensible [2; 15; 14] [1] [1; 0] /\ sensible [2; 15; 14] [1] [0; 1] /\
  optimize_transformation [2; 3; 5; 7; 2] [2; 1] [1; 2; 0] tt = optimize_transformation [2; 15; 14] [1] [1; 0] tt /\
  optimize_transformation [2; 15; 14] [1] [0; 1] tt <> optimize_transformation [2; 15; 14] [1] [1; 0] tt /\
  notices (fun l => Ok (fold_right Z.add 0%Z l)) 0%Z 1%Z.
Proof.
  split; [solve_sensible|]. split; [solve_sensible|]. split; [solve_sensible|]. split; [vm_compute; reflexivity|]. split; [vm_compute; discriminate|]. exact (fold_notices Z.add 0%Z 1%Z ltac:(reflexivity) eq_refl ltac:(discriminate)).
Qed.
Lemma shortest_case : forall s' r' o', sensible s' r' o' -> Forall (fun d => 2 <= d) s' -> prodn s' = 12 ->
  (forall x : tensor Z, wf x -> prodn (shp x) = 12 -> flat_result false (fun l => Ok (fold_right Z.add 0%Z l)) x [2; 3; 2] [1] [1; 0] = flat_result false (fun l => Ok (fold_right Z.add 0%Z l)) x s' r' o') ->
  3 <= length s'.
Proof.
  intros s' r' o' H H2 P X. apply (optimize_shortest 0%Z 1%Z (fun l => Ok (fold_right Z.add 0%Z l)) false [2; 3; 2] [1] [1; 0] s' r' o' [2; 3; 2] [1] [1; 0]).
  - solve_sensible.
  - exact H.
  - repeat constructor.
  - exact H2.
  - apply normal_case.
  - symmetry. exact P.
  - exact X.
  - vm_compute. reflexivity.
Qed.
