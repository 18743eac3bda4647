(** * Joining axes gives a normal form *)
From Coq Require Import Sorted.
From Verif Require Import Py Tensor SpecSem SpecOptimize SpecDistinct Optimize NormalFacts5 Instances.

(** ** C80: for transformations whose lengths are at least 2, and any reduction
    that notices a single different element, [_optimize_transformation] gives
    the same for two transformations exactly if they do the same to every tensor *)
Theorem C80_decides : forall (A : Type) (a b : A) (red : list A -> result A) (lib : bool) (s r o s' r' o' : list nat),
  sensible s r o -> sensible s' r' o' -> Forall (fun d => 2 <= d) s -> Forall (fun d => 2 <= d) s' -> notices red a b ->
  (optimize_transformation s r o tt = optimize_transformation s' r' o' tt <->
   prodn s = prodn s' /\ forall x, wf x -> prodn (shp x) = prodn s -> flat_result lib red x s r o = flat_result lib red x s' r' o').
Proof. exact @optimize_decides. Qed.
Print Assumptions C80_decides.

(** without reduced axes, for elements of which there are two *)
Theorem C80_decides_order : forall (A : Type) (a b : A) (red : list A -> result A) (lib : bool) (s o s' o' : list nat),
  sensible s [] o -> sensible s' [] o' -> Forall (fun d => 2 <= d) s -> Forall (fun d => 2 <= d) s' -> a <> b -> (forall x, red [x] = Ok x) ->
  (optimize_transformation s [] o tt = optimize_transformation s' [] o' tt <->
   prodn s = prodn s' /\ forall x, wf x -> prodn (shp x) = prodn s -> flat_result lib red x s [] o = flat_result lib red x s' [] o').
Proof. exact @optimize_decides_order. Qed.
Print Assumptions C80_decides_order.

(** whatever joins all that can be joined, and sorts the reduced axes, gives this
    normal form *)
Theorem C80_unique : forall (A : Type) (a b : A) (red : list A -> result A) (lib : bool) (s r o s' r' o' : list nat),
  sensible s r o -> sensible s' r' o' -> Forall (fun d => 2 <= d) s -> Forall (fun d => 2 <= d) s' -> notices red a b ->
  fully_joined s r o -> fully_joined s' r' o' -> StronglySorted lt r -> StronglySorted lt r' -> prodn s = prodn s' ->
  (forall x, wf x -> prodn (shp x) = prodn s -> flat_result lib red x s r o = flat_result lib red x s' r' o') ->
  s = s' /\ r = r' /\ o = o'.
Proof. exact @joined_unique. Qed.
Print Assumptions C80_unique.

(** no transformation that does the same has fewer axes *)
Theorem C80_shortest : forall (A : Type) (a b : A) (red : list A -> result A) (lib : bool) (s r o s' r' o' t q z : list nat),
  sensible s r o -> sensible s' r' o' -> Forall (fun d => 2 <= d) s -> Forall (fun d => 2 <= d) s' -> notices red a b -> prodn s = prodn s' ->
  (forall x, wf x -> prodn (shp x) = prodn s -> flat_result lib red x s r o = flat_result lib red x s' r' o') ->
  optimize_transformation s r o tt = Ok (t, q, z, tt) -> length t <= length s'.
Proof. exact @optimize_shortest. Qed.
Print Assumptions C80_shortest.

(** with an axis of length 1 the claim is false: these two do the same, and stay
    different *)
Theorem C80_unit_refuted :
  sensible [2; 1; 3] [] [1; 0; 2] /\ sensible [6] [] [0] /\ Forall (fun d => 1 <= d) [2; 1; 3] /\
  (forall (A : Type) (red : list A -> result A) (lib : bool) (x : tensor A), wf x -> prodn (shp x) = 6 ->
     flat_result lib red x [2; 1; 3] [] [1; 0; 2] = flat_result lib red x [6] [] [0]) /\
  optimize_transformation [2; 1; 3] [] [1; 0; 2] tt = Ok ([2; 1; 3], [], [1; 0; 2], tt) /\
  optimize_transformation [6] [] [0] tt = Ok ([6], [], [0], tt).
Proof. exact unit_same. Qed.
Print Assumptions C80_unit_refuted.

(** two writings of one transformation: reduced axes in another order, joined by
    hand; and one that differs *)
Example C80_decides_case : sensible [2; 3; 5; 7; 2] [2; 1] [1; 2; 0] /\ sensible [2; 15; 14] [1] [1; 0] /\ sensible [2; 15; 14] [1] [0; 1] /\
  optimize_transformation [2; 3; 5; 7; 2] [2; 1] [1; 2; 0] tt = optimize_transformation [2; 15; 14] [1] [1; 0] tt /\
  optimize_transformation [2; 15; 14] [1] [0; 1] tt <> optimize_transformation [2; 15; 14] [1] [1; 0] tt /\
  notices (fun l => Ok (fold_right Z.add 0%Z l)) 0%Z 1%Z.
Proof. exact normal_case. Qed.
Example C80_shortest_case : forall s' r' o', sensible s' r' o' -> Forall (fun d => 2 <= d) s' -> prodn s' = 12 ->
  (forall x : tensor Z, wf x -> prodn (shp x) = 12 -> flat_result false (fun l => Ok (fold_right Z.add 0%Z l)) x [2; 3; 2] [1] [1; 0] = flat_result false (fun l => Ok (fold_right Z.add 0%Z l)) x s' r' o') ->
  3 <= length s'.
Proof. exact shortest_case. Qed.
