(** * Batch axes: C54 *)
From Verif Require Import Py Tensor SpecSem SpecGrammar SpecForms SpecPattern SpecOps Parsing Recipe Ops Backends Api SpecBatch BatchFacts Instances.

(** ** C54: an axis that is written by itself on both sides, and whose length is not given, is
    a batch axis: the slices of the result are the results of the slices *)
Theorem C54_slices : forall (A : Type) (r : runtime A) b (p p' : pystr) (L1 L2 R1 R2 : expr) (sizes : list (pystr * Z)) f e (X Y x : tensor A) i,
  runtime_ok r -> b <> ell_name ->
  reads (rt_unicode r) p (L1 ++ L2) (R1 ++ R2) ->
  reads (rt_unicode r) p' (L1 ++ Atom (AName b) :: L2) (R1 ++ Atom (AName b) :: R2) ->
  ~ In b (map fst sizes) -> NoDup (map fst sizes) -> operation r p sizes f -> rank_fits (L1 ++ L2) (length (shp x)) e ->
  let k := length (left_groups e L1) in let k' := length (right_groups e (L1 ++ L2) R1) in
  slice_of k i X x -> f (One X) p' = Ok Y ->
  count_at k' Y = count_at k X /\ exists y, slice_of k' i Y y /\ f (One x) p = Ok y.
Proof. exact (fun A r b p p' L1 L2 R1 R2 sizes f e X Y x i Hok Hb Hp Hp' Hs Hn => op_slices r Hok b p p' L1 L2 R1 R2 sizes Hb Hp Hp' Hs Hn f e X Y x i). Qed.
Print Assumptions C54_slices.

(** it returns if it does for each slice *)
Theorem C54_returns : forall (A : Type) (r : runtime A) b (p p' : pystr) (L1 L2 R1 R2 : expr) (sizes : list (pystr * Z)) f e (X : tensor A) s n,
  runtime_ok r -> b <> ell_name ->
  reads (rt_unicode r) p (L1 ++ L2) (R1 ++ R2) ->
  reads (rt_unicode r) p' (L1 ++ Atom (AName b) :: L2) (R1 ++ Atom (AName b) :: R2) ->
  ~ In b (map fst sizes) -> NoDup (map fst sizes) -> operation r p sizes f ->
  let k := length (left_groups e L1) in
  wf X -> n <> 0 -> k <= length s -> shp X = firstn k s ++ n :: skipn k s -> rank_fits (L1 ++ L2) (length s) e ->
  (forall i, i < n -> exists x y, slice_of k i X x /\ f (One x) p = Ok y) ->
  exists Y, f (One X) p' = Ok Y.
Proof. exact (fun A r b p p' L1 L2 R1 R2 sizes f e X s n Hok Hb Hp Hp' Hs Hn => op_returns r Hok b p p' L1 L2 R1 R2 sizes Hb Hp Hp' Hs Hn f e X s n). Qed.
Print Assumptions C54_returns.

(** nothing of one element of a batch gets into the result for another: elements that are
    equal have equal results, in whichever batches and at whichever places they are *)
Theorem C54_independent : forall (A : Type) (r : runtime A) b (p p' : pystr) (L1 L2 R1 R2 : expr) (sizes : list (pystr * Z)) f e (X X' Y Y' x : tensor A) i i',
  runtime_ok r -> b <> ell_name ->
  reads (rt_unicode r) p (L1 ++ L2) (R1 ++ R2) ->
  reads (rt_unicode r) p' (L1 ++ Atom (AName b) :: L2) (R1 ++ Atom (AName b) :: R2) ->
  ~ In b (map fst sizes) -> NoDup (map fst sizes) -> operation r p sizes f -> rank_fits (L1 ++ L2) (length (shp x)) e ->
  let k := length (left_groups e L1) in let k' := length (right_groups e (L1 ++ L2) R1) in
  slice_of k i X x -> slice_of k i' X' x -> f (One X) p' = Ok Y -> f (One X') p' = Ok Y' ->
  exists y, slice_of k' i Y y /\ slice_of k' i' Y' y.
Proof. exact (fun A r b p p' L1 L2 R1 R2 sizes f e X X' Y Y' x i i' Hok Hb Hp Hp' Hs Hn => op_independent r Hok b p p' L1 L2 R1 R2 sizes Hb Hp Hp' Hs Hn f e X X' Y Y' x i i'). Qed.
Print Assumptions C54_independent.

(** a list of tensors is a batch: the call is the calls with each, laid out along the axis *)
Theorem C54_list : forall (A : Type) (r : runtime A) b (p p' : pystr) (L R1 R2 : expr) (sizes : list (pystr * Z)) f e s (ts : list (tensor A)) Y,
  runtime_ok r -> b <> ell_name ->
  reads (rt_unicode r) p L (R1 ++ R2) ->
  reads (rt_unicode r) p' (Atom (AName b) :: L) (R1 ++ Atom (AName b) :: R2) ->
  ~ In b (map fst sizes) -> NoDup (map fst sizes) -> operation r p sizes f -> rank_fits L (length s) e ->
  ts <> [] -> (forall t, In t ts -> wf t /\ shp t = s) ->
  let k := length (right_groups e L R1) in
  (f (Many ts) p' = Ok Y <->
   exists ys, Forall2 (fun t y => f (One t) p = Ok y) ts ys /\ wf Y /\ count_at k Y = length ts /\
     forall i y, nth_error ys i = Some y -> slice_of k i Y y).
Proof. exact (fun A r b p p' L R1 R2 sizes f e s ts Y Hok Hb Hp Hp' Hs Hn => op_list r Hok b p p' L R1 R2 sizes Hb Hp Hp' Hs Hn f e s ts Y). Qed.
Print Assumptions C54_list.

(** a batch of two in the middle, with an ellipsis before it: slice 1 of the result *)
Example C54_case :
  let L1 := [dots3; nm "h"] in let L2 := [nm "w"] in let R1 := @nil item in let R2 := [grp [lit "w"; lit "h"]] in
  let X := mkT [1; 2; 2; 3] [0; 1; 2; 3; 4; 5; 6; 7; 8; 9; 10; 11]%Z in let x := mkT [1; 2; 3] [3; 4; 5; 9; 10; 11]%Z in
  reads ascii_unicode (lit "... h w -> (w h)") (L1 ++ L2) (R1 ++ R2) /\
  reads ascii_unicode (lit "... h b w -> b (w h)") (L1 ++ nm "b" :: L2) (R1 ++ nm "b" :: R2) /\
  rank_fits (L1 ++ L2) (length (shp x)) 1 /\ length (left_groups 1 L1) = 2 /\ length (right_groups 1 (L1 ++ L2) R1) = 0 /\
  slice_of 2 1 X x /\
  operation numpy_like (lit "... h w -> (w h)") [] (fun x q => reduce numpy_like x q (RStr (lit "sum")) []) /\
  reduce numpy_like (One X) (lit "... h b w -> b (w h)") (RStr (lit "sum")) [] = Ok (mkT [2; 6] [0; 6; 1; 7; 2; 8; 3; 9; 4; 10; 5; 11]%Z) /\
  reduce numpy_like (One x) (lit "... h w -> (w h)") (RStr (lit "sum")) [] = Ok (mkT [6] [3; 9; 4; 10; 5; 11]%Z) /\
  rearrange numpy_like (Many [mkT [2] [1; 2]%Z; mkT [2] [3; 4]%Z; mkT [2] [5; 6]%Z]) (lit "b h -> h b") [] = Ok (mkT [2; 3] [1; 3; 5; 2; 4; 6]%Z).
Proof.
  cbv zeta. split; [solve_reads (lit "... h w ") (lit " (w h)")|]. split; [solve_reads (lit "... h b w ") (lit " b (w h)")|].
  split; [vm_compute; reflexivity|]. split; [vm_compute; reflexivity|]. split; [vm_compute; reflexivity|].
  split. { split; [reflexivity|]. split; [reflexivity|]. split; [cbn; lia|]. split; [exists 2; split; [lia|reflexivity]|].
    intros [|i [|j [|k [|? ?]]]] H; try discriminate H. cbn [shp firstn skipn app]. unfold get. cbn [shp dat inb].
    destruct i as [|i]; [|reflexivity]. destruct j as [|[|j]]; [| |reflexivity]; destruct k as [|[|[|k]]]; reflexivity. }
  split; [constructor; [vm_compute; tauto|intros H; vm_compute in H; discriminate|intros H; discriminate]|].
  split; [vm_compute; reflexivity|]. split; vm_compute; reflexivity.
Qed.
