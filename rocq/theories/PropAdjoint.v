(** * Scalar products, and what backpropagation needs: C60 *)
From Verif Require Import Py Tensor SpecSem SpecGrammar SpecPattern SpecOps SpecElements SpecAdjoint Parsing Recipe Ops Backends Api Instances AdjointFacts.

(** one pattern applied to two tensors of one shape: the scalar product stays *)
Theorem C60_rearrange_keeps : forall (A : Type) (r : runtime A) (add mul : A -> A -> A) (zero : A)
    (x x' z z' : tensor A) (p : pystr) (s : list (pystr * Z)),
  runtime_ok r -> sums_and_products add mul zero -> NoDup (map fst s) -> wf x -> wf z -> shp z = shp x ->
  rearrange r (One x) p s = Ok x' -> rearrange r (One z) p s = Ok z' ->
  inner add mul zero x' z' = inner add mul zero x z.
Proof. exact (fun A r add mul zero x x' z z' p s Hok Hsp => rearrange_isometry r Hok add mul zero Hsp x x' z z' p s). Qed.
Print Assumptions C60_rearrange_keeps.

(** the adjoint of a rearrangement is that of the flipped pattern *)
Theorem C60_rearrange : forall (A : Type) (r : runtime A) (add mul : A -> A -> A) (zero : A)
    (x y z w : tensor A) (p p' : pystr) (s s' : list (pystr * Z)) L R e len,
  runtime_ok r -> sums_and_products add mul zero ->
  NoDup (map fst s) -> NoDup (map fst s') -> wf x -> wf z -> shp z = shp y ->
  rearrange r (One x) p s = Ok y -> rearrange r (One z) p' s' = Ok w ->
  reads (rt_unicode r) p L R -> reads (rt_unicode r) p' R L -> rank_fits L (length (shp x)) e ->
  fits len (left_groups e L) (right_groups e L R) (shp x) s ->
  fits len (left_groups e R) (right_groups e R L) (shp y) s' ->
  inner add mul zero y z = inner add mul zero x w.
Proof. exact (fun A r add mul zero x y z w p p' s s' L R e len Hok Hsp => rearrange_backward r Hok add mul zero Hsp x y z w p p' s s' L R e len). Qed.
Print Assumptions C60_rearrange.

(** [repeat] and the sum over the flipped pattern are adjoint *)
Theorem C60_repeat_and_sum : forall (A : Type) (r : runtime A) (add mul : A -> A -> A) (zero : A)
    (x y z w : tensor A) (p p' : pystr) (s s' : list (pystr * Z)) L R e len,
  runtime_ok r -> sums_and_products add mul zero -> (forall vs, rt_red r (lit "sum") vs = Ok (fold_right add zero vs)) ->
  NoDup (map fst s) -> NoDup (map fst s') -> wf x -> wf z -> shp z = shp y -> repeat_sizes_ok r p s ->
  repeat_ r (One x) p s = Ok y -> reduce r (One z) p' (RStr (lit "sum")) s' = Ok w ->
  reads (rt_unicode r) p L R -> reads (rt_unicode r) p' R L -> rank_fits L (length (shp x)) e ->
  fits len (left_groups e L) (right_groups e L R) (shp x) s ->
  fits len (left_groups e R) (right_groups e R L) (shp y) s' ->
  inner add mul zero y z = inner add mul zero x w.
Proof. exact (fun A r add mul zero x y z w p p' s s' L R e len Hok Hsp Hsum => repeat_sum r Hok add mul zero Hsp Hsum x y z w p p' s s' L R e len). Qed.
Print Assumptions C60_repeat_and_sum.

(** the gradient of [repeat]: the sum returns, with the shape of the argument *)
Theorem C60_repeat_backward : forall (A : Type) (r : runtime A) (add mul : A -> A -> A) (zero : A)
    (x y z : tensor A) (p p' : pystr) (s s' : list (pystr * Z)) L R e len,
  runtime_ok r -> sums_and_products add mul zero -> (forall vs, rt_red r (lit "sum") vs = Ok (fold_right add zero vs)) ->
  NoDup (map fst s) -> wf x -> wf z -> shp z = shp y -> repeat_sizes_ok r p s ->
  has_reduction (rt_framework r) (lit "sum") = true ->
  repeat_ r (One x) p s = Ok y ->
  reads (rt_unicode r) p L R -> reads (rt_unicode r) p' R L -> rank_fits L (length (shp x)) e ->
  fits len (left_groups e L) (right_groups e L R) (shp x) s ->
  plain L -> plain R -> ~ grouped_dots R -> gives_all R L len s' -> no_reserved s' ->
  exists w, reduce r (One z) p' (RStr (lit "sum")) s' = Ok w /\ shp w = shp x /\
    inner add mul zero y z = inner add mul zero x w.
Proof. exact (fun A r add mul zero x y z p p' s s' L R e len Hok Hsp Hsum => repeat_backward r Hok add mul zero Hsp Hsum x y z p p' s s' L R e len). Qed.
Print Assumptions C60_repeat_backward.

(** the gradient of a sum: [repeat] returns, with the shape of the argument *)
Theorem C60_sum_backward : forall (A : Type) (r : runtime A) (add mul : A -> A -> A) (zero : A)
    (z w g : tensor A) (p p' : pystr) (s s' : list (pystr * Z)) L R e len,
  runtime_ok r -> sums_and_products add mul zero -> (forall vs, rt_red r (lit "sum") vs = Ok (fold_right add zero vs)) ->
  NoDup (map fst s') -> wf z -> wf g -> shp g = shp w ->
  reduce r (One z) p' (RStr (lit "sum")) s' = Ok w ->
  reads (rt_unicode r) p' R L -> reads (rt_unicode r) p L R -> rank_fits R (length (shp z)) e ->
  fits len (left_groups e R) (right_groups e R L) (shp z) s' ->
  plain L -> plain R -> has_dots L = has_dots R -> ~ grouped_dots L ->
  gives_all L R len s -> incl (keys R) (keys L ++ map fst s) -> no_reserved s ->
  exists y, repeat_ r (One g) p s = Ok y /\ shp y = shp z /\ inner add mul zero y z = inner add mul zero g w.
Proof. exact (fun A r add mul zero z w g p p' s s' L R e len Hok Hsp Hsum => sum_backward r Hok add mul zero Hsp Hsum z w g p p' s s' L R e len). Qed.
Print Assumptions C60_sum_backward.

Example C60_case :
  let L := [nm "a"; dots3] in let R := [dots3; grp [lit "a"; lit "n"]] in
  let len := fun a => match a with LDots _ => 2 | _ => lens [(lit "a", 2); (lit "n", 3)] a end in
  let s' := [(lit "a", 2%Z); (lit "n", 3%Z)] in
  let x := iota [2; 2] in let z := iota [2; 6] in
  sums_and_products Z.add Z.mul 0%Z /\ (forall vs, rt_red numpy_like (lit "sum") vs = Ok (fold_right Z.add 0%Z vs)) /\
  reads ascii_unicode (lit "a ... -> ... (a n)") L R /\ reads ascii_unicode (lit "... (a n) -> a ...") R L /\
  rank_fits L 2 1 /\ fits len (left_groups 1 L) (right_groups 1 L R) [2; 2] [(lit "n", 3%Z)] /\
  plain L /\ plain R /\ ~ grouped_dots R /\ gives_all R L len s' /\ no_reserved s' /\
  exists y w, repeat_ numpy_like (One x) (lit "a ... -> ... (a n)") [(lit "n", 3%Z)] = Ok y /\ shp y = shp z /\
    reduce numpy_like (One z) (lit "... (a n) -> a ...") (RStr (lit "sum")) s' = Ok w /\
    inner Z.add Z.mul 0%Z y z = 135%Z /\ inner Z.add Z.mul 0%Z x w = 135%Z.
Proof.
  cbv zeta. split; [constructor; intros; lia|]. split; [reflexivity|].
  split; [solve_reads (lit "a ... ") (lit " ... (a n)")|]. split; [solve_reads (lit "... (a n) ") (lit " a ...")|].
  split; [reflexivity|]. split; [solve_fits|].
  split; [solve_plain|]. split; [solve_plain|]. split; [solve_not_grouped|]. split; [solve_gives|].
  split; [solve_no_reserved|]. eexists. eexists. split; [vm_compute; reflexivity|]. split; [reflexivity|]. split; [vm_compute; reflexivity|].
  split; vm_compute; reflexivity.
Qed.
