(** * reduce and repeat: C03, C04, C07, C22, C40 *)
From Verif Require Import Py Tensor SpecSem SpecGrammar SpecPattern SpecOps Parsing Recipe Ops Backends Api Instances RedFacts ApiFacts ApiFacts2 ApiFacts3 ApiFacts4 ApiFacts6.

(** ** C03 *)
Theorem C03_reduce_meaning : forall (A : Type) (r : runtime A) (x y : tensor A) (pattern op : pystr) (sizes : list (pystr * Z)),
  runtime_ok r -> NoDup (map fst sizes) -> wf x -> builtin op -> reduction_fits r op ->
  reduce r (One x) pattern (RStr op) sizes = Ok y ->
  exists L R e len, only_reading (rt_unicode r) Reducing pattern sizes (shp x) L R e len /\
    let gl := left_groups e L in let gr := right_groups e L R in
    (missing gl gr = [] -> moves gl gr len x y) /\
    (missing gl gr <> [] -> reduces (rt_red r op) gl gr len x y).
Proof. exact (fun A r x y pattern op sizes Hok => reduce_meaning r Hok x pattern op sizes y). Qed.
Print Assumptions C03_reduce_meaning.

(** nothing but the documented reductions is accepted *)
Theorem C03_unknown_reduction : forall (A : Type) (r : runtime A) (x : input (tensor A)) (pattern op : pystr) (sizes : list (pystr * Z)),
  runtime_ok r -> ~ builtin op -> op <> lit "rearrange" -> op <> lit "repeat" ->
  exists ex, reduce r x pattern (RStr op) sizes = Err ex.
Proof. exact (fun A r x pattern op sizes Hok => unknown_reduction r Hok x pattern op sizes). Qed.
Print Assumptions C03_unknown_reduction.

(** means of tensors that are not floating are refused *)
Theorem C03_mean_refused : forall (A : Type) (r : runtime A) (x : tensor A) (pattern : pystr) (sizes : list (pystr * Z)) L R e len,
  runtime_ok r -> NoDup (map fst sizes) -> wf x -> no_reserved sizes -> (forall t, rt_isf r t = false) ->
  call_ok (rt_unicode r) Reducing pattern sizes (shp x) L R e len -> missing (left_groups e L) (right_groups e L R) <> [] ->
  reduce r (One x) pattern (RStr (lit "mean")) sizes = Err NotImplementedError.
Proof. exact (fun A r x pattern sizes L R e len Hok => reduce_mean_refused r Hok x pattern sizes L R e len). Qed.
Print Assumptions C03_mean_refused.

Lemma z_sum_splits : splits (z_red (lit "sum")).
Proof. exact (fold_red_splits Z.add 0%Z Z.add_assoc Z.add_0_l). Qed.

Example C03_case :
  builtin (lit "sum") /\ reduction_fits (runtime_for Tinygrad) (lit "sum") /\
  reduce (runtime_for Tinygrad) (One (iota [2; 6; 2])) (lit "a (b c) ... -> c (a ...)") (RStr (lit "sum")) [(lit "b", 2%Z)] =
  Ok (mkT [3; 4] [6; 8; 30; 32; 10; 12; 34; 36; 14; 16; 38; 40]%Z).
Proof. split; [cbv; solve_member|]. split; [intros _; exact z_sum_splits|]. vm_compute. reflexivity. Qed.

(** ** C04 *)
Theorem C04_repeat_copies : forall (A : Type) (r : runtime A) (x y : tensor A) (pattern : pystr) (sizes : list (pystr * Z)),
  runtime_ok r -> NoDup (map fst sizes) -> wf x -> repeat_sizes_ok r pattern sizes ->
  repeat_ r (One x) pattern sizes = Ok y ->
  exists L R e len, only_reading (rt_unicode r) Repeating pattern sizes (shp x) L R e len /\
    moves (left_groups e L) (right_groups e L R) len x y.
Proof. exact (fun A r x y pattern sizes Hok => repeat_moves r Hok x pattern sizes y). Qed.
Print Assumptions C04_repeat_copies.

Theorem C04_repeat_returns : forall (A : Type) (r : runtime A) (x y : tensor A) (pattern : pystr) (sizes : list (pystr * Z)) L R e len,
  runtime_ok r -> NoDup (map fst sizes) -> wf x -> no_reserved sizes ->
  call_ok (rt_unicode r) Repeating pattern sizes (shp x) L R e len ->
  (repeat_ r (One x) pattern sizes = Ok y <-> moves (left_groups e L) (right_groups e L R) len x y).
Proof. exact (fun A r x y pattern sizes L R e len Hok => repeat_iff r Hok x pattern sizes L R e len y). Qed.
Print Assumptions C04_repeat_returns.

Example C04_case :
  (forall f, repeat_sizes_ok (runtime_for f) (lit "a ... -> ... (a n) 2") [(lit "n", 3%Z)]) /\
  repeat_ torch_like (One (iota [2; 1])) (lit "a ... -> ... (a n) 2") [(lit "n", 3%Z)] =
  Ok (mkT [1; 6; 2] [0; 0; 0; 0; 0; 0; 1; 1; 1; 1; 1; 1]%Z).
Proof.
  split; [intros f _ L R s _ H; each H; discriminate|]. vm_compute. reflexivity.
Qed.

(** without the hypothesis on sizes the property fails: where axes are added by
    [expand], a new axis of length -1 is accepted and gets length 1 *)
Theorem C04_repeat_minus_one_refuted :
  exists y, repeat_ torch_like (One (iota [2])) (lit "a -> a n") [(lit "n", (-1)%Z)] = Ok y /\
  forall L R e len, ~ fits len (left_groups e L) (right_groups e L R) [2] [(lit "n", (-1)%Z)].
Proof.
  eexists. split; [vm_compute; reflexivity|]. intros L R e len [_ [_ H]].
  specialize (H (lit "n") (-1)%Z (or_introl eq_refl)). lia.
Qed.
Print Assumptions C04_repeat_minus_one_refuted.

(** ** C07 *)
Theorem C07_reduce_of_repeat : forall (A : Type) (r : runtime A) (x y z : tensor A) (p p' op : pystr)
    (s s' : list (pystr * Z)) L R e len,
  runtime_ok r -> NoDup (map fst s) -> NoDup (map fst s') -> wf x ->
  repeat_sizes_ok r p s -> builtin op -> reduction_fits r op -> idempotent_on_copies (rt_red r op) ->
  repeat_ r (One x) p s = Ok y -> reduce r (One y) p' (RStr op) s' = Ok z ->
  reads (rt_unicode r) p L R -> reads (rt_unicode r) p' R L -> rank_fits L (length (shp x)) e ->
  fits len (left_groups e L) (right_groups e L R) (shp x) s ->
  fits len (left_groups e R) (right_groups e R L) (shp y) s' ->
  positive_new (left_groups e L) (right_groups e L R) len -> z = x.
Proof. exact (fun A r x y z p p' op s s' L R e len Hok => reduce_repeat_back r Hok x y z p p' s s' op L R e len). Qed.
Print Assumptions C07_reduce_of_repeat.

Theorem C07_reduce_of_repeat_total : forall (A : Type) (r : runtime A) (x y : tensor A) (p p' op : pystr)
    (s s' : list (pystr * Z)) L R e len,
  runtime_ok r -> NoDup (map fst s) -> wf x ->
  repeat_sizes_ok r p s -> builtin op -> reduction_fits r op -> float_if_mean r op ->
  has_reduction (rt_framework r) op = true -> idempotent_on_copies (rt_red r op) ->
  repeat_ r (One x) p s = Ok y ->
  reads (rt_unicode r) p L R -> reads (rt_unicode r) p' R L -> rank_fits L (length (shp x)) e ->
  fits len (left_groups e L) (right_groups e L R) (shp x) s ->
  positive_new (left_groups e L) (right_groups e L R) len ->
  plain L -> plain R -> ~ grouped_dots R -> gives_all R L len s' -> no_reserved s' ->
  reduce r (One y) p' (RStr op) s' = Ok x.
Proof. exact (fun A r x y p p' op s s' L R e len Hok => reduce_repeat_back_total r Hok x y p p' s s' op L R e len). Qed.
Print Assumptions C07_reduce_of_repeat_total.

(** the hypothesis on reductions holds for minimum, maximum, any, all, mean *)
Theorem C07_copies_minmax : forall (A : Type) (f : A -> A -> A), (forall a, f a a = a) -> idempotent_on_copies (fold1_red f).
Proof. exact (fun A f => fold1_red_copies f). Qed.
Print Assumptions C07_copies_minmax.
Theorem C07_copies_any_all : idempotent_on_copies (fold_red orb false) /\ idempotent_on_copies (fold_red andb true).
Proof.
  exact (conj (fold_red_copies orb false Bool.orb_diag Bool.orb_false_r) (fold_red_copies andb true Bool.andb_diag Bool.andb_true_r)).
Qed.
Print Assumptions C07_copies_any_all.
Theorem C07_copies_mean : idempotent_on_copies mean_red.
Proof. exact mean_copies. Qed.
Print Assumptions C07_copies_mean.

Example C07_case :
  let L := [nm "a"; dots3] in let R := [dots3; grp [lit "a"; lit "n"]] in
  let len := fun a => match a with LDots _ => 2 | _ => lens [(lit "a", 2); (lit "n", 3)] a end in
  let s' := [(lit "a", 2%Z); (lit "n", 3%Z)] in
  exists y, repeat_ numpy_like (One (iota [2; 2])) (lit "a ... -> ... (a n)") [(lit "n", 3%Z)] = Ok y /\
    reads ascii_unicode (lit "a ... -> ... (a n)") L R /\ reads ascii_unicode (lit "... (a n) -> a ...") R L /\
    rank_fits L 2 1 /\ fits len (left_groups 1 L) (right_groups 1 L R) [2; 2] [(lit "n", 3%Z)] /\
    positive_new (left_groups 1 L) (right_groups 1 L R) len /\
    plain L /\ plain R /\ ~ grouped_dots R /\ gives_all R L len s' /\ no_reserved s' /\
    reduce numpy_like (One y) (lit "... (a n) -> a ...") (RStr (lit "max")) s' = Ok (iota [2; 2]).
Proof.
  cbv zeta. eexists. split; [vm_compute; reflexivity|].
  split; [solve_reads (lit "a ... ") (lit " ... (a n)")|]. split; [solve_reads (lit "... (a n) ") (lit " a ...")|].
  split; [reflexivity|]. split; [solve_fits|].
  split; [intros a H _; each H; subst a; cbv; discriminate|].
  split; [solve_plain|]. split; [solve_plain|]. split; [solve_not_grouped|]. split; [solve_gives|].
  split; [solve_no_reserved|]. vm_compute. reflexivity.
Qed.

(** ** C22 *)
(** one tensor [t], spread out over elementary axes: kept ones in right-hand order,
    then the missing ones in left-hand order; the outcome for every callable [g] is
    determined by what [g] does with [t] and the trailing axes *)
Theorem C22_callable : forall (A : Type) (r : runtime A) (x : tensor A) (pattern : pystr) (sizes : list (pystr * Z)) L R e len,
  runtime_ok r -> NoDup (map fst sizes) -> wf x -> no_reserved sizes ->
  call_ok (rt_unicode r) Reducing pattern sizes (shp x) L R e len ->
  let gl := left_groups e L in let gr := right_groups e L R in
  exists t, spread gl (concat gr ++ missing gl gr) len x t /\
    forall g, reduce r (One x) pattern (RCall g) sizes =
      (let* t' := if (length (missing gl gr) =? 0) then Ok t
                  else g t (seq (length (concat gr)) (length (missing gl gr))) in
       reshape_to (rt_lib r) gr len t').
Proof. exact (fun A r x pattern sizes L R e len Hok => callable_call r Hok x pattern sizes L R e len). Qed.
Print Assumptions C22_callable.

(** the callable is never asked when the call is wrong *)
Theorem C22_callable_accepted : forall (A : Type) (r : runtime A) (x y : tensor A) (pattern : pystr) g (sizes : list (pystr * Z)),
  runtime_ok r -> NoDup (map fst sizes) -> wf x ->
  reduce r (One x) pattern (RCall g) sizes = Ok y ->
  no_reserved sizes /\ exists L R e len, call_ok (rt_unicode r) Reducing pattern sizes (shp x) L R e len.
Proof. exact (fun A r x y pattern g sizes Hok => callable_sound r Hok x pattern g sizes y). Qed.
Print Assumptions C22_callable_accepted.

Example C22_case :
  call_ok ascii_unicode Reducing (lit "a (b c) -> c") [(lit "b", 2%Z)] [2; 6] [nm "a"; grp [lit "b"; lit "c"]] [nm "c"] 0
    (lens [(lit "a", 2); (lit "b", 2); (lit "c", 3)]) /\
  reduce numpy_like (One (iota [2; 6])) (lit "a (b c) -> c") (RCall (fun t axes => Ok (mkT (shp t ++ axes) (dat t)))) [(lit "b", 2%Z)] =
  Ok (mkT [3; 2; 2; 1; 2] [0; 3; 6; 9; 1; 4; 7; 10; 2; 5; 8; 11]%Z).
Proof. split; [solve_call (lit "a (b c) ") (lit " c")|]. vm_compute. reflexivity. Qed.

(** ** C40 *)
Theorem C40_reduce_of_rearranged : forall (A : Type) (r : runtime A) (x y z z' : tensor A) (p1 p2 p3 op : pystr)
    (s1 s2 s3 : list (pystr * Z)) L M R e len,
  runtime_ok r -> NoDup (map fst s1) -> NoDup (map fst s2) -> NoDup (map fst s3) -> wf x ->
  builtin op -> reduction_fits r op -> symmetric (rt_red r op) ->
  rearrange r (One x) p1 s1 = Ok y -> reduce r (One y) p2 (RStr op) s2 = Ok z -> reduce r (One x) p3 (RStr op) s3 = Ok z' ->
  reads (rt_unicode r) p1 L M -> reads (rt_unicode r) p2 M R -> reads (rt_unicode r) p3 L R -> plain M ->
  rank_fits L (length (shp x)) e ->
  fits len (left_groups e L) (right_groups e L M) (shp x) s1 ->
  fits len (left_groups e M) (right_groups e M R) (shp y) s2 ->
  fits len (left_groups e L) (right_groups e L R) (shp x) s3 -> z' = z.
Proof. exact (fun A r x y z z' p1 p2 p3 op s1 s2 s3 L M R e len Hok => reduce_rearranged r Hok x y z z' p1 p2 p3 s1 s2 s3 op L M R e len). Qed.
Print Assumptions C40_reduce_of_rearranged.

(** nothing to reduce: same as rearrange *)
Theorem C40_reduce_nothing : forall (A : Type) (r : runtime A) (x y : tensor A) (pattern op : pystr) (sizes : list (pystr * Z)) L R e,
  runtime_ok r -> NoDup (map fst sizes) -> wf x -> builtin op ->
  reads (rt_unicode r) pattern L R -> rank_fits L (length (shp x)) e -> (odd_pattern L R -> e = 0) ->
  has_numbers L = false -> incl (keys L) (keys R) ->
  (reduce r (One x) pattern (RStr op) sizes = Ok y <-> rearrange r (One x) pattern sizes = Ok y).
Proof. exact (fun A r x y pattern op sizes L R e Hok => reduce_nothing r Hok x y pattern op sizes L R e). Qed.
Print Assumptions C40_reduce_nothing.

Theorem C40_symmetric_minmax : forall (A : Type) (f : A -> A -> A),
  (forall a b c, f a (f b c) = f (f a b) c) -> (forall a b, f a b = f b a) -> symmetric (fold1_red f).
Proof. exact (fun A f => fold1_red_symmetric f). Qed.
Print Assumptions C40_symmetric_minmax.
Theorem C40_symmetric_sum : forall (A : Type) (f : A -> A -> A) (u : A),
  (forall a b c, f a (f b c) = f (f a b) c) -> (forall a b, f a b = f b a) -> symmetric (fold_red f u).
Proof. exact (fun A f u => fold_red_symmetric f u). Qed.
Print Assumptions C40_symmetric_sum.
Theorem C40_symmetric_mean : symmetric mean_red.
Proof. exact mean_symmetric. Qed.
Print Assumptions C40_symmetric_mean.

Example C40_case :
  let L := [nm "a"; grp [lit "b"; lit "c"]] in let M := [grp [lit "c"; lit "a"]; nm "b"] in let R := [nm "b"] in
  let len := lens [(lit "a", 2); (lit "b", 2); (lit "c", 3)] in
  exists y z, rearrange torch_like (One (iota [2; 6])) (lit "a (b c) -> (c a) b") [(lit "b", 2%Z)] = Ok y /\
    reduce torch_like (One y) (lit "(c a) b -> b") (RStr (lit "sum")) [(lit "c", 3%Z)] = Ok z /\
    reduce torch_like (One (iota [2; 6])) (lit "a (b c) -> b") (RStr (lit "sum")) [(lit "c", 3%Z)] = Ok z /\
    reads ascii_unicode (lit "a (b c) -> (c a) b") L M /\ reads ascii_unicode (lit "(c a) b -> b") M R /\
    reads ascii_unicode (lit "a (b c) -> b") L R /\ plain M /\ rank_fits L 2 0 /\
    fits len (left_groups 0 L) (right_groups 0 L M) [2; 6] [(lit "b", 2%Z)] /\
    fits len (left_groups 0 M) (right_groups 0 M R) (shp y) [(lit "c", 3%Z)] /\
    fits len (left_groups 0 L) (right_groups 0 L R) [2; 6] [(lit "c", 3%Z)].
Proof.
  cbv zeta. eexists. eexists. split; [vm_compute; reflexivity|]. split; [vm_compute; reflexivity|].
  split; [vm_compute; reflexivity|].
  split; [solve_reads (lit "a (b c) ") (lit " (c a) b")|]. split; [solve_reads (lit "(c a) b ") (lit " b")|].
  split; [solve_reads (lit "a (b c) ") (lit " b")|].
  split; [solve_plain|]. split; [split; reflexivity|]. split; [solve_fits|]. split; solve_fits.
Qed.
