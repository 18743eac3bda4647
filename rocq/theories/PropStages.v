(** * Calls after one another: C45, C46 *)
From Verif Require Import Py Tensor SpecSem SpecGrammar SpecPattern SpecOps Parsing Recipe Ops Backends Api Instances RedFacts ApiFacts6 ApiFacts7.

(** ** C45 *)
(** reducing in two stages is reducing at once *)
Theorem C45_reduce_twice : forall (A : Type) (r : runtime A) (x y z z' : tensor A) (p1 p2 p3 op : pystr)
    (s1 s2 s3 : list (pystr * Z)) L M R e e' len,
  runtime_ok r -> NoDup (map fst s1) -> NoDup (map fst s2) -> NoDup (map fst s3) -> wf x ->
  builtin op -> splits (rt_red r op) -> symmetric (rt_red r op) ->
  reduce r (One x) p1 (RStr op) s1 = Ok y -> reduce r (One y) p2 (RStr op) s2 = Ok z -> reduce r (One x) p3 (RStr op) s3 = Ok z' ->
  reads (rt_unicode r) p1 L M -> reads (rt_unicode r) p2 M R -> reads (rt_unicode r) p3 L R -> plain M -> plain R ->
  rank_fits L (length (shp x)) e -> rank_fits M (length (shp y)) e' ->
  fits len (left_groups e L) (right_groups e L M) (shp x) s1 ->
  fits len (left_groups e' M) (right_groups e' M R) (shp y) s2 ->
  fits len (left_groups e L) (right_groups e L R) (shp x) s3 -> z' = z.
Proof.
  exact (fun A r x y z z' p1 p2 p3 op s1 s2 s3 L M R e e' len Hok Hn1 Hn2 Hn3 Hw Hb =>
    reduce_twice r Hok x y z z' p1 p2 p3 s1 s2 s3 op L M R e e' len Hn1 Hn2 Hn3 Hw (proj1 (builtin_mem op) Hb)).
Qed.
Print Assumptions C45_reduce_twice.

Theorem C45_reduce_twice_total : forall (A : Type) (r : runtime A) (x y z : tensor A) (p1 p2 p3 op : pystr)
    (s1 s2 s3 : list (pystr * Z)) L M R e e' len,
  runtime_ok r -> NoDup (map fst s1) -> NoDup (map fst s2) -> wf x ->
  builtin op -> splits (rt_red r op) -> symmetric (rt_red r op) -> float_if_mean r op -> has_reduction (rt_framework r) op = true ->
  reduce r (One x) p1 (RStr op) s1 = Ok y -> reduce r (One y) p2 (RStr op) s2 = Ok z ->
  reads (rt_unicode r) p1 L M -> reads (rt_unicode r) p2 M R -> reads (rt_unicode r) p3 L R -> plain L -> plain M -> plain R ->
  rank_fits L (length (shp x)) e -> rank_fits M (length (shp y)) e' ->
  fits len (left_groups e L) (right_groups e L M) (shp x) s1 ->
  fits len (left_groups e' M) (right_groups e' M R) (shp y) s2 ->
  gives_all L R len s3 -> no_reserved s3 ->
  reduce r (One x) p3 (RStr op) s3 = Ok z.
Proof.
  exact (fun A r x y z p1 p2 p3 op s1 s2 s3 L M R e e' len Hok Hn1 Hn2 Hw Hb =>
    reduce_twice_total r Hok x y z p1 p2 p3 s1 s2 s3 op L M R e e' len Hn1 Hn2 Hw (proj1 (builtin_mem op) Hb)).
Qed.
Print Assumptions C45_reduce_twice_total.

(** rearranging what was reduced is one reduction; nothing is asked of the reduction
    beyond what [reduce] itself needs *)
Theorem C45_rearrange_of_reduced : forall (A : Type) (r : runtime A) (x y z z' : tensor A) (p1 p2 p3 op : pystr)
    (s1 s2 s3 : list (pystr * Z)) L M R e e' len,
  runtime_ok r -> NoDup (map fst s1) -> NoDup (map fst s2) -> NoDup (map fst s3) -> wf x ->
  builtin op -> reduction_fits r op ->
  reduce r (One x) p1 (RStr op) s1 = Ok y -> rearrange r (One y) p2 s2 = Ok z -> reduce r (One x) p3 (RStr op) s3 = Ok z' ->
  reads (rt_unicode r) p1 L M -> reads (rt_unicode r) p2 M R -> reads (rt_unicode r) p3 L R -> plain M -> plain R ->
  rank_fits L (length (shp x)) e -> rank_fits M (length (shp y)) e' ->
  fits len (left_groups e L) (right_groups e L M) (shp x) s1 ->
  fits len (left_groups e' M) (right_groups e' M R) (shp y) s2 ->
  fits len (left_groups e L) (right_groups e L R) (shp x) s3 -> z' = z.
Proof.
  exact (fun A r x y z z' p1 p2 p3 op s1 s2 s3 L M R e e' len Hok Hn1 Hn2 Hn3 Hw Hb =>
    rearrange_of_reduced r Hok x y z z' p1 p2 p3 s1 s2 s3 op L M R e e' len Hn1 Hn2 Hn3 Hw (proj1 (builtin_mem op) Hb)).
Qed.
Print Assumptions C45_rearrange_of_reduced.

Theorem C45_rearrange_of_reduced_total : forall (A : Type) (r : runtime A) (x y z : tensor A) (p1 p2 p3 op : pystr)
    (s1 s2 s3 : list (pystr * Z)) L M R e e' len,
  runtime_ok r -> NoDup (map fst s1) -> NoDup (map fst s2) -> wf x ->
  builtin op -> reduction_fits r op -> float_if_mean r op -> has_reduction (rt_framework r) op = true ->
  reduce r (One x) p1 (RStr op) s1 = Ok y -> rearrange r (One y) p2 s2 = Ok z ->
  reads (rt_unicode r) p1 L M -> reads (rt_unicode r) p2 M R -> reads (rt_unicode r) p3 L R -> plain L -> plain M -> plain R ->
  rank_fits L (length (shp x)) e -> rank_fits M (length (shp y)) e' ->
  fits len (left_groups e L) (right_groups e L M) (shp x) s1 ->
  fits len (left_groups e' M) (right_groups e' M R) (shp y) s2 ->
  gives_all L R len s3 -> no_reserved s3 ->
  reduce r (One x) p3 (RStr op) s3 = Ok z.
Proof.
  exact (fun A r x y z p1 p2 p3 op s1 s2 s3 L M R e e' len Hok Hn1 Hn2 Hw Hb =>
    rearrange_of_reduced_total r Hok x y z p1 p2 p3 s1 s2 s3 op L M R e e' len Hn1 Hn2 Hw (proj1 (builtin_mem op) Hb)).
Qed.
Print Assumptions C45_rearrange_of_reduced_total.

(** the reductions of the library split and are symmetric *)
Theorem C45_splits_sum : forall (A : Type) (f : A -> A -> A) (u : A),
  (forall a b c, f a (f b c) = f (f a b) c) -> (forall a, f u a = a) -> splits (fold_red f u).
Proof. exact (fun A f u Ha Hu => fold_red_splits f u Ha Hu). Qed.
Print Assumptions C45_splits_sum.
Theorem C45_splits_minmax : forall (A : Type) (f : A -> A -> A),
  (forall a b c, f a (f b c) = f (f a b) c) -> splits (fold1_red f).
Proof. exact (fun A f Ha => fold1_red_splits f Ha). Qed.
Print Assumptions C45_splits_minmax.
Theorem C45_splits_mean : splits mean_red.
Proof. exact mean_splits. Qed.
Print Assumptions C45_splits_mean.

(** the ellipsis is reduced in the first stage, an axis of a group in the second *)
Example C45_case :
  let L := [grp [lit "a"; lit "b"]; dots3; nm "c"] in let M := [nm "b"; grp [lit "c"; lit "a"]] in let R := [nm "a"; nm "b"] in
  let len := fun a => match a with LDots _ => 2 | _ => lens [(lit "a", 2); (lit "b", 3); (lit "c", 2)] a end in
  let s3 := [(lit "a", 2%Z); (lit "b", 3%Z); (lit "c", 2%Z)] in
  exists y z, reduce torch_like (One (iota [6; 2; 2])) (lit "(a b) ... c -> b (c a)") (RStr (lit "sum")) [(lit "a", 2%Z)] = Ok y /\
    reduce torch_like (One y) (lit "b (c a) -> a b") (RStr (lit "sum")) [(lit "a", 2%Z)] = Ok z /\
    reduce torch_like (One (iota [6; 2; 2])) (lit "(a b) ... c -> a b") (RStr (lit "sum")) s3 = Ok z /\
    reads ascii_unicode (lit "(a b) ... c -> b (c a)") L M /\ reads ascii_unicode (lit "b (c a) -> a b") M R /\
    reads ascii_unicode (lit "(a b) ... c -> a b") L R /\ plain L /\ plain M /\ plain R /\ rank_fits L 3 1 /\ rank_fits M (length (shp y)) 0 /\
    fits len (left_groups 1 L) (right_groups 1 L M) [6; 2; 2] [(lit "a", 2%Z)] /\
    fits len (left_groups 0 M) (right_groups 0 M R) (shp y) [(lit "a", 2%Z)] /\
    fits len (left_groups 1 L) (right_groups 1 L R) [6; 2; 2] s3 /\ gives_all L R len s3 /\ no_reserved s3 /\
    splits (z_red (lit "sum")) /\ symmetric (z_red (lit "sum")).
Proof.
  cbv zeta. eexists. eexists. split; [vm_compute; reflexivity|]. split; [vm_compute; reflexivity|].
  split; [vm_compute; reflexivity|].
  split; [solve_reads (lit "(a b) ... c ") (lit " b (c a)")|]. split; [solve_reads (lit "b (c a) ") (lit " a b")|].
  split; [solve_reads (lit "(a b) ... c ") (lit " a b")|]. split; [solve_plain|]. split; [solve_plain|]. split; [solve_plain|].
  split; [reflexivity|]. split; [split; reflexivity|]. split; [solve_fits|]. split; [solve_fits|]. split; [solve_fits|].
  split; [solve_gives|]. split; [solve_no_reserved|].
  split; [exact (fold_red_splits Z.add 0%Z Z.add_assoc Z.add_0_l)|exact (fold_red_symmetric Z.add 0%Z Z.add_assoc Z.add_comm)].
Qed.

(** ** C46 *)
(** axes may be added in stages, before and after rearranging *)
Theorem C46_repeat_twice : forall (A : Type) (r : runtime A) g1 g2 (x y z z' : tensor A) (p1 p2 p3 : pystr)
    (s1 s2 s3 : list (pystr * Z)) L M R e e' len,
  runtime_ok r -> g1 = rearrange r \/ g1 = repeat_ r -> g2 = rearrange r \/ g2 = repeat_ r ->
  NoDup (map fst s1) -> NoDup (map fst s2) -> NoDup (map fst s3) -> wf x ->
  repeat_sizes_ok r p1 s1 -> repeat_sizes_ok r p2 s2 -> repeat_sizes_ok r p3 s3 ->
  g1 (One x) p1 s1 = Ok y -> g2 (One y) p2 s2 = Ok z -> repeat_ r (One x) p3 s3 = Ok z' ->
  reads (rt_unicode r) p1 L M -> reads (rt_unicode r) p2 M R -> reads (rt_unicode r) p3 L R -> plain M ->
  rank_fits L (length (shp x)) e -> rank_fits M (length (shp y)) e' ->
  fits len (left_groups e L) (right_groups e L M) (shp x) s1 ->
  fits len (left_groups e' M) (right_groups e' M R) (shp y) s2 ->
  fits len (left_groups e L) (right_groups e L R) (shp x) s3 -> z' = z.
Proof.
  exact (fun A r g1 g2 x y z z' p1 p2 p3 s1 s2 s3 L M R e e' len Hok =>
    repeat_twice r Hok g1 g2 x y z z' p1 p2 p3 s1 s2 s3 L M R e e' len).
Qed.
Print Assumptions C46_repeat_twice.

Theorem C46_repeat_twice_total : forall (A : Type) (r : runtime A) g1 g2 (x y z : tensor A) (p1 p2 p3 : pystr)
    (s1 s2 s3 : list (pystr * Z)) L M R e e' len,
  runtime_ok r -> g1 = rearrange r \/ g1 = repeat_ r -> g2 = rearrange r \/ g2 = repeat_ r ->
  NoDup (map fst s1) -> NoDup (map fst s2) -> wf x ->
  repeat_sizes_ok r p1 s1 -> repeat_sizes_ok r p2 s2 ->
  g1 (One x) p1 s1 = Ok y -> g2 (One y) p2 s2 = Ok z ->
  reads (rt_unicode r) p1 L M -> reads (rt_unicode r) p2 M R -> reads (rt_unicode r) p3 L R -> plain L -> plain M -> plain R ->
  rank_fits L (length (shp x)) e -> rank_fits M (length (shp y)) e' ->
  fits len (left_groups e L) (right_groups e L M) (shp x) s1 ->
  fits len (left_groups e' M) (right_groups e' M R) (shp y) s2 ->
  gives_all L R len s3 -> (forall s, In s (keys R) -> ~ In s (keys L) -> In s (map fst s3)) -> no_reserved s3 ->
  repeat_ r (One x) p3 s3 = Ok z.
Proof.
  exact (fun A r g1 g2 x y z p1 p2 p3 s1 s2 s3 L M R e e' len Hok =>
    repeat_twice_total r Hok g1 g2 x y z p1 p2 p3 s1 s2 s3 L M R e e' len).
Qed.
Print Assumptions C46_repeat_twice_total.

(** adding axes (kept in the end) and reducing over others may be interchanged *)
Theorem C46_swap : forall (A : Type) (r : runtime A) (x y z t u : tensor A) (p1 p2 p3 p4 op : pystr)
    (s1 s2 s3 s4 : list (pystr * Z)) L M N R e e' len,
  runtime_ok r -> NoDup (map fst s1) -> NoDup (map fst s2) -> NoDup (map fst s3) -> NoDup (map fst s4) -> wf x ->
  repeat_sizes_ok r p1 s1 -> repeat_sizes_ok r p4 s4 ->
  builtin op -> reduction_fits r op -> symmetric (rt_red r op) ->
  repeat_ r (One x) p1 s1 = Ok y -> reduce r (One y) p2 (RStr op) s2 = Ok z ->
  reduce r (One x) p3 (RStr op) s3 = Ok t -> repeat_ r (One t) p4 s4 = Ok u ->
  reads (rt_unicode r) p1 L M -> reads (rt_unicode r) p2 M R -> reads (rt_unicode r) p3 L N -> reads (rt_unicode r) p4 N R ->
  plain L -> plain M -> plain N -> plain R -> has_numbers M = false ->
  incl (keys M) (keys L ++ keys R) -> (forall s, In s (keys L) -> In s (keys R) -> In s (keys N)) ->
  rank_fits L (length (shp x)) e -> rank_fits N (length (shp t)) e' ->
  fits len (left_groups e L) (right_groups e L M) (shp x) s1 ->
  fits len (left_groups e M) (right_groups e M R) (shp y) s2 ->
  fits len (left_groups e L) (right_groups e L N) (shp x) s3 ->
  fits len (left_groups e' N) (right_groups e' N R) (shp t) s4 -> u = z.
Proof.
  exact (fun A r x y z t u p1 p2 p3 p4 op s1 s2 s3 s4 L M N R e e' len Hok Hn1 Hn2 Hn3 Hn4 Hw Hs1 Hs4 Hb =>
    swap_reduce_repeat r Hok x y z t u p1 p2 p3 p4 s1 s2 s3 s4 op L M N R e e' len Hn1 Hn2 Hn3 Hn4 Hw Hs1 Hs4 (proj1 (builtin_mem op) Hb)).
Qed.
Print Assumptions C46_swap.

Example C46_case :
  let L := [nm "a"; nm "b"] in let M := [nm "b"; grp [lit "n"; lit "a"]] in let R := [grp [lit "b"; lit "m"]; nm "a"; nm "n"] in
  let len := lens [(lit "a", 2); (lit "b", 2); (lit "m", 3); (lit "n", 2)] in
  let s3 := [(lit "a", 2%Z); (lit "b", 2%Z); (lit "m", 3%Z); (lit "n", 2%Z)] in
  exists y z, repeat_ torch_like (One (iota [2; 2])) (lit "a b -> b (n a)") [(lit "n", 2%Z)] = Ok y /\
    repeat_ torch_like (One y) (lit "b (n a) -> (b m) a n") [(lit "n", 2%Z); (lit "m", 3%Z)] = Ok z /\
    repeat_ torch_like (One (iota [2; 2])) (lit "a b -> (b m) a n") s3 = Ok z /\
    reads ascii_unicode (lit "a b -> b (n a)") L M /\ reads ascii_unicode (lit "b (n a) -> (b m) a n") M R /\
    reads ascii_unicode (lit "a b -> (b m) a n") L R /\ plain L /\ plain M /\ plain R /\ rank_fits L 2 0 /\ rank_fits M (length (shp y)) 0 /\
    fits len (left_groups 0 L) (right_groups 0 L M) [2; 2] [(lit "n", 2%Z)] /\
    fits len (left_groups 0 M) (right_groups 0 M R) (shp y) [(lit "n", 2%Z); (lit "m", 3%Z)] /\
    fits len (left_groups 0 L) (right_groups 0 L R) [2; 2] s3 /\
    gives_all L R len s3 /\ no_reserved s3 /\ repeat_sizes_ok torch_like (lit "a b -> b (n a)") [(lit "n", 2%Z)] /\
    (forall s, In s (keys R) -> ~ In s (keys L) -> In s (map fst s3)).
Proof.
  cbv zeta. eexists. eexists. split; [vm_compute; reflexivity|]. split; [vm_compute; reflexivity|].
  split; [vm_compute; reflexivity|].
  split; [solve_reads (lit "a b ") (lit " b (n a)")|]. split; [solve_reads (lit "b (n a) ") (lit " (b m) a n")|].
  split; [solve_reads (lit "a b ") (lit " (b m) a n")|]. split; [solve_plain|]. split; [solve_plain|]. split; [solve_plain|].
  split; [split; reflexivity|]. split; [split; reflexivity|]. split; [solve_fits|]. split; [solve_fits|]. split; [solve_fits|].
  split; [solve_gives|]. split; [solve_no_reserved|]. split; [intros _ L R s _ H; each H; discriminate|].
  intros s H _. each H; subst s; cbv; tauto.
Qed.

Example C46_swap_case :
  let L := [nm "a"; nm "b"; dots3] in let M := [nm "b"; grp [lit "n"; lit "a"]; dots3] in let N := [nm "a"] in
  let R := [grp [lit "a"; lit "n"]] in
  let len := fun a => match a with LDots _ => 2 | _ => lens [(lit "a", 2); (lit "b", 3); (lit "n", 2)] a end in
  let x := iota [2; 3; 2] in
  exists y z t, repeat_ torch_like (One x) (lit "a b ... -> b (n a) ...") [(lit "n", 2%Z)] = Ok y /\
    reduce torch_like (One y) (lit "b (n a) ... -> (a n)") (RStr (lit "sum")) [(lit "n", 2%Z)] = Ok z /\
    reduce torch_like (One x) (lit "a b ... -> a") (RStr (lit "sum")) [] = Ok t /\
    repeat_ torch_like (One t) (lit "a -> (a n)") [(lit "n", 2%Z)] = Ok z /\
    reads ascii_unicode (lit "a b ... -> b (n a) ...") L M /\ reads ascii_unicode (lit "b (n a) ... -> (a n)") M R /\
    reads ascii_unicode (lit "a b ... -> a") L N /\ reads ascii_unicode (lit "a -> (a n)") N R /\
    plain L /\ plain M /\ plain N /\ plain R /\ has_numbers M = false /\
    incl (keys M) (keys L ++ keys R) /\ (forall s, In s (keys L) -> In s (keys R) -> In s (keys N)) /\
    rank_fits L 3 1 /\ rank_fits N (length (shp t)) 0 /\
    fits len (left_groups 1 L) (right_groups 1 L M) (shp x) [(lit "n", 2%Z)] /\
    fits len (left_groups 1 M) (right_groups 1 M R) (shp y) [(lit "n", 2%Z)] /\
    fits len (left_groups 1 L) (right_groups 1 L N) (shp x) [] /\
    fits len (left_groups 0 N) (right_groups 0 N R) (shp t) [(lit "n", 2%Z)].
Proof.
  cbv zeta. eexists. eexists. eexists. split; [vm_compute; reflexivity|]. split; [vm_compute; reflexivity|].
  split; [vm_compute; reflexivity|]. split; [vm_compute; reflexivity|].
  split; [solve_reads (lit "a b ... ") (lit " b (n a) ...")|]. split; [solve_reads (lit "b (n a) ... ") (lit " (a n)")|].
  split; [solve_reads (lit "a b ... ") (lit " a")|]. split; [solve_reads (lit "a ") (lit " (a n)")|].
  split; [solve_plain|]. split; [solve_plain|]. split; [solve_plain|]. split; [solve_plain|]. split; [reflexivity|].
  split; [solve_incl|]. split; [intros s H H'; each H; subst s; each H'; try discriminate; cbv; tauto|].
  split; [reflexivity|]. split; [split; reflexivity|]. split; [solve_fits|]. split; [solve_fits|]. split; [solve_fits|]. solve_fits.
Qed.
