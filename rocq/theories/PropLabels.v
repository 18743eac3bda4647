(** * Axes of a pattern: C13, C14, C36, C39 *)
From Verif Require Import Py Tensor SpecSem SpecGrammar SpecForms SpecPattern SpecOps Parsing Compile Recipe Ops Backends Api Instances UnitLaws.

(** ** C13 *)
(** the same pattern with other names, errors included *)
Theorem C13_renaming : forall (A : Type) (r : runtime A) (f : pystr -> pystr) (p p' : pystr) (L R : expr) (sizes : list (pystr * Z)),
  runtime_ok r -> reads (rt_unicode r) p L R -> reads (rt_unicode r) p' (rename f L) (rename f R) ->
  NoDup (map fst sizes) -> renaming f (keys L ++ keys R ++ map fst sizes) ->
  no_reserved sizes -> no_reserved (rename_sizes f sizes) ->
  forall x : input (tensor A),
    rearrange r x p sizes = rearrange r x p' (rename_sizes f sizes) /\
    repeat_ r x p sizes = repeat_ r x p' (rename_sizes f sizes) /\
    (forall red, reduce r x p red sizes = reduce r x p' red (rename_sizes f sizes)) /\
    xp_rearrange r x p sizes = xp_rearrange r x p' (rename_sizes f sizes) /\
    xp_repeat r x p sizes = xp_repeat r x p' (rename_sizes f sizes) /\
    (forall red, xp_reduce_ r x p red sizes = xp_reduce_ r x p' red (rename_sizes f sizes)).
Proof. exact (fun A r f p p' L R sizes Hok => all_rename r Hok f p p' L R sizes). Qed.
Print Assumptions C13_renaming.

Example C13_case :
  let f := fun s => if str_eqb s (lit "a") then lit "b" else if str_eqb s (lit "b") then lit "batch" else s in
  let L := [nm "a"; grp [lit "b"; lit "c"]] in let R := [nm "c"; grp [lit "a"; lit "b"]] in
  reads ascii_unicode (lit "a (b c) -> c (a b)") L R /\
  reads ascii_unicode (lit "b (batch c) -> c (b batch)") (rename f L) (rename f R) /\
  renaming f (keys L ++ keys R ++ map fst [(lit "b", 2%Z)]) /\
  rearrange numpy_like (One (iota [2; 6])) (lit "b (batch c) -> c (b batch)") (rename_sizes f [(lit "b", 2%Z)]) =
  Ok (mkT [3; 4] [0; 3; 6; 9; 1; 4; 7; 10; 2; 5; 8; 11]%Z).
Proof.
  cbv zeta. split; [solve_reads (lit "a (b c) ") (lit " c (a b)")|]. split; [solve_reads (lit "b (batch c) ") (lit " c (b batch)")|].
  split; [|vm_compute; reflexivity]. split; [reflexivity|]. intros s t Hs Ht E. each Hs; each Ht; subst; try reflexivity; vm_compute in E; discriminate.
Qed.

(** ** C14 *)
(** names written in place of the ellipsis, errors included *)
Theorem C14_ellipsis_written_out : forall (A : Type) (r : runtime A) (fs : list pystr) (p p' : pystr) (L R : expr) (sizes : list (pystr * Z)) (n : nat),
  runtime_ok r -> reads (rt_unicode r) p L R -> reads (rt_unicode r) p' (open_dots fs L) (open_dots fs R) ->
  NoDup (map fst sizes) -> plain L -> plain R -> has_dots L = true -> ~ grouped_dots L -> rank_fits L n (length fs) ->
  (forall s, In s fs -> ~ In s (keys L ++ keys R ++ map fst sizes)) -> no_reserved sizes ->
  forall x : input (tensor A), input_rank x n ->
    (has_dots R = true ->
       rearrange r x p sizes = rearrange r x p' sizes /\ repeat_ r x p sizes = repeat_ r x p' sizes /\
       xp_rearrange r x p sizes = xp_rearrange r x p' sizes /\ xp_repeat r x p sizes = xp_repeat r x p' sizes) /\
    (forall red, match red with RStr s => builtin s | RCall _ => True end ->
       reduce r x p red sizes = reduce r x p' red sizes /\ xp_reduce_ r x p red sizes = xp_reduce_ r x p' red sizes).
Proof. exact (fun A r fs p p' L R sizes n Hok => all_open r Hok fs p p' L R sizes n). Qed.
Print Assumptions C14_ellipsis_written_out.

(** when the ellipsis is dropped by rearrange or repeat, the call is wrong both ways
    unless the ellipsis stands for nothing *)
Theorem C14_ellipsis_dropped : forall (A : Type) (r : runtime A) (fs : list pystr) (p p' : pystr) (L R : expr) (sizes : list (pystr * Z)) (n : nat),
  runtime_ok r -> reads (rt_unicode r) p L R -> reads (rt_unicode r) p' (open_dots fs L) (open_dots fs R) ->
  NoDup (map fst sizes) -> plain L -> plain R -> has_dots L = true -> ~ grouped_dots L -> rank_fits L n (length fs) ->
  (forall s, In s fs -> ~ In s (keys L ++ keys R ++ map fst sizes)) -> no_reserved sizes -> fs <> [] ->
  forall x : input (tensor A), input_rank x n ->
    rearrange r x p sizes = rearrange r x p' sizes /\ repeat_ r x p sizes = repeat_ r x p' sizes.
Proof. exact (fun A r fs p p' L R sizes n Hok => all_open_dropped r Hok fs p p' L R sizes n). Qed.
Print Assumptions C14_ellipsis_dropped.

Example C14_case :
  let L := [nm "a"; dots3; grp [lit "b"; lit "c"]] in let R := [Group [ADots; AName (lit "b")]; nm "c"] in
  reads ascii_unicode (lit "a ... (b c) -> (... b) c") L R /\
  reads ascii_unicode (lit "a x y (b c) -> (x y b) c") (open_dots [lit "x"; lit "y"] L) (open_dots [lit "x"; lit "y"] R) /\
  rank_fits L 4 2 /\ ~ grouped_dots L /\
  (forall s, In s [lit "x"; lit "y"] -> ~ In s (keys L ++ keys R ++ [lit "c"])) /\
  reduce numpy_like (One (iota [3; 1; 2; 4])) (lit "a ... (b c) -> (... b) c") (RStr (lit "max")) [(lit "c", 2%Z)] =
  Ok (mkT [4; 2] [16; 17; 18; 19; 20; 21; 22; 23]%Z).
Proof.
  cbv zeta. split; [solve_reads (lit "a ... (b c) ") (lit " (... b) c")|]. split; [solve_reads (lit "a x y (b c) ") (lit " (x y b) c")|].
  split; [reflexivity|]. split; [solve_not_grouped|]. split; [|vm_compute; reflexivity].
  intros s Hs H. each Hs; subst s; each H; discriminate.
Qed.

(** ** C36 *)
(** a number in place of a name: an axis to be reduced, a new axis of repeat *)
Theorem C36_number_reduced : forall (A : Type) (r : runtime A) (p p' s : pystr) (n : Z) (L R : expr) (sizes : list (pystr * Z)),
  runtime_ok r -> reads (rt_unicode r) p L R -> reads (rt_unicode r) p' (number s n L) (number s n R) ->
  NoDup (map fst ((s, n) :: sizes)) -> (2 <= n)%Z -> s <> ell_name -> no_reserved ((s, n) :: sizes) ->
  In s (keys L) -> ~ In s (keys R) ->
  forall (x : input (tensor A)) red, match red with RStr s => builtin s | RCall _ => True end ->
    reduce r x p red ((s, n) :: sizes) = reduce r x p' red sizes /\
    xp_reduce_ r x p red ((s, n) :: sizes) = xp_reduce_ r x p' red sizes.
Proof. exact (fun A r p p' s n L R sizes Hok => number_reduced r Hok p p' s n L R sizes). Qed.
Print Assumptions C36_number_reduced.

Theorem C36_number_repeated : forall (A : Type) (r : runtime A) (p p' s : pystr) (n : Z) (L R : expr) (sizes : list (pystr * Z)),
  runtime_ok r -> reads (rt_unicode r) p L R -> reads (rt_unicode r) p' (number s n L) (number s n R) ->
  NoDup (map fst ((s, n) :: sizes)) -> (2 <= n)%Z -> s <> ell_name -> no_reserved ((s, n) :: sizes) ->
  In s (keys R) -> ~ In s (keys L) ->
  forall x : input (tensor A),
    repeat_ r x p ((s, n) :: sizes) = repeat_ r x p' sizes /\ xp_repeat r x p ((s, n) :: sizes) = xp_repeat r x p' sizes.
Proof. exact (fun A r p p' s n L R sizes Hok => number_repeated r Hok p p' s n L R sizes). Qed.
Print Assumptions C36_number_repeated.

Example C36_case :
  let L := [Group [ANum 3; AName (lit "a")]; nm "s"] in let R := [nm "a"] in
  reads ascii_unicode (lit "(3 a) s -> a") L R /\
  reads ascii_unicode (lit "(3 a) 2 -> a") (number (lit "s") 2 L) (number (lit "s") 2 R) /\
  reduce numpy_like (One (iota [6; 2])) (lit "(3 a) 2 -> a") (RStr (lit "max")) [] = Ok (mkT [2] [9; 11]%Z) /\
  reads ascii_unicode (lit "a -> s (a 3)") [nm "a"] [nm "s"; Group [AName (lit "a"); ANum 3]] /\
  reads ascii_unicode (lit "a -> 2 (a 3)") [nm "a"] (number (lit "s") 2 [nm "s"; Group [AName (lit "a"); ANum 3]]) /\
  repeat_ numpy_like (One (iota [2])) (lit "a -> 2 (a 3)") [] = Ok (mkT [2; 6] [0; 0; 0; 1; 1; 1; 0; 0; 0; 1; 1; 1]%Z).
Proof.
  cbv zeta. split; [solve_reads (lit "(3 a) s ") (lit " a")|]. split; [change (reads ascii_unicode (lit "(3 a) 2 -> a") [Group [ANum 3; AName (lit "a")]; Atom (ANum 2)] [nm "a"]); solve_reads (lit "(3 a) 2 ") (lit " a")|].
  split; [vm_compute; reflexivity|]. split; [solve_reads (lit "a ") (lit " s (a 3)")|]. split; [change (reads ascii_unicode (lit "a -> 2 (a 3)") [nm "a"] [Atom (ANum 2); Group [AName (lit "a"); ANum 3]]); solve_reads (lit "a ") (lit " 2 (a 3)")|].
  vm_compute; reflexivity.
Qed.

(** ** C39 *)
(** [1], [()], ... on the left: a dimension of length 1 is taken away *)
Theorem C39_left : forall (A : Type) (r : runtime A) (p p' : pystr) (i : item) (L1 L2 R : expr) (sizes : list (pystr * Z)) (e : nat),
  runtime_ok r -> trivial i -> reads (rt_unicode r) p (L1 ++ L2) R -> reads (rt_unicode r) p' (L1 ++ i :: L2) R -> NoDup (map fst sizes) ->
  forall x : tensor A, wf x -> rank_fits (L1 ++ L2) (length (shp x)) e ->
    let x' := unit_at (length (left_groups e L1)) x in
    rearrange r (One x') p' sizes = rearrange r (One x) p sizes /\
    repeat_ r (One x') p' sizes = repeat_ r (One x) p sizes /\
    (forall red, reduce r (One x') p' red sizes = reduce r (One x) p red sizes) /\
    xp_rearrange r (One x') p' sizes = xp_rearrange r (One x) p sizes /\
    xp_repeat r (One x') p' sizes = xp_repeat r (One x) p sizes /\
    (forall red, xp_reduce_ r (One x') p' red sizes = xp_reduce_ r (One x) p red sizes).
Proof. exact (fun A r p p' i L1 L2 R sizes e Hok => all_left r Hok p p' i L1 L2 R sizes e). Qed.
Print Assumptions C39_left.

(** a dimension of another length is not accepted *)
Theorem C39_left_demands : forall (A : Type) (r : runtime A) (p' : pystr) (i : item) (L1 L2 R : expr) (sizes : list (pystr * Z)) (e : nat),
  runtime_ok r -> trivial i -> reads (rt_unicode r) p' (L1 ++ i :: L2) R -> NoDup (map fst sizes) ->
  forall (x y : tensor A) red, rank_fits (L1 ++ i :: L2) (length (shp x)) e ->
    reduce r (One x) p' red sizes = Ok y \/ xp_reduce_ r (One x) p' red sizes = Ok y \/
    rearrange r (One x) p' sizes = Ok y \/ repeat_ r (One x) p' sizes = Ok y \/
    xp_rearrange r (One x) p' sizes = Ok y \/ xp_repeat r (One x) p' sizes = Ok y ->
    nth_error (shp x) (length (left_groups e L1)) = Some 1.
Proof. exact (fun A r p' i L1 L2 R sizes e Hok => all_left_demands r Hok p' i L1 L2 R sizes e). Qed.
Print Assumptions C39_left_demands.

(** on the right: a dimension of length 1 is added to the result *)
Theorem C39_right : forall (A : Type) (r : runtime A) (p p' : pystr) (i : item) (L R1 R2 : expr) (sizes : list (pystr * Z)) (e : nat) (x y' : tensor A),
  runtime_ok r -> trivial i -> reads (rt_unicode r) p L (R1 ++ R2) -> reads (rt_unicode r) p' L (R1 ++ i :: R2) ->
  NoDup (map fst sizes) -> wf x -> rank_fits L (length (shp x)) e ->
  let same f := f p' = Ok y' <-> exists y, f p = Ok y /\ y' = unit_at (length (right_groups e L R1)) y in
  same (fun q => rearrange r (One x) q sizes) /\
  (repeat_sizes_ok r p sizes -> same (fun q => repeat_ r (One x) q sizes)) /\
  (forall s, builtin s -> reduction_fits r s -> float_if_mean r s -> same (fun q => reduce r (One x) q (RStr s) sizes)).
Proof. exact (fun A r p p' i L R1 R2 sizes e x y' Hok => calls_right r Hok p p' i L R1 R2 sizes e x y'). Qed.
Print Assumptions C39_right.

Example C39_case :
  trivial (Atom (ANum 1)) /\ trivial (Group []) /\ trivial (Group [ANum 1; ANum 1]) /\
  reads ascii_unicode (lit "... a 1 b -> (1) ... () b a") ([dots3; nm "a"] ++ Atom (ANum 1) :: [nm "b"]) ([Group [ANum 1]; dots3] ++ Group [] :: [nm "b"; nm "a"]) /\
  rank_fits ([dots3; nm "a"] ++ [nm "b"]) 4 2 /\ length (left_groups 2 [dots3; nm "a"]) = 3 /\
  unit_at 3 (iota [1; 2; 2; 2]) = iota [1; 2; 2; 1; 2] /\
  rearrange numpy_like (One (iota [1; 2; 2; 1; 2])) (lit "... a 1 b -> (1) ... () b a") [] =
  Ok (mkT [1; 1; 2; 1; 2; 2] [0; 2; 1; 3; 4; 6; 5; 7]%Z) /\
  rearrange numpy_like (One (iota [1; 2; 2; 2; 2])) (lit "... a 1 b -> (1) ... () b a") [] = Err EinopsError.
Proof.
  split; [reflexivity|]. split; [reflexivity|]. split; [reflexivity|].
  split; [solve_reads (lit "... a 1 b ") (lit " (1) ... () b a")|]. repeat split; vm_compute; reflexivity.
Qed.
