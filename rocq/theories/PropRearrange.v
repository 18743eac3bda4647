(** * rearrange: C01, C02, C05, C06 *)
From Verif Require Import Py Tensor SpecSem SpecGrammar SpecPattern SpecOps Parsing Recipe Ops Backends Api Instances ApiFacts ApiFacts2 ApiFacts5 ApiFacts6.

(** ** C01 *)
Theorem C01_rearrange_moves : forall (A : Type) (r : runtime A) (x y : tensor A) (pattern : pystr) (sizes : list (pystr * Z)),
  runtime_ok r -> NoDup (map fst sizes) -> wf x ->
  rearrange r (One x) pattern sizes = Ok y ->
  exists L R e len, only_reading (rt_unicode r) Rearranging pattern sizes (shp x) L R e len /\
    moves (left_groups e L) (right_groups e L R) len x y.
Proof. exact (fun A r x y pattern sizes Hok => rearrange_moves r Hok x pattern sizes y). Qed.
Print Assumptions C01_rearrange_moves.

(** conversely, when the pattern fits, whatever tensor the pattern describes is returned *)
Theorem C01_rearrange_returns : forall (A : Type) (r : runtime A) (x y : tensor A) (pattern : pystr) (sizes : list (pystr * Z)) L R e len,
  runtime_ok r -> NoDup (map fst sizes) -> wf x -> no_reserved sizes ->
  call_ok (rt_unicode r) Rearranging pattern sizes (shp x) L R e len ->
  (rearrange r (One x) pattern sizes = Ok y <-> moves (left_groups e L) (right_groups e L R) len x y).
Proof. exact (fun A r x y pattern sizes L R e len Hok => rearrange_iff r Hok x pattern sizes L R e len y). Qed.
Print Assumptions C01_rearrange_returns.

Example C01_case :
  runtime_ok numpy_like /\ NoDup (map fst [(lit "b", 2%Z)]) /\ wf (iota [2; 6]) /\
  rearrange numpy_like (One (iota [2; 6])) (lit "a (b c) -> c (a b)") [(lit "b", 2%Z)] =
  Ok (mkT [3; 4] [0; 3; 6; 9; 1; 4; 7; 10; 2; 5; 8; 11]%Z).
Proof. split; [apply runtime_for_ok|]. split; [solve_NoDup|]. split; [apply iota_wf|]. vm_compute. reflexivity. Qed.

Example C01_case_reading :
  call_ok ascii_unicode Rearranging (lit "a (b c) -> c (a b)") [(lit "b", 2%Z)] [2; 6]
    [nm "a"; grp [lit "b"; lit "c"]] [nm "c"; grp [lit "a"; lit "b"]] 0
    (lens [(lit "a", 2); (lit "b", 2); (lit "c", 3)]).
Proof. solve_call (lit "a (b c) ") (lit " c (a b)"). Qed.

(** ** C02 *)
Theorem C02_rearrange_permutes : forall (A : Type) (r : runtime A) (x y : tensor A) (pattern : pystr) (sizes : list (pystr * Z)),
  runtime_ok r -> NoDup (map fst sizes) -> wf x ->
  rearrange r (One x) pattern sizes = Ok y -> Permutation (dat x) (dat y).
Proof. exact (fun A r x y pattern sizes Hok => rearrange_permutes r Hok x pattern sizes y). Qed.
Print Assumptions C02_rearrange_permutes.

Theorem C02_rearrange_permutes_list : forall (A : Type) (r : runtime A) (ts : list (tensor A)) (y : tensor A) (pattern : pystr) (sizes : list (pystr * Z)),
  runtime_ok r -> NoDup (map fst sizes) -> (forall t, In t ts -> wf t) ->
  rearrange r (Many ts) pattern sizes = Ok y -> Permutation (flat_map dat ts) (dat y).
Proof. exact (fun A r ts y pattern sizes Hok => rearrange_permutes_list r Hok ts pattern sizes y). Qed.
Print Assumptions C02_rearrange_permutes_list.

Example C02_case :
  rearrange torch_like (Many [iota [2; 2]; iota [2; 2]]) (lit "n a ... -> ... (a n)") [] =
  Ok (mkT [2; 4] [0; 0; 2; 2; 1; 1; 3; 3]%Z).
Proof. vm_compute. reflexivity. Qed.

(** ** C05 *)
Theorem C05_rearrange_inverse : forall (A : Type) (r : runtime A) (x y z : tensor A) (p p' : pystr) (s s' : list (pystr * Z)) L R e len,
  runtime_ok r -> NoDup (map fst s) -> NoDup (map fst s') -> wf x ->
  rearrange r (One x) p s = Ok y -> rearrange r (One y) p' s' = Ok z ->
  reads (rt_unicode r) p L R -> reads (rt_unicode r) p' R L -> rank_fits L (length (shp x)) e ->
  fits len (left_groups e L) (right_groups e L R) (shp x) s ->
  fits len (left_groups e R) (right_groups e R L) (shp y) s' -> z = x.
Proof. exact (fun A r x y z p p' s s' L R e len Hok => rearrange_inverse r Hok x y z p p' s s' L R e len). Qed.
Print Assumptions C05_rearrange_inverse.

(** if the flipped call is told all lengths, it succeeds *)
Theorem C05_rearrange_inverse_total : forall (A : Type) (r : runtime A) (x y : tensor A) (p p' : pystr) (s s' : list (pystr * Z)) L R e len,
  runtime_ok r -> NoDup (map fst s) -> wf x ->
  rearrange r (One x) p s = Ok y ->
  reads (rt_unicode r) p L R -> reads (rt_unicode r) p' R L -> rank_fits L (length (shp x)) e ->
  fits len (left_groups e L) (right_groups e L R) (shp x) s ->
  plain L -> plain R -> ~ grouped_dots R -> gives_all R L len s' -> no_reserved s' ->
  rearrange r (One y) p' s' = Ok x.
Proof. exact (fun A r x y p p' s s' L R e len Hok => rearrange_inverse_total r Hok x y p p' s s' L R e len). Qed.
Print Assumptions C05_rearrange_inverse_total.

Example C05_case :
  let L := [nm "a"; grp [lit "b"; lit "c"]; dots3] in let R := [nm "c"; dots3; grp [lit "a"; lit "b"]] in
  let p := lit "a (b c) ... -> c ... (a b)" in let p' := lit "c ... (a b) -> a (b c) ..." in
  let len := fun a => match a with LDots _ => 2 | _ => lens [(lit "a", 2); (lit "b", 2); (lit "c", 3)] a end in
  let s' := [(lit "a", 2%Z); (lit "b", 2%Z); (lit "c", 3%Z)] in
  exists y, rearrange numpy_like (One (iota [2; 6; 2])) p [(lit "b", 2%Z)] = Ok y /\
    reads ascii_unicode p L R /\ reads ascii_unicode p' R L /\ rank_fits L 3 1 /\
    fits len (left_groups 1 L) (right_groups 1 L R) [2; 6; 2] [(lit "b", 2%Z)] /\
    plain L /\ plain R /\ ~ grouped_dots R /\ gives_all R L len s' /\ no_reserved s' /\
    rearrange numpy_like (One y) p' s' = Ok (iota [2; 6; 2]).
Proof.
  cbv zeta. eexists. split; [vm_compute; reflexivity|].
  split; [solve_reads (lit "a (b c) ... ") (lit " c ... (a b)")|].
  split; [solve_reads (lit "c ... (a b) ") (lit " a (b c) ...")|].
  split; [reflexivity|].
  split; [solve_fits|]. split; [solve_plain|]. split; [solve_plain|]. split; [solve_not_grouped|].
  split; [solve_gives|]. split; [solve_no_reserved|]. vm_compute. reflexivity.
Qed.

(** ** C06 *)
Theorem C06_rearrange_compose : forall (A : Type) (r : runtime A) (x y z z' : tensor A) (p1 p2 p3 : pystr)
    (s1 s2 s3 : list (pystr * Z)) L M R e len,
  runtime_ok r -> NoDup (map fst s1) -> NoDup (map fst s2) -> NoDup (map fst s3) -> wf x ->
  rearrange r (One x) p1 s1 = Ok y -> rearrange r (One y) p2 s2 = Ok z -> rearrange r (One x) p3 s3 = Ok z' ->
  reads (rt_unicode r) p1 L M -> reads (rt_unicode r) p2 M R -> reads (rt_unicode r) p3 L R -> plain M ->
  rank_fits L (length (shp x)) e ->
  fits len (left_groups e L) (right_groups e L M) (shp x) s1 ->
  fits len (left_groups e M) (right_groups e M R) (shp y) s2 ->
  fits len (left_groups e L) (right_groups e L R) (shp x) s3 -> z' = z.
Proof. exact (fun A r x y z z' p1 p2 p3 s1 s2 s3 L M R e len Hok => rearrange_compose r Hok x y z z' p1 p2 p3 s1 s2 s3 L M R e len). Qed.
Print Assumptions C06_rearrange_compose.

(** if the direct call is told all lengths, it succeeds *)
Theorem C06_rearrange_compose_total : forall (A : Type) (r : runtime A) (x y z : tensor A) (p1 p2 p3 : pystr)
    (s1 s2 s3 : list (pystr * Z)) L M R e len,
  runtime_ok r -> NoDup (map fst s1) -> NoDup (map fst s2) -> wf x ->
  rearrange r (One x) p1 s1 = Ok y -> rearrange r (One y) p2 s2 = Ok z ->
  reads (rt_unicode r) p1 L M -> reads (rt_unicode r) p2 M R -> reads (rt_unicode r) p3 L R -> plain L -> plain M -> plain R ->
  rank_fits L (length (shp x)) e ->
  fits len (left_groups e L) (right_groups e L M) (shp x) s1 ->
  fits len (left_groups e M) (right_groups e M R) (shp y) s2 ->
  gives_all L R len s3 -> no_reserved s3 ->
  rearrange r (One x) p3 s3 = Ok z.
Proof. exact (fun A r x y z p1 p2 p3 s1 s2 s3 L M R e len Hok => rearrange_compose_total r Hok x y z p1 p2 p3 s1 s2 s3 L M R e len). Qed.
Print Assumptions C06_rearrange_compose_total.

Example C06_case :
  let L := [nm "a"; grp [lit "b"; lit "c"]] in let M := [grp [lit "c"; lit "a"]; nm "b"] in let R := [grp [lit "b"; lit "a"; lit "c"]] in
  let len := lens [(lit "a", 2); (lit "b", 2); (lit "c", 3)] in
  let s3 := [(lit "a", 2%Z); (lit "b", 2%Z); (lit "c", 3%Z)] in
  exists y z, rearrange numpy_like (One (iota [2; 6])) (lit "a (b c) -> (c a) b") [(lit "b", 2%Z)] = Ok y /\
    rearrange numpy_like (One y) (lit "(c a) b -> (b a c)") [(lit "c", 3%Z)] = Ok z /\
    reads ascii_unicode (lit "a (b c) -> (c a) b") L M /\ reads ascii_unicode (lit "(c a) b -> (b a c)") M R /\
    reads ascii_unicode (lit "a (b c) -> (b a c)") L R /\ plain L /\ plain M /\ plain R /\ rank_fits L 2 0 /\
    fits len (left_groups 0 L) (right_groups 0 L M) [2; 6] [(lit "b", 2%Z)] /\
    fits len (left_groups 0 M) (right_groups 0 M R) (shp y) [(lit "c", 3%Z)] /\
    gives_all L R len s3 /\ no_reserved s3 /\
    rearrange numpy_like (One (iota [2; 6])) (lit "a (b c) -> (b a c)") s3 = Ok z.
Proof.
  cbv zeta. eexists. eexists. split; [vm_compute; reflexivity|]. split; [vm_compute; reflexivity|].
  split; [solve_reads (lit "a (b c) ") (lit " (c a) b")|]. split; [solve_reads (lit "(c a) b ") (lit " (b a c)")|].
  split; [solve_reads (lit "a (b c) ") (lit " (b a c)")|].
  split; [solve_plain|]. split; [solve_plain|]. split; [solve_plain|]. split; [split; reflexivity|].
  split; [solve_fits|]. split; [solve_fits|]. split; [solve_gives|]. split; [solve_no_reserved|].
  vm_compute. reflexivity.
Qed.
