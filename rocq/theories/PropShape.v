(** * parse_shape followed by other calls: C47 *)
From Verif Require Import Py Tensor SpecSem SpecGrammar SpecPattern SpecForms SpecShape SpecOps Parsing Recipe Ops Backends Api Instances ApiFacts6 ApiFacts7 ShapeLaws.

(** the lengths reported by [parse_shape] are the lengths of the axes of any pattern
    with the same left side, where some items may have been written [_] *)
Theorem C47_lengths : forall (U : unicode) (l : pystr) (M L : expr) (e : nat) (len : label -> nat) (shape : list nat) (d : list (pystr * Z)),
  unicode_ok U -> written_as U true false l M -> masks M L -> plain L -> rank_fits L (length shape) e ->
  gshape len (left_groups e L) = shape -> parse_shape U (map Z.of_nat shape) l = Ok d ->
  forall s n, In (s, n) d -> In s (keys L) /\ Z.of_nat (len (LName s)) = n.
Proof. exact (fun U l M L e len shape d HU => parsed_lengths U HU l M L e len shape d). Qed.
Print Assumptions C47_lengths.

(** a rearranged tensor is brought back by the flipped pattern, given what
    [parse_shape] said about the original *)
Theorem C47_flip : forall (A : Type) (r : runtime A) (x y : tensor A) (p p' l : pystr) (s d : list (pystr * Z)) L R,
  runtime_ok r -> NoDup (map fst s) -> wf x -> rearrange r (One x) p s = Ok y ->
  reads (rt_unicode r) p L R -> reads (rt_unicode r) p' R L -> written (rt_unicode r) l L ->
  parse_shape (rt_unicode r) (map Z.of_nat (shp x)) l = Ok d ->
  plain L -> plain R -> ~ grouped_dots R -> no_reserved d ->
  rearrange r (One y) p' d = Ok x.
Proof. exact (fun A r x y p p' l s d L R Hok => parse_and_flip r Hok x y p p' l s d L R). Qed.
Print Assumptions C47_flip.

(** telling a call what was parsed does not change its result *)
Theorem C47_redundant : forall (A : Type) (r : runtime A) (x y : tensor A) (p l : pystr) (s d : list (pystr * Z)) L R,
  runtime_ok r -> NoDup (map fst s) -> wf x -> rearrange r (One x) p s = Ok y ->
  reads (rt_unicode r) p L R -> written (rt_unicode r) l L -> parse_shape (rt_unicode r) (map Z.of_nat (shp x)) l = Ok d ->
  plain L -> plain R -> no_reserved d -> rearrange r (One x) p d = Ok y.
Proof. exact (fun A r x y p l s d L R Hok => parse_and_call r Hok x y p l s d L R). Qed.
Print Assumptions C47_redundant.

(** a reduced tensor is copied back to the shape of the original *)
Theorem C47_repeat_back : forall (A : Type) (r : runtime A) (x y : tensor A) (p p' l op : pystr) (s d : list (pystr * Z)) L R,
  runtime_ok r -> NoDup (map fst s) -> wf x -> builtin op -> reduction_fits r op ->
  reduce r (One x) p (RStr op) s = Ok y ->
  reads (rt_unicode r) p L R -> reads (rt_unicode r) p' R L -> written (rt_unicode r) l L ->
  parse_shape (rt_unicode r) (map Z.of_nat (shp x)) l = Ok d ->
  plain L -> plain R -> has_dots L = has_dots R -> ~ grouped_dots R -> no_reserved d ->
  exists z, repeat_ r (One y) p' d = Ok z /\ shp z = shp x /\
    exists e len, rank_fits L (length (shp x)) e /\ fits len (left_groups e L) (right_groups e L R) (shp x) d /\
      moves (left_groups e R) (left_groups e L) len y z.
Proof.
  exact (fun A r x y p p' l op s d L R Hok Hn Hw Hb => parse_and_repeat r Hok x y p p' l op s d L R Hn Hw (proj1 (builtin_mem op) Hb)).
Qed.
Print Assumptions C47_repeat_back.

Example C47_case :
  let L := [nm "b"; dots3; nm "w"; nm "c"] in let R := [dots3; grp [lit "c"; lit "b"; lit "w"]] in let R' := [nm "c"; dots3] in
  let x := iota [2; 2; 3; 2] in let l := lit "b ... w c" in
  let d := [(lit "b", 2%Z); (lit "w", 3%Z); (lit "c", 2%Z)] in
  parse_shape ascii_unicode (map Z.of_nat (shp x)) l = Ok d /\
  parse_shape ascii_unicode (map Z.of_nat (shp x)) (lit "_ ... w c") = Ok [(lit "w", 3%Z); (lit "c", 2%Z)] /\
  masks [skip; dots3; nm "w"; nm "c"] L /\
  written ascii_unicode l L /\ no_reserved d /\ plain L /\ plain R /\ plain R' /\ ~ grouped_dots R /\ ~ grouped_dots R' /\
  reads ascii_unicode (lit "b ... w c -> ... (c b w)") L R /\ reads ascii_unicode (lit "... (c b w) -> b ... w c") R L /\
  reads ascii_unicode (lit "b ... w c -> c ...") L R' /\ reads ascii_unicode (lit "c ... -> b ... w c") R' L /\
  exists y, rearrange numpy_like (One x) (lit "b ... w c -> ... (c b w)") [] = Ok y /\
    rearrange numpy_like (One y) (lit "... (c b w) -> b ... w c") d = Ok x /\
  exists t z, reduce torch_like (One x) (lit "b ... w c -> c ...") (RStr (lit "max")) [] = Ok t /\
    repeat_ torch_like (One t) (lit "c ... -> b ... w c") d = Ok z /\ shp z = [2; 2; 3; 2].
Proof.
  cbv zeta. split; [vm_compute; reflexivity|]. split; [vm_compute; reflexivity|].
  split; [repeat constructor; discriminate|].
  split; [unfold written; solve_written|]. split; [solve_no_reserved|]. split; [solve_plain|]. split; [solve_plain|]. split; [solve_plain|].
  split; [solve_not_grouped|]. split; [solve_not_grouped|].
  split; [solve_reads (lit "b ... w c ") (lit " ... (c b w)")|]. split; [solve_reads (lit "... (c b w) ") (lit " b ... w c")|].
  split; [solve_reads (lit "b ... w c ") (lit " c ...")|]. split; [solve_reads (lit "c ... ") (lit " b ... w c")|].
  eexists. split; [vm_compute; reflexivity|]. split; [vm_compute; reflexivity|].
  eexists. eexists. split; [vm_compute; reflexivity|]. split; vm_compute; reflexivity.
Qed.
