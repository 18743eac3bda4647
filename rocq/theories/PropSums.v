(** * C98: a sum before or after einsum or EinMix can be written into its pattern *)
From Verif Require Import Py Tensor SpecSem SpecGrammar SpecEinsum SpecPattern SpecShape SpecOps SpecEinMix SpecAdjoint SpecLinear SpecMixFuse SpecDocumented SpecTurned
  Parsing Recipe Ops Backends Api Layers Einsum EinMix Instances EinsumFacts4 MixFacts8 MixFacts9 ParseFacts SumAfterFacts MixSumFacts PropEinsum PropEinMix PropDocumented PropMoved.

(** ** einsum *)
(** einsum with the result [K], then reduce [K -> R] with 'sum', is einsum with the result [R] *)
Theorem C98_einsum_after : forall (A : Type) (r : runtime A) (add mul : A -> A -> A) (zero one : A) (lib : pystr -> list (tensor A) -> result (tensor A))
    (p1 q p : pystr) (Ls : list (list entry)) (K R : expr) (xs : list (tensor A)) (len : lab pystr -> nat),
  runtime_ok r -> (forall a b, add a b = add b a) -> (forall a b c, add a (add b c) = add (add a b) c) -> einsum_contract add mul zero one lib ->
  (forall a, add zero a = a) -> (forall a b c, mul a (mul b c) = mul (mul a b) c) -> (forall a, mul one a = a) -> (forall a, mul a one = a) ->
  (forall a b c, mul a (add b c) = add (mul a b) (mul a c)) -> (forall a b c, mul (add a b) c = add (mul a c) (mul b c)) ->
  (forall a, mul zero a = zero) -> (forall a, mul a zero = zero) ->
  (forall vs, rt_red r (lit "sum") vs = Ok (fold_right add zero vs)) ->
  einsum_reads (rt_unicode r) p1 Ls (entries_of K) -> reads (rt_unicode r) q K R -> einsum_reads (rt_unicode r) p Ls (entries_of R) -> ungrouped K -> ungrouped R ->
  length (distinct (all_names Ls)) <= 52 -> good_call len (map to_term Ls) (to_term (entries_of K)) xs ->
  incl (keys R) (keys K) -> has_dots R = has_dots K -> length (keys K) <= 52 ->
  exists y z, einsum_with (rt_unicode r) lib (map inl xs ++ [inr p1]) = Ok y /\ reduce r (One y) q (RStr (lit "sum")) [] = Ok z /\
    einsum_with (rt_unicode r) lib (map inl xs ++ [inr p]) = Ok z.
Proof.
  exact (fun A r add mul zero one lib p1 q p Ls K R xs len Hok Hc Ha HC Hz Ma Ol Or Dl Dr Zl Zr Hs =>
    sum_after r Hok add mul zero one lib Hc Ha HC Hz Ma Ol Or Dl Dr Zl Zr Hs p1 q p Ls K R xs len).
Qed.
Print Assumptions C98_einsum_after.

(** an operand summed beforehand over axes that nothing else names *)
Theorem C98_einsum_before : forall (A : Type) (r : runtime A) (add mul : A -> A -> A) (zero one : A) (lib : pystr -> list (tensor A) -> result (tensor A))
    (p1 q p : pystr) (Lp Ls : list (list entry)) (L K : expr) (R : list entry) (us : list (tensor A)) (x : tensor A) (vs : list (tensor A)) (len : lab pystr -> nat),
  runtime_ok r -> (forall a b, add a b = add b a) -> (forall a b c, add a (add b c) = add (add a b) c) -> einsum_contract add mul zero one lib ->
  (forall a, add zero a = a) -> (forall a b c, mul a (mul b c) = mul (mul a b) c) -> (forall a, mul one a = a) -> (forall a, mul a one = a) ->
  (forall a b c, mul a (add b c) = add (mul a b) (mul a c)) -> (forall a b c, mul (add a b) c = add (mul a c) (mul b c)) ->
  (forall a, mul zero a = zero) -> (forall a, mul a zero = zero) ->
  (forall vs, rt_red r (lit "sum") vs = Ok (fold_right add zero vs)) ->
  reads (rt_unicode r) q L K -> einsum_reads (rt_unicode r) p1 (Lp ++ entries_of K :: Ls) R -> einsum_reads (rt_unicode r) p (Lp ++ entries_of L :: Ls) R ->
  ungrouped L -> ungrouped K ->
  length Lp = length us -> length (distinct (all_names (Lp ++ entries_of L :: Ls))) <= 52 -> length (keys L) <= 52 ->
  good_call len (map to_term (Lp ++ entries_of L :: Ls)) (to_term R) (us ++ x :: vs) ->
  incl (keys K) (keys L) -> has_dots K = has_dots L ->
  (forall a, In a (keys L) -> In a (all_names (Lp ++ Ls)) \/ In a (entry_names R) -> In a (keys K)) ->
  exists y z, reduce r (One x) q (RStr (lit "sum")) [] = Ok y /\ einsum_with (rt_unicode r) lib (map inl (us ++ y :: vs) ++ [inr p1]) = Ok z /\
    einsum_with (rt_unicode r) lib (map inl (us ++ x :: vs) ++ [inr p]) = Ok z.
Proof.
  exact (fun A r add mul zero one lib p1 q p Lp Ls L K R us x vs len Hok Hc Ha HC Hz Ma Ol Or Dl Dr Zl Zr Hs =>
    sum_before r Hok add mul zero one lib Hc Ha HC Hz Ma Ol Or Dl Dr Zl Zr Hs p1 q p Lp Ls L K R us x vs len).
Qed.
Print Assumptions C98_einsum_before.

(** ** EinMix, without a bias *)
Theorem C98_mix_after : forall (A : Type) (r : runtime A) (add mul : A -> A -> A) (zero one : A)
    (lib : pystr -> list (tensor A) -> result (tensor A)) (iadd : tensor A -> tensor A -> result (tensor A)) (os os' : nat -> orders)
    (p0 p1 p2 wt : pystr) (sizes0 sizes1 sizes2 : list (pystr * Z)) (L K R W : expr) (M1 M2 : einmix (tensor A)) (e : nat) (len : label -> nat) (x w : tensor A),
  runtime_ok r -> sums_and_products add mul zero -> (forall a, mul a one = a) -> einsum_contract add mul zero one lib -> iadd_contract add iadd ->
  (forall n, orders_ok (os n)) -> (forall n, orders_ok (os' n)) -> (forall vs, rt_red r (lit "sum") vs = Ok (fold_right add zero vs)) ->
  NoDup (map fst sizes0) -> no_reserved sizes0 -> call_ok (rt_unicode r) Reducing p0 sizes0 (gshape len (left_groups e K)) K R e len ->
  reads (rt_unicode r) p1 L K -> reads (rt_unicode r) p2 L R -> written (rt_unicode r) wt W -> plain L -> plain K -> plain R -> plain W ->
  NoDup (map fst sizes1) -> NoDup (map fst sizes2) ->
  EinMix (rt_unicode r) os os' p1 wt None sizes1 = Ok M1 -> EinMix (rt_unicode r) os os' p2 wt None sizes2 = Ok M2 -> wf x -> rank_fits L (length (shp x)) e ->
  fits len (left_groups e L) (right_groups e L K) (shp x) sizes1 -> fits len (left_groups e L) (right_groups e L R) (shp x) sizes2 ->
  no_division sizes1 len (left_groups e L) -> no_division sizes2 len (left_groups e L) -> e < 8 ->
  wf w -> map Z.of_nat (shp w) = em_weight M1 ->
  em_weight M2 = em_weight M1 /\
  exists y z, call_einmix r lib iadd M1 w None x = Ok y /\ reduce r (One y) p0 (RStr (lit "sum")) sizes0 = Ok z /\ call_einmix r lib iadd M2 w None x = Ok z.
Proof.
  exact (fun A r add mul zero one lib iadd os os' p0 p1 p2 wt s0 s1 s2 L K R W M1 M2 e len x w Hok Hsp H1 HC HI Ho Ho' Hs =>
    sum_after_mix add mul zero one Hsp H1 lib HC iadd HI r Hok os os' Ho Ho' Hs p0 p1 p2 wt s0 s1 s2 L K R W M1 M2 e len x w).
Qed.
Print Assumptions C98_mix_after.

Theorem C98_mix_before : forall (A : Type) (r : runtime A) (add mul : A -> A -> A) (zero one : A)
    (lib : pystr -> list (tensor A) -> result (tensor A)) (iadd : tensor A -> tensor A -> result (tensor A)) (os os' : nat -> orders)
    (p0 p1 p2 wt : pystr) (sizes0 sizes1 sizes2 : list (pystr * Z)) (L K R W : expr) (M1 M2 : einmix (tensor A)) (e : nat) (len : label -> nat) (x w : tensor A),
  runtime_ok r -> sums_and_products add mul zero -> (forall a, mul a one = a) -> einsum_contract add mul zero one lib -> iadd_contract add iadd ->
  (forall n, orders_ok (os n)) -> (forall n, orders_ok (os' n)) -> (forall vs, rt_red r (lit "sum") vs = Ok (fold_right add zero vs)) ->
  (forall a b c, mul (add a b) c = add (mul a c) (mul b c)) -> (forall a, mul zero a = zero) ->
  NoDup (map fst sizes0) -> no_reserved sizes0 -> call_ok (rt_unicode r) Reducing p0 sizes0 (shp x) L K e len ->
  (forall s, In s (keys L) -> In s (keys R) -> In s (keys K)) ->
  reads (rt_unicode r) p1 K R -> reads (rt_unicode r) p2 L R -> written (rt_unicode r) wt W -> plain L -> plain K -> plain R -> plain W ->
  NoDup (map fst sizes1) -> NoDup (map fst sizes2) ->
  EinMix (rt_unicode r) os os' p1 wt None sizes1 = Ok M1 -> EinMix (rt_unicode r) os os' p2 wt None sizes2 = Ok M2 -> wf x ->
  fits len (left_groups e K) (right_groups e K R) (gshape len (left_groups e K)) sizes1 -> fits len (left_groups e L) (right_groups e L R) (shp x) sizes2 ->
  no_division sizes1 len (left_groups e K) -> no_division sizes2 len (left_groups e L) -> e < 8 ->
  wf w -> map Z.of_nat (shp w) = em_weight M1 ->
  em_weight M2 = em_weight M1 /\
  exists s y, reduce r (One x) p0 (RStr (lit "sum")) sizes0 = Ok s /\ call_einmix r lib iadd M1 w None s = Ok y /\ call_einmix r lib iadd M2 w None x = Ok y.
Proof.
  exact (fun A r add mul zero one lib iadd os os' p0 p1 p2 wt s0 s1 s2 L K R W M1 M2 e len x w Hok Hsp H1 HC HI Ho Ho' Hs Dr Zl =>
    sum_before_mix add mul zero one Hsp H1 lib HC iadd HI r Hok os os' Ho Ho' Hs Dr Zl p0 p1 p2 wt s0 s1 s2 L K R W M1 M2 e len x w).
Qed.
Print Assumptions C98_mix_before.

(** ** cases *)
Ltac solve_ungrouped := let i := fresh in let H := fresh in intros i H; each H; subst i; first [left; reflexivity | right; eexists; (split; [reflexivity|discriminate])].
(** [C98_case_einsum]: both sides of the theorems for one pair of matrices *)
Example C98_case_einsum :
  let K := [nm "i"; nm "k"] in let R := [nm "k"] in let Ls := [[EName (lit "i"); EName (lit "j")]; [EName (lit "j"); EName (lit "k")]] in
  let p1 := lit "i j, j k -> i k" in let q := lit "i k -> k" in let p := lit "i j, j k -> k" in
  einsum_reads ascii_unicode p1 Ls (entries_of K) /\ reads ascii_unicode q K R /\ einsum_reads ascii_unicode p Ls (entries_of R) /\ ungrouped K /\ ungrouped R /\
  good_call (fun l => match l with SpecEinsum.LName s => turned_len s | _ => 1 end) (map to_term Ls) (to_term (entries_of K)) [iota [2; 3]; iota [3; 2]] /\
  incl (keys R) (keys K) /\ has_dots R = has_dots K /\
  (let* y := einsum_with ascii_unicode (ref_einsum Z.add Z.mul 0%Z 1%Z) [inl (iota [2; 3]); inl (iota [3; 2]); inr p1] in reduce numpy_like (One y) q (RStr (lit "sum")) []) = Ok (mkT [2] [38; 53]%Z) /\
  einsum_with ascii_unicode (ref_einsum Z.add Z.mul 0%Z 1%Z) [inl (iota [2; 3]); inl (iota [3; 2]); inr p] = Ok (mkT [2] [38; 53]%Z) /\
  (* the same for a sum of the first matrix beforehand *)
  reads ascii_unicode (lit "i j -> j") [nm "i"; nm "j"] [nm "j"] /\ einsum_reads ascii_unicode (lit "j, j k -> k") [entries_of [nm "j"]; [EName (lit "j"); EName (lit "k")]] (entries_of R) /\
  (let* y := reduce numpy_like (One (iota [2; 3])) (lit "i j -> j") (RStr (lit "sum")) [] in einsum_with ascii_unicode (ref_einsum Z.add Z.mul 0%Z 1%Z) [inl y; inl (iota [3; 2]); inr (lit "j, j k -> k")]) = Ok (mkT [2] [38; 53]%Z).
Proof.
  cbn zeta.
  split.
  { solve_einsum [lit "i j"; lit " j k "] (lit " i k"). split; [|solve_lists [nm "i"; nm "k"]].
    apply Forall2_cons; [solve_lists [nm "i"; nm "j"]|]. apply Forall2_cons; [solve_lists [nm "j"; nm "k"]|apply Forall2_nil]. }
  split; [solve_reads (lit "i k ") (lit " k")|]. split.
  { solve_einsum [lit "i j"; lit " j k "] (lit " k"). split; [|solve_lists [nm "k"]].
    apply Forall2_cons; [solve_lists [nm "i"; nm "j"]|]. apply Forall2_cons; [solve_lists [nm "j"; nm "k"]|apply Forall2_nil]. }
  split; [solve_ungrouped|]. split; [solve_ungrouped|]. split.
  { split; [repeat (constructor; [split; [reflexivity|split; [cbn; lia|cbn; repeat constructor]]|]); constructor|]. split; [cbn; solve_NoDup|]. split; [solve_incl|]. split; [cbn; lia|]. split.
    - intros H. cbn in H. intuition discriminate.
    - intros k H. cbn in H. lia. }
  split; [solve_incl|]. split; [reflexivity|]. split; [vm_compute; reflexivity|]. split; [vm_compute; reflexivity|].
  split; [solve_reads (lit "i j ") (lit " j")|]. split; [|vm_compute; reflexivity].
  solve_einsum [lit "j"; lit " j k "] (lit " k"). split; [|solve_lists [nm "k"]].
  apply Forall2_cons; [solve_lists [nm "j"]|]. apply Forall2_cons; [solve_lists [nm "j"; nm "k"]|apply Forall2_nil].
Qed.

Example C98_case_after :
  let L := [nm "b"; nm "d"] in let K := [nm "b"; grp [lit "o"; lit "h"]] in let R := [nm "h"; nm "o"] in let W := [nm "d"; nm "o"; nm "h"] in
  let p0 := lit "b (o h) -> h o" in let p1 := lit "b d -> b (o h)" in let p2 := lit "b d -> h o" in
  let sizes0 := [(lit "o", 2%Z)] in let sizes := [(lit "d", 3%Z); (lit "o", 2%Z); (lit "h", 2%Z)] in
  no_reserved sizes0 /\ call_ok ascii_unicode Reducing p0 sizes0 [2; 4] K R 0 moved_len /\ gshape moved_len (left_groups 0 K) = [2; 4] /\
  reads ascii_unicode p1 L K /\ reads ascii_unicode p2 L R /\ written ascii_unicode (lit "d o h") W /\ plain L /\ plain K /\ plain R /\ plain W /\ rank_fits L 2 0 /\
  fits moved_len (left_groups 0 L) (right_groups 0 L K) [2; 3] sizes /\ fits moved_len (left_groups 0 L) (right_groups 0 L R) [2; 3] sizes /\
  no_division sizes moved_len (left_groups 0 L) /\
  exists M1, EinMix ascii_unicode (fun _ => forward) (fun _ => backward) p1 (lit "d o h") None sizes = Ok M1 /\
  exists M2, EinMix ascii_unicode (fun _ => forward) (fun _ => backward) p2 (lit "d o h") None sizes = Ok M2 /\
    em_weight M1 = [3; 2; 2]%Z /\ em_weight M2 = [3; 2; 2]%Z /\
    (let* y := call_einmix numpy_like (ref_einsum Z.add Z.mul 0%Z 1%Z) (ref_iadd Z.add 0%Z) M1 (iota [3; 2; 2]) None (iota [2; 3]) in
     reduce numpy_like (One y) p0 (RStr (lit "sum")) sizes0) = Ok (mkT [2; 2] [76; 106; 91; 121]%Z) /\
    call_einmix numpy_like (ref_einsum Z.add Z.mul 0%Z 1%Z) (ref_iadd Z.add 0%Z) M2 (iota [3; 2; 2]) None (iota [2; 3]) = Ok (mkT [2; 2] [76; 106; 91; 121]%Z).
Proof.
  cbn zeta. split; [solve_no_reserved|]. split; [solve_call (lit "b (o h) ") (lit " h o")|]. split; [reflexivity|].
  split; [solve_reads (lit "b d ") (lit " b (o h)")|]. split; [solve_reads (lit "b d ") (lit " h o")|]. split; [unfold written; solve_written|].
  split; [solve_plain|]. split; [solve_plain|]. split; [solve_plain|]. split; [solve_plain|]. split; [split; reflexivity|]. split; [solve_fits|]. split; [solve_fits|].
  split; [intros g H; each H; subst g; vm_compute; lia|].
  solve_layer (lit "b d -> b (o h)") (lit "d o h") (@None pystr) [(lit "d", 3%Z); (lit "o", 2%Z); (lit "h", 2%Z)].
  solve_layer (lit "b d -> h o") (lit "d o h") (@None pystr) [(lit "d", 3%Z); (lit "o", 2%Z); (lit "h", 2%Z)].
  split; [reflexivity|]. split; [reflexivity|]. split; vm_compute; reflexivity.
Qed.

(** the mean-pooling idiom without its division: sum over the positions, then a linear layer *)
Example C98_case_before :
  let L := [nm "b"; nm "t"; nm "d"] in let K := [nm "b"; nm "d"] in let R := [nm "b"; nm "o"] in let W := [nm "d"; nm "o"] in
  let p0 := lit "b t d -> b d" in let p1 := lit "b d -> b o" in let p2 := lit "b t d -> b o" in let sizes := [(lit "d", 3%Z); (lit "o", 2%Z)] in
  call_ok ascii_unicode Reducing p0 [] [2; 2; 3] L K 0 moved_len /\ (forall s, In s (keys L) -> In s (keys R) -> In s (keys K)) /\
  reads ascii_unicode p1 K R /\ reads ascii_unicode p2 L R /\ written ascii_unicode (lit "d o") W /\ plain L /\ plain K /\ plain R /\ plain W /\
  fits moved_len (left_groups 0 K) (right_groups 0 K R) (gshape moved_len (left_groups 0 K)) sizes /\ fits moved_len (left_groups 0 L) (right_groups 0 L R) [2; 2; 3] sizes /\
  no_division sizes moved_len (left_groups 0 K) /\ no_division sizes moved_len (left_groups 0 L) /\
  exists M1, EinMix ascii_unicode (fun _ => forward) (fun _ => backward) p1 (lit "d o") None sizes = Ok M1 /\
  exists M2, EinMix ascii_unicode (fun _ => forward) (fun _ => backward) p2 (lit "d o") None sizes = Ok M2 /\
    em_weight M1 = [3; 2]%Z /\ em_weight M2 = [3; 2]%Z /\
    (let* s := reduce numpy_like (One (iota [2; 2; 3])) p0 (RStr (lit "sum")) [] in
     call_einmix numpy_like (ref_einsum Z.add Z.mul 0%Z 1%Z) (ref_iadd Z.add 0%Z) M1 (iota [3; 2]) None s) = Ok (mkT [2; 2] [38; 53; 110; 161]%Z) /\
    call_einmix numpy_like (ref_einsum Z.add Z.mul 0%Z 1%Z) (ref_iadd Z.add 0%Z) M2 (iota [3; 2]) None (iota [2; 2; 3]) = Ok (mkT [2; 2] [38; 53; 110; 161]%Z).
Proof.
  cbn zeta. split; [solve_call (lit "b t d ") (lit " b d")|].
  split; [intros s H1 H2; each H1; subst s; first [cbv; solve_member | each H2; discriminate]|].
  split; [solve_reads (lit "b d ") (lit " b o")|]. split; [solve_reads (lit "b t d ") (lit " b o")|]. split; [unfold written; solve_written|].
  split; [solve_plain|]. split; [solve_plain|]. split; [solve_plain|]. split; [solve_plain|]. split; [solve_fits|]. split; [solve_fits|].
  split; [intros g H; each H; subst g; vm_compute; lia|]. split; [intros g H; each H; subst g; vm_compute; lia|].
  solve_layer (lit "b d -> b o") (lit "d o") (@None pystr) [(lit "d", 3%Z); (lit "o", 2%Z)].
  solve_layer (lit "b t d -> b o") (lit "d o") (@None pystr) [(lit "d", 3%Z); (lit "o", 2%Z)].
  split; [reflexivity|]. split; [reflexivity|]. split; vm_compute; reflexivity.
Qed.
