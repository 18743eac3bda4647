(** * C76: einsum and EinMix on other types of elements *)
From Verif Require Import Py Tensor SpecSem SpecGrammar SpecForms SpecPattern SpecOps SpecShape SpecElements SpecEinMix SpecLinear
  Parsing Recipe Ops Backends Einsum Api Layers EinMix EinsumFacts4 MixFacts8 MixFacts9 ElementFacts EinsumAlike Instances PropEinsum PropEinMix PropContraction SpecEinsum.

(** einsum: a relation between the elements that additions and multiplications preserve
    passes from the operands to the result *)
Theorem C76_einsum : forall (A B : Type) (R : A -> B -> Prop) (U : unicode)
    (add mul : A -> A -> A) (zero one : A) (add' mul' : B -> B -> B) (zero' one' : B)
    (lib : pystr -> list (tensor A) -> result (tensor A)) (lib' : pystr -> list (tensor B) -> result (tensor B))
    (p : pystr) (Ls : list (list entry)) (S : list entry) (len : lab pystr -> nat) (xs : list (tensor A)) (xs' : list (tensor B)),
  unicode_ok U ->
  (forall a a' b b', R a a' -> R b b' -> R (add a b) (add' a' b')) ->
  (forall a a' b b', R a a' -> R b b' -> R (mul a b) (mul' a' b')) -> R zero zero' -> R one one' ->
  (forall a b, add a b = add b a) -> (forall a b c, add a (add b c) = add (add a b) c) ->
  (forall a b, add' a b = add' b a) -> (forall a b c, add' a (add' b c) = add' (add' a b) c) ->
  einsum_contract add mul zero one lib -> einsum_contract add' mul' zero' one' lib' ->
  einsum_reads U p Ls S -> length (distinct (all_names Ls)) <= 52 ->
  good_call len (map to_term Ls) (to_term S) xs -> Forall2 (SpecElements.alike R) xs xs' ->
  exists y y', einsum_with U lib (map inl xs ++ [inr p]) = Ok y /\ einsum_with U lib' (map inl xs' ++ [inr p]) = Ok y' /\ SpecElements.alike R y y'.
Proof.
  exact (fun A B R U add mul zero one add' mul' zero' one' lib lib' p Ls S len xs xs' HU Ha Hm Hz Ho c1 a1 c2 a2 HL HL' =>
    einsum_alike R add mul zero one add' mul' zero' one' Ha Hm Hz Ho U HU c1 a1 c2 a2 lib HL lib' HL' p Ls S len xs xs').
Qed.
Print Assumptions C76_einsum.

(** einsum: a function that respects sums and products may be applied before or after *)
Theorem C76_einsum_map : forall (A B : Type) (h : A -> B) (U : unicode)
    (add mul : A -> A -> A) (zero one : A) (add' mul' : B -> B -> B) (zero' one' : B)
    (lib : pystr -> list (tensor A) -> result (tensor A)) (lib' : pystr -> list (tensor B) -> result (tensor B))
    (p : pystr) (Ls : list (list entry)) (S : list entry) (len : lab pystr -> nat) (xs : list (tensor A)),
  unicode_ok U ->
  (forall a b, h (add a b) = add' (h a) (h b)) -> (forall a b, h (mul a b) = mul' (h a) (h b)) -> h zero = zero' -> h one = one' ->
  (forall a b, add a b = add b a) -> (forall a b c, add a (add b c) = add (add a b) c) ->
  (forall a b, add' a b = add' b a) -> (forall a b c, add' a (add' b c) = add' (add' a b) c) ->
  einsum_contract add mul zero one lib -> einsum_contract add' mul' zero' one' lib' ->
  einsum_reads U p Ls S -> length (distinct (all_names Ls)) <= 52 -> good_call len (map to_term Ls) (to_term S) xs ->
  exists y, einsum_with U lib (map inl xs ++ [inr p]) = Ok y /\ einsum_with U lib' (map inl (map (t_map h) xs) ++ [inr p]) = Ok (t_map h y).
Proof.
  exact (fun A B h U add mul zero one add' mul' zero' one' lib lib' p Ls S len xs HU Ha Hm Hz Ho c1 a1 c2 a2 HL HL' =>
    einsum_map h add mul zero one add' mul' zero' one' Ha Hm Hz c1 a1 c2 a2 lib HL lib' HL' U p Ls S len xs HU Ho).
Qed.
Print Assumptions C76_einsum_map.

(** EinMix: two layers made from the same texts and lengths, on two types of elements *)
Theorem C76_einmix : forall (A B : Type) (R : A -> B -> Prop)
    (add mul : A -> A -> A) (zero one : A) (add' mul' : B -> B -> B) (zero' one' : B)
    (lib : pystr -> list (tensor A) -> result (tensor A)) (lib' : pystr -> list (tensor B) -> result (tensor B))
    (iadd : tensor A -> tensor A -> result (tensor A)) (iadd' : tensor B -> tensor B -> result (tensor B))
    (r : runtime A) (r' : runtime B) (os os' : nat -> orders)
    (p wt : pystr) (bt : option pystr) (sizes : list (pystr * Z)) (L S W : expr)
    (M : einmix (tensor A)) (M' : einmix (tensor B)) (e : nat) (len : label -> nat)
    (x w : tensor A) (c : option (tensor A)) (x' w' : tensor B) (c' : option (tensor B)),
  (forall a a' b b', R a a' -> R b b' -> R (add a b) (add' a' b')) ->
  (forall a a' b b', R a a' -> R b b' -> R (mul a b) (mul' a' b')) -> R zero zero' ->
  (forall a b, add a b = add b a) -> (forall a b c, add a (add b c) = add (add a b) c) -> (forall a, mul a one = a) ->
  (forall a b, add' a b = add' b a) -> (forall a b c, add' a (add' b c) = add' (add' a b) c) -> (forall a, mul' a one' = a) ->
  einsum_contract add mul zero one lib -> einsum_contract add' mul' zero' one' lib' -> iadd_contract add iadd -> iadd_contract add' iadd' ->
  runtime_ok r -> runtime_ok r' -> rt_unicode r = rt_unicode r' -> (forall n, orders_ok (os n)) -> (forall n, orders_ok (os' n)) ->
  reads (rt_unicode r) p L S -> written (rt_unicode r) wt W -> plain L -> plain S -> plain W -> NoDup (map fst sizes) ->
  EinMix (rt_unicode r) os os' p wt bt sizes = Ok M -> EinMix (rt_unicode r) os os' p wt bt sizes = Ok M' ->
  wf x -> rank_fits L (length (shp x)) e -> fits len (left_groups e L) (right_groups e L S) (shp x) sizes ->
  (forall g, In g (left_groups e L) -> filter (unknown (map fst sizes)) g <> [] -> prodn (map len (filter (fun a => negb (unknown (map fst sizes) a)) g)) <> 0) ->
  (em_pre M <> None \/ em_post M <> None -> e < 8) -> (em_pre M' <> None \/ em_post M' <> None -> e < 8) ->
  wf w -> map Z.of_nat (shp w) = em_weight M -> bias_of (em_bias M) c ->
  SpecElements.alike R x x' -> SpecElements.alike R w w' ->
  match c, c' with None, None => True | Some b, Some b' => SpecElements.alike R b b' | _, _ => False end ->
  exists y y', call_einmix r lib iadd M w c x = Ok y /\ call_einmix r' lib' iadd' M' w' c' x' = Ok y' /\ SpecElements.alike R y y'.
Proof.
  exact (fun A B R add mul zero one add' mul' zero' one' lib lib' iadd iadd' r r' os os' p wt bt sizes L S W M M' e len x w c x' w' c'
    Ha Hm Hz c1 a1 m1 c2 a2 m2 HC HC' HI HI' Hr Hr' EU Hos Hos' Hp WW PL PR PW Hns HM HM' =>
    einmix_alike R add mul zero one add' mul' zero' one' Ha Hm Hz c1 a1 m1 c2 a2 m2 lib HC lib' HC' iadd HI iadd' HI' r Hr r' Hr' EU os os' Hos Hos'
      p wt bt sizes L S W Hp WW PL PR PW Hns M HM M' HM' e len x x' w w' c c').
Qed.
Print Assumptions C76_einmix.

Theorem C76_einmix_map : forall (A B : Type) (h : A -> B)
    (add mul : A -> A -> A) (zero one : A) (add' mul' : B -> B -> B) (zero' one' : B)
    (lib : pystr -> list (tensor A) -> result (tensor A)) (lib' : pystr -> list (tensor B) -> result (tensor B))
    (iadd : tensor A -> tensor A -> result (tensor A)) (iadd' : tensor B -> tensor B -> result (tensor B))
    (r : runtime A) (r' : runtime B) (os os' : nat -> orders)
    (p wt : pystr) (bt : option pystr) (sizes : list (pystr * Z)) (L S W : expr)
    (M : einmix (tensor A)) (M' : einmix (tensor B)) (e : nat) (len : label -> nat) (x w : tensor A) (c : option (tensor A)),
  (forall a b, h (add a b) = add' (h a) (h b)) -> (forall a b, h (mul a b) = mul' (h a) (h b)) -> h zero = zero' ->
  (forall a b, add a b = add b a) -> (forall a b c, add a (add b c) = add (add a b) c) -> (forall a, mul a one = a) ->
  (forall a b, add' a b = add' b a) -> (forall a b c, add' a (add' b c) = add' (add' a b) c) -> (forall a, mul' a one' = a) ->
  einsum_contract add mul zero one lib -> einsum_contract add' mul' zero' one' lib' -> iadd_contract add iadd -> iadd_contract add' iadd' ->
  runtime_ok r -> runtime_ok r' -> rt_unicode r = rt_unicode r' -> (forall n, orders_ok (os n)) -> (forall n, orders_ok (os' n)) ->
  reads (rt_unicode r) p L S -> written (rt_unicode r) wt W -> plain L -> plain S -> plain W -> NoDup (map fst sizes) ->
  EinMix (rt_unicode r) os os' p wt bt sizes = Ok M -> EinMix (rt_unicode r) os os' p wt bt sizes = Ok M' ->
  wf x -> rank_fits L (length (shp x)) e -> fits len (left_groups e L) (right_groups e L S) (shp x) sizes ->
  (forall g, In g (left_groups e L) -> filter (unknown (map fst sizes)) g <> [] -> prodn (map len (filter (fun a => negb (unknown (map fst sizes) a)) g)) <> 0) ->
  (em_pre M <> None \/ em_post M <> None -> e < 8) -> (em_pre M' <> None \/ em_post M' <> None -> e < 8) ->
  wf w -> map Z.of_nat (shp w) = em_weight M -> bias_of (em_bias M) c ->
  exists y, call_einmix r lib iadd M w c x = Ok y /\
    call_einmix r' lib' iadd' M' (t_map h w) (option_map (t_map h) c) (t_map h x) = Ok (t_map h y).
Proof.
  exact (fun A B h add mul zero one add' mul' zero' one' lib lib' iadd iadd' r r' os os' p wt bt sizes L S W M M' e len x w c
    Ha Hm Hz c1 a1 m1 c2 a2 m2 HC HC' HI HI' =>
    einmix_map h add mul zero one add' mul' zero' one' Ha Hm Hz c1 a1 c2 a2 lib HC lib' HC' m1 m2 iadd HI iadd' HI' r r' os os' p wt bt sizes L S W M M' e len x w c).
Qed.
Print Assumptions C76_einmix_map.

(** a matrix times a vector, exactly and with integers of eight bits *)
Example C76_einsum_case :
  let h := fun z => (z mod 256)%Z in let add' := fun a b => h (a + b)%Z in let mul' := fun a b => h (a * b)%Z in
  let Ls := [[EName (lit "i"); EName (lit "j")]; [EName (lit "j")]] in
  let X := mkT [2; 2] [100; 3; 7; -20]%Z in let v := mkT [2] [5; 40]%Z in
  (forall a b, h (a + b)%Z = add' (h a) (h b)) /\ (forall a b, h (a * b)%Z = mul' (h a) (h b)) /\
  (forall a b, add' a b = add' b a) /\ (forall a b c, add' a (add' b c) = add' (add' a b) c) /\
  einsum_reads ascii_unicode (lit "i j, j -> i") Ls [EName (lit "i")] /\
  good_call (fun _ => 2) (map to_term Ls) (to_term [EName (lit "i")]) [X; v] /\
  einsum_with ascii_unicode (ref_einsum Z.add Z.mul 0%Z 1%Z) [inl X; inl v; inr (lit "i j, j -> i")] = Ok (mkT [2] [620; -765]%Z) /\
  t_map h X = mkT [2; 2] [100; 3; 7; 236]%Z /\
  einsum_with ascii_unicode (ref_einsum add' mul' 0%Z 1%Z) [inl (t_map h X); inl (t_map h v); inr (lit "i j, j -> i")] = Ok (mkT [2] [108; 3]%Z).
Proof.
  cbv zeta. split; [|split; [|split; [|split; [|split; [|split]]]]].
  - intros. now rewrite <- Z.add_mod.
  - intros. now rewrite <- Z.mul_mod.
  - intros. now rewrite Z.add_comm.
  - intros. rewrite Z.add_mod_idemp_l, Z.add_mod_idemp_r by discriminate. now rewrite Z.add_assoc.
  - exists [lit "i j"; lit " j "], (lit " i"). split; [reflexivity|]. split; [discriminate|]. split; [constructor; [|constructor; [|constructor]]|].
    + solve_lists [nm "i"; nm "j"].
    + solve_lists [nm "j"].
    + solve_lists [nm "i"].
  - split; [|split; [|split; [|split; [|split]]]].
    + constructor; [|constructor; [|constructor]]; (split; [reflexivity|split; [cbn; lia|repeat constructor]]).
    + cbn. solve_NoDup.
    + cbn. intros s H. unfold all_names, entry_names in *. cbn in *. tauto.
    + cbn. lia.
    + cbn. intros H. intuition discriminate.
    + cbn. intros k H. lia.
  - split; [vm_compute; reflexivity|]. split; vm_compute; reflexivity.
Qed.
(** larger nonnegative operands have larger results; a relation that is no function *)
Example C76_einsum_larger :
  let R := fun a b => (0 <= a <= b)%Z in
  (forall a a' b b', R a a' -> R b b' -> R (a + b)%Z (a' + b')%Z) /\ (forall a a' b b', R a a' -> R b b' -> R (a * b)%Z (a' * b')%Z) /\
  R 0%Z 0%Z /\ R 1%Z 1%Z /\
  Forall2 (SpecElements.alike R) [mkT [2; 2] [1; 0; 3; 4]%Z; mkT [2] [5; 2]%Z] [mkT [2; 2] [1; 2; 3; 9]%Z; mkT [2] [6; 2]%Z] /\
  einsum_with ascii_unicode (ref_einsum Z.add Z.mul 0%Z 1%Z) [inl (mkT [2; 2] [1; 0; 3; 4]%Z); inl (mkT [2] [5; 2]%Z); inr (lit "i j, j -> i")] = Ok (mkT [2] [5; 23]%Z) /\
  einsum_with ascii_unicode (ref_einsum Z.add Z.mul 0%Z 1%Z) [inl (mkT [2; 2] [1; 2; 3; 9]%Z); inl (mkT [2] [6; 2]%Z); inr (lit "i j, j -> i")] = Ok (mkT [2] [10; 36]%Z) /\
  SpecElements.alike R (mkT [2] [5; 23]%Z) (mkT [2] [10; 36]%Z).
Proof.
  cbv zeta. split; [intros; lia|]. split; [intros; nia|]. split; [lia|]. split; [lia|].
  split; [repeat constructor; cbn; lia|]. split; [vm_compute; reflexivity|]. split; [vm_compute; reflexivity|]. split; [reflexivity|repeat constructor; lia].
Qed.

(** integers and their parities *)
Example C76_einmix_case :
  let L := [dots3; grp [lit "h"; lit "c"]] in let R := [dots3; grp [lit "d"; lit "h"]] in
  let sizes := [(lit "c", 3%Z); (lit "d", 2%Z); (lit "h", 2%Z)] in
  let h := Z.odd in let x := iota [2; 6] in let w := iota [2; 3; 2] in let c := Some (iota [2; 1]) in
  let r' := mkR bool ascii_unicode forward Numpy true (fun _ _ => Err BackendError) (fun _ => false) (fun n => Nat.odd n) in
  (forall a b, h (a + b)%Z = xorb (h a) (h b)) /\ (forall a b, h (a * b)%Z = andb (h a) (h b)) /\
  reads ascii_unicode (lit "... (h c) -> ... (d h)") L R /\ rank_fits L 2 1 /\ fits mix_len (left_groups 1 L) (right_groups 1 L R) (shp x) sizes /\
  exists (M : einmix (tensor Z)) (M' : einmix (tensor bool)),
    EinMix ascii_unicode (fun _ => forward) (fun _ => backward) (lit "... (h c) -> ... (d h)") (lit "h c d") (Some (lit "d")) sizes = Ok M /\
    EinMix ascii_unicode (fun _ => forward) (fun _ => backward) (lit "... (h c) -> ... (d h)") (lit "h c d") (Some (lit "d")) sizes = Ok M' /\
    em_weight M = [2; 3; 2]%Z /\ bias_of (em_bias M) c /\
    call_einmix numpy_like (ref_einsum Z.add Z.mul 0%Z 1%Z) (ref_iadd Z.add 0%Z) M w c x = Ok (mkT [2; 4] [10; 100; 14; 113; 46; 244; 68; 275]%Z) /\
    call_einmix r' (ref_einsum xorb andb false true) (ref_iadd xorb false) M' (t_map h w) (option_map (t_map h) c) (t_map h x) =
      Ok (mkT [2; 4] [false; false; false; true; false; false; false; true]).
Proof.
  cbv zeta. split; [exact Z.odd_add|]. split; [exact Z.odd_mul|]. split; [solve_reads (lit "... (h c) ") (lit " ... (d h)")|].
  split; [vm_compute; reflexivity|]. split; [solve_fits|].
  eexists. eexists. split; [vm_compute; reflexivity|]. split; [vm_compute; reflexivity|]. split; [reflexivity|].
  split; [exists (iota [2; 1]); repeat split|]. split; vm_compute; reflexivity.
Qed.
