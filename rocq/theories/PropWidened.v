(** * C100: a repeat before einsum or EinMix can be left out *)
From Verif Require Import Py Tensor SpecSem SpecGrammar SpecEinsum SpecPattern SpecShape SpecOps SpecEinMix SpecAdjoint SpecLinear SpecMixFuse SpecDocumented SpecTurned SpecWidened
  Parsing Recipe Ops Backends Api Layers Einsum EinMix Instances EinsumFacts4 MixFacts8 MixFacts9 ParseFacts RepeatDropFacts WidenedFacts PropEinsum PropEinMix PropDocumented PropMoved.

(** a repeat of the input [L -> K], then the layer [K -> R], is the layer [L -> R] with the
    same weight and bias, if the new axes stay in the output *)
Theorem C100_einmix : forall (A : Type) (r : runtime A) (add mul : A -> A -> A) (zero one : A)
    (lib : pystr -> list (tensor A) -> result (tensor A)) (iadd : tensor A -> tensor A -> result (tensor A)) (os os' : nat -> orders)
    (p0 p1 p2 wt : pystr) (bt : option pystr) (sizes0 sizes1 sizes2 : list (pystr * Z)) (L K R W : expr) (M1 M2 : einmix (tensor A))
    (e : nat) (len : label -> nat) (x w : tensor A) (b : option (tensor A)),
  runtime_ok r -> sums_and_products add mul zero -> (forall a, mul a one = a) -> einsum_contract add mul zero one lib -> iadd_contract add iadd ->
  (forall n, orders_ok (os n)) -> (forall n, orders_ok (os' n)) ->
  NoDup (map fst sizes0) -> no_reserved sizes0 -> call_ok (rt_unicode r) Repeating p0 sizes0 (shp x) L K e len ->
  reads (rt_unicode r) p1 K R -> reads (rt_unicode r) p2 L R -> written (rt_unicode r) wt W -> plain L -> plain K -> plain R -> plain W ->
  NoDup (map fst sizes1) -> NoDup (map fst sizes2) ->
  EinMix (rt_unicode r) os os' p1 wt bt sizes1 = Ok M1 -> EinMix (rt_unicode r) os os' p2 wt bt sizes2 = Ok M2 -> wf x ->
  fits len (left_groups e K) (right_groups e K R) (gshape len (left_groups e K)) sizes1 -> fits len (left_groups e L) (right_groups e L R) (shp x) sizes2 ->
  no_division sizes1 len (left_groups e K) -> no_division sizes2 len (left_groups e L) -> e < 8 ->
  wf w -> map Z.of_nat (shp w) = em_weight M1 -> bias_of (em_bias M1) b -> incl (keys K) (keys L ++ keys R) ->
  em_weight M2 = em_weight M1 /\ em_bias M2 = em_bias M1 /\
  exists s y, repeat_ r (One x) p0 sizes0 = Ok s /\ call_einmix r lib iadd M1 w b s = Ok y /\ call_einmix r lib iadd M2 w b x = Ok y.
Proof.
  exact (fun A r add mul zero one lib iadd os os' p0 p1 p2 wt bt s0 s1 s2 L K R W M1 M2 e len x w b Hok Hsp H1 HC HI Ho Ho' =>
    repeat_before add mul zero one Hsp H1 lib HC iadd HI r Hok os os' Ho Ho' p0 p1 p2 wt bt s0 s1 s2 L K R W M1 M2 e len x w b).
Qed.
Print Assumptions C100_einmix.

(** any operands of einsum repeated along axes that some other operand has anyway: einsum of
    the operands as they were gives the same *)
Theorem C100_einsum : forall (A : Type) (r : runtime A) (add mul : A -> A -> A) (zero one : A) (lib : pystr -> list (tensor A) -> result (tensor A))
    (ops ops' : list (list entry * tensor A)) (R : expr) (p p' : pystr) (len : pystr -> nat) (dots : list nat),
  runtime_ok r -> (forall a b, add a b = add b a) -> (forall a b c, add a (add b c) = add (add a b) c) -> einsum_contract add mul zero one lib ->
  einsum_reads (rt_unicode r) p (map fst ops) (entries_of R) -> einsum_reads (rt_unicode r) p' (map fst ops') (entries_of R) ->
  length (distinct (all_names (map fst ops))) <= 52 ->
  (forall es t, In (es, t) ops -> wf t /\ shp t = entry_shape len dots es /\ length (filter (fun en => match en with EDots => true | EName _ => false end) es) <= 1) ->
  Forall2 (widened r len) ops ops' -> incl (all_names (map fst ops')) (all_names (map fst ops)) -> ungrouped R -> NoDup (keys R) -> ndots R <= 1 ->
  incl (entry_names (entries_of R)) (all_names (map fst ops)) -> (In EDots (entries_of R) <-> exists es t, In (es, t) ops /\ In EDots es) ->
  exists z, einsum_with (rt_unicode r) lib (map (fun o => inl (snd o)) ops' ++ [inr p']) = Ok z /\
    einsum_with (rt_unicode r) lib (map (fun o => inl (snd o)) ops ++ [inr p]) = Ok z.
Proof.
  exact (fun A r add mul zero one lib ops ops' R p p' len dots Hok Hc Ha HC => widened_calls r Hok add mul zero one Hc Ha lib HC ops ops' R p p' len dots).
Qed.
Print Assumptions C100_einsum.

(** ** cases *)
Example C100_case_einmix :
  let L := [nm "b"; nm "d"] in let K := [nm "h"; nm "b"; nm "d"] in let R := [nm "b"; grp [lit "o"; lit "h"]] in let W := [nm "h"; nm "d"; nm "o"] in
  let p0 := lit "b d -> h b d" in let p1 := lit "h b d -> b (o h)" in let p2 := lit "b d -> b (o h)" in
  let sizes0 := [(lit "h", 2%Z)] in let sizes := [(lit "h", 2%Z); (lit "d", 3%Z); (lit "o", 2%Z)] in
  no_reserved sizes0 /\ call_ok ascii_unicode Repeating p0 sizes0 [2; 3] L K 0 moved_len /\
  reads ascii_unicode p1 K R /\ reads ascii_unicode p2 L R /\ written ascii_unicode (lit "h d o") W /\ plain L /\ plain K /\ plain R /\ plain W /\
  fits moved_len (left_groups 0 K) (right_groups 0 K R) (gshape moved_len (left_groups 0 K)) sizes /\ fits moved_len (left_groups 0 L) (right_groups 0 L R) [2; 3] sizes /\
  no_division sizes moved_len (left_groups 0 K) /\ no_division sizes moved_len (left_groups 0 L) /\ incl (keys K) (keys L ++ keys R) /\
  exists M1, EinMix ascii_unicode (fun _ => forward) (fun _ => backward) p1 (lit "h d o") (Some (lit "o")) sizes = Ok M1 /\
  exists M2, EinMix ascii_unicode (fun _ => forward) (fun _ => backward) p2 (lit "h d o") (Some (lit "o")) sizes = Ok M2 /\
    em_weight M1 = [2; 3; 2]%Z /\ em_weight M2 = [2; 3; 2]%Z /\ em_bias M1 = Some [1; 2; 1]%Z /\ em_bias M2 = Some [1; 2; 1]%Z /\
    (let* s := repeat_ numpy_like (One (iota [2; 3])) p0 sizes0 in
     call_einmix numpy_like (ref_einsum Z.add Z.mul 0%Z 1%Z) (ref_iadd Z.add 0%Z) M1 (iota [2; 3; 2]) (Some (iota [1; 2; 1])) s) =
      Ok (mkT [2; 4] [10; 28; 14; 32; 28; 100; 41; 113]%Z) /\
    call_einmix numpy_like (ref_einsum Z.add Z.mul 0%Z 1%Z) (ref_iadd Z.add 0%Z) M2 (iota [2; 3; 2]) (Some (iota [1; 2; 1])) (iota [2; 3]) =
      Ok (mkT [2; 4] [10; 28; 14; 32; 28; 100; 41; 113]%Z).
Proof.
  cbn zeta. split; [solve_no_reserved|]. split; [solve_call (lit "b d ") (lit " h b d")|].
  split; [solve_reads (lit "h b d ") (lit " b (o h)")|]. split; [solve_reads (lit "b d ") (lit " b (o h)")|]. split; [unfold written; solve_written|].
  split; [solve_plain|]. split; [solve_plain|]. split; [solve_plain|]. split; [solve_plain|]. split; [solve_fits|]. split; [solve_fits|].
  split; [intros g H; each H; subst g; vm_compute; lia|]. split; [intros g H; each H; subst g; vm_compute; lia|]. split; [solve_incl|].
  solve_layer (lit "h b d -> b (o h)") (lit "h d o") (Some (lit "o")) [(lit "h", 2%Z); (lit "d", 3%Z); (lit "o", 2%Z)].
  solve_layer (lit "b d -> b (o h)") (lit "h d o") (Some (lit "o")) [(lit "h", 2%Z); (lit "d", 3%Z); (lit "o", 2%Z)].
  split; [reflexivity|]. split; [reflexivity|]. split; [reflexivity|]. split; [reflexivity|]. split; vm_compute; reflexivity.
Qed.

Example C100_case_einsum :
  let x := iota [2; 3] in let y := iota [1; 3; 2] in let i := EName (lit "i") in let j := EName (lit "j") in let k := EName (lit "k") in
  let ops := [([i; j], x); ([EDots; j; k], y)] in
  let ops' := [([j; k; i], mkT [3; 2; 2] [0; 3; 0; 3; 1; 4; 1; 4; 2; 5; 2; 5]%Z); ([EDots; j; k], y)] in
  let R := [dots3; nm "i"; nm "k"] in let p := lit "i j, ... j k -> ... i k" in let p' := lit "j k i, ... j k -> ... i k" in
  einsum_reads ascii_unicode p (map fst ops) (entries_of R) /\ einsum_reads ascii_unicode p' (map fst ops') (entries_of R) /\
  (forall es t, In (es, t) ops -> wf t /\ shp t = entry_shape turned_len [1] es /\ length (filter (fun en => match en with EDots => true | EName _ => false end) es) <= 1) /\
  Forall2 (widened numpy_like turned_len) ops ops' /\ incl (all_names (map fst ops')) (all_names (map fst ops)) /\ ungrouped R /\ NoDup (keys R) /\ ndots R <= 1 /\
  incl (entry_names (entries_of R)) (all_names (map fst ops)) /\ (In EDots (entries_of R) <-> exists es t, In (es, t) ops /\ In EDots es) /\
  einsum_with ascii_unicode (ref_einsum Z.add Z.mul 0%Z 1%Z) (map (fun o => inl (snd o)) ops' ++ [inr p']) = Ok (mkT [1; 2; 2] [10; 13; 28; 40]%Z) /\
  einsum_with ascii_unicode (ref_einsum Z.add Z.mul 0%Z 1%Z) (map (fun o => inl (snd o)) ops ++ [inr p]) = Ok (mkT [1; 2; 2] [10; 13; 28; 40]%Z).
Proof.
  cbn zeta. split.
  { solve_einsum [lit "i j"; lit " ... j k "] (lit " ... i k"). split; [|solve_lists [dots3; nm "i"; nm "k"]].
    apply Forall2_cons; [solve_lists [nm "i"; nm "j"]|]. apply Forall2_cons; [solve_lists [dots3; nm "j"; nm "k"]|apply Forall2_nil]. }
  split.
  { solve_einsum [lit "j k i"; lit " ... j k "] (lit " ... i k"). split; [|solve_lists [dots3; nm "i"; nm "k"]].
    apply Forall2_cons; [solve_lists [nm "j"; nm "k"; nm "i"]|]. apply Forall2_cons; [solve_lists [dots3; nm "j"; nm "k"]|apply Forall2_nil]. }
  split; [intros es t [H|[H|[]]]; injection H as <- <-; (split; [reflexivity|]; split; [reflexivity|cbn; lia])|].
  split.
  { constructor; [|constructor; [left; reflexivity|constructor]]. right.
    exists (lit "i j -> j k i"), [nm "i"; nm "j"], [nm "j"; nm "k"; nm "i"], [(lit "k", 2%Z)]. split; [solve_reads (lit "i j ") (lit " j k i")|].
    split; [intros i H; each H; subst i; right; eexists; (split; [reflexivity|discriminate])|]. split; [intros i H; each H; subst i; right; eexists; (split; [reflexivity|discriminate])|].
    split; [reflexivity|]. split; [reflexivity|]. split; [repeat constructor; cbn; tauto|]. split; [intros s z [H|[]]; injection H as <- <-; reflexivity|]. vm_compute. reflexivity. }
  split; [solve_incl|].
  split; [intros i H; each H; subst i; first [left; reflexivity | right; eexists; (split; [reflexivity|discriminate])]|].
  split; [repeat constructor; cbn; intuition discriminate|]. split; [cbn; lia|]. split; [solve_incl|].
  split; [split; [intros _; eexists; eexists; (split; [right; left; reflexivity|left; reflexivity])|intros _; left; reflexivity]|].
  split; vm_compute; reflexivity.
Qed.
