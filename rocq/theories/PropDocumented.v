(** * C96: the formulas in the documentation of einsum and EinMix *)
From Verif Require Import Py Tensor SpecSem SpecGrammar SpecEinsum SpecPattern SpecShape SpecOps SpecEinMix SpecAdjoint SpecMixFuse SpecDocumented
  Parsing Recipe Ops Backends Api Layers Einsum EinMix Instances EinsumFacts4 MixFacts8 MixFacts9 ParseFacts DocumentedFacts DocumentedFacts2 DocumentedFacts3 PropEinsum PropEinMix.

(** ** einsum *)
(** "b l m, b m n -> b l n", each letter any number of axes, one of them possibly the
    ellipsis (which stands for [e] dimensions): products of matrices, inner and outer
    products, filters applied to images *)
Theorem C96_tensordot : forall (A : Type) (U : unicode) (add mul : A -> A -> A) (zero one : A) (lib : pystr -> list (tensor A) -> result (tensor A))
    (p : pystr) (b l m n : list entry) (e : nat) (x y : tensor A) (sb sl sm sn : list nat),
  unicode_ok U -> (forall a b, add a b = add b a) -> (forall a b c, add a (add b c) = add (add a b) c) -> (forall a, mul a one = a) ->
  einsum_contract add mul zero one lib ->
  NoDup (b ++ l ++ m ++ n) -> ~ In EDots m -> length (entry_names (b ++ l ++ m ++ n)) <= 52 ->
  einsum_reads U p [b ++ l ++ m; b ++ m ++ n] (b ++ l ++ n) ->
  wf x -> wf y -> shp x = sb ++ sl ++ sm -> shp y = sb ++ sm ++ sn ->
  length sb = width e b -> length sl = width e l -> length sm = width e m -> length sn = width e n ->
  exists z, einsum_with U lib [inl x; inl y; inr p] = Ok z /\ wf z /\ shp z = sb ++ sl ++ sn /\
    forall h i k, inb sb h = true -> inb sl i = true -> inb sn k = true ->
      get z (h ++ i ++ k) = Some (sum_over add zero sm (fun j => mul (elt zero x (h ++ i ++ j)) (elt zero y (h ++ j ++ k)))).
Proof. exact (fun A U add mul zero one lib p b l m n e x y sb sl sm sn HU Hc Ha H1 HC => tensordot_call add mul zero one Hc Ha H1 lib HC U HU p b l m n e x y sb sl sm sn). Qed.
Print Assumptions C96_tensordot.

(** "out in, ... in -> ... out" *)
Theorem C96_dense : forall (A : Type) (U : unicode) (add mul : A -> A -> A) (zero one : A) (lib : pystr -> list (tensor A) -> result (tensor A))
    (p : pystr) (n m : list entry) (e : nat) (w x : tensor A) (sn sm sd : list nat),
  unicode_ok U -> (forall a b, add a b = add b a) -> (forall a b c, add a (add b c) = add (add a b) c) -> (forall a, mul a one = a) ->
  einsum_contract add mul zero one lib ->
  NoDup (EDots :: n ++ m) -> length (entry_names (n ++ m)) <= 52 ->
  einsum_reads U p [n ++ m; EDots :: m] (EDots :: n) -> wf w -> wf x -> shp w = sn ++ sm -> shp x = sd ++ sm ->
  length sn = width e n -> length sm = width e m -> length sd = e ->
  exists z, einsum_with U lib [inl w; inl x; inr p] = Ok z /\ wf z /\ shp z = sd ++ sn /\
    forall h k, inb sd h = true -> inb sn k = true ->
      get z (h ++ k) = Some (sum_over add zero sm (fun j => mul (elt zero w (k ++ j)) (elt zero x (h ++ j)))).
Proof. exact (fun A U add mul zero one lib p n m e w x sn sm sd HU Hc Ha H1 HC => dense_call add mul zero one Hc Ha H1 lib HC U HU p n m e w x sn sm sd). Qed.
Print Assumptions C96_dense.

(** "i i ->" *)
Theorem C96_trace : forall (A : Type) (U : unicode) (add mul : A -> A -> A) (zero one : A) (lib : pystr -> list (tensor A) -> result (tensor A))
    (p i : pystr) (x : tensor A) (n : nat),
  unicode_ok U -> (forall a b, add a b = add b a) -> (forall a b c, add a (add b c) = add (add a b) c) -> (forall a, mul a one = a) ->
  einsum_contract add mul zero one lib ->
  einsum_reads U p [[EName i; EName i]] [] -> wf x -> shp x = [n; n] ->
  exists z, einsum_with U lib [inl x; inr p] = Ok z /\ wf z /\ shp z = [] /\ get z [] = Some (sum_to add zero n (fun k => elt zero x [k; k])).
Proof. exact (fun A U add mul zero one lib p i x n HU Hc Ha H1 HC => trace_call add mul zero one Hc Ha H1 lib HC U HU p i x n). Qed.
Print Assumptions C96_trace.

(** "a b c, c b d, a g k -> a b k" *)
Theorem C96_three : forall (A : Type) (U : unicode) (add mul : A -> A -> A) (zero one : A) (lib : pystr -> list (tensor A) -> result (tensor A))
    (p a b c d g k : pystr) (x y z : tensor A) (na nb nc nd ng nk : nat),
  unicode_ok U -> (forall a b, add a b = add b a) -> (forall a b c, add a (add b c) = add (add a b) c) -> (forall a, add zero a = a) -> (forall a, mul a one = a) ->
  einsum_contract add mul zero one lib ->
  NoDup [a; b; c; d; g; k] -> einsum_reads U p [name_entries [a; b; c]; name_entries [c; b; d]; name_entries [a; g; k]] (name_entries [a; b; k]) ->
  wf x -> wf y -> wf z -> shp x = [na; nb; nc] -> shp y = [nc; nb; nd] -> shp z = [na; ng; nk] ->
  exists w, einsum_with U lib [inl x; inl y; inl z; inr p] = Ok w /\ wf w /\ shp w = [na; nb; nk] /\
    forall ia ib ik, ia < na -> ib < nb -> ik < nk ->
      get w [ia; ib; ik] = Some (sum_to add zero nc (fun ic => sum_to add zero nd (fun id => sum_to add zero ng (fun ig =>
        mul (elt zero x [ia; ib; ic]) (mul (elt zero y [ic; ib; id]) (elt zero z [ia; ig; ik])))))).
Proof.
  exact (fun A U add mul zero one lib p a b c d g k x y z na nb nc nd ng nk HU Hc Ha H0 H1 HC =>
    three_call add mul zero one Hc Ha H1 lib HC U HU H0 p a b c d g k x y z na nb nc nd ng nk).
Qed.
Print Assumptions C96_three.

(** ** EinMix *)
(** "the same einsum under the hood": without parentheses and without a bias, the layer is
    einsum of the input and the weight *)
Theorem C96_einmix_einsum : forall (A : Type) (r : runtime A) (add mul : A -> A -> A) (zero one : A)
    (lib : pystr -> list (tensor A) -> result (tensor A)) (iadd : tensor A -> tensor A -> result (tensor A))
    (os os' : nat -> orders) (p wt : pystr) (sizes : list (pystr * Z)) (L R W : expr) (M : einmix (tensor A)) (einsum_pattern : pystr) (e : nat) (len : label -> nat) (x w : tensor A),
  runtime_ok r -> sums_and_products add mul zero -> (forall a, mul a one = a) -> einsum_contract add mul zero one lib -> iadd_contract add iadd ->
  (forall n, orders_ok (os n)) -> (forall n, orders_ok (os' n)) ->
  reads (rt_unicode r) p L R -> written (rt_unicode r) wt W -> ungrouped L -> ungrouped R -> plain L -> plain R -> plain W -> NoDup (map fst sizes) ->
  EinMix (rt_unicode r) os os' p wt None sizes = Ok M ->
  einsum_reads (rt_unicode r) einsum_pattern [entries_of L; name_entries (keys W)] (entries_of R) ->
  wf x -> rank_fits L (length (shp x)) e -> fits len (left_groups e L) (right_groups e L R) (shp x) sizes -> no_division sizes len (left_groups e L) ->
  (em_pre M <> None \/ em_post M <> None -> e < 8) -> wf w -> map Z.of_nat (shp w) = em_weight M ->
  exists y, call_einmix r lib iadd M w None x = Ok y /\ einsum_with (rt_unicode r) lib [inl x; inl w; inr einsum_pattern] = Ok y.
Proof.
  exact (fun A r add mul zero one lib iadd os os' p wt sizes L R W M q e len x w Hok Hsp H1 HC HI Ho Ho' =>
    flat_mix add mul zero one Hsp H1 lib HC iadd HI r Hok os os' Ho Ho' p wt sizes L R W M q e len x w).
Qed.
Print Assumptions C96_einmix_einsum.

(** 't b cin -> t b cout' (no heads) is the linear layer; 't b (head cin) -> t b (head cout)'
    is a linear layer for each head.  [b]: other axes, possibly an ellipsis *)
Theorem C96_linear : forall (A : Type) (r : runtime A) (add mul : A -> A -> A) (zero one : A)
    (lib : pystr -> list (tensor A) -> result (tensor A)) (iadd : tensor A -> tensor A -> result (tensor A))
    (os os' : nat -> orders) (p wt : pystr) (bias_text : option pystr) (b : expr) (heads : list pystr) (i o : pystr) (sb sg : list nat) (ni no : nat)
    (M : einmix (tensor A)) (e : nat) (x w : tensor A) (c : option (tensor A)),
  runtime_ok r -> sums_and_products add mul zero -> (forall a, mul a one = a) -> einsum_contract add mul zero one lib -> iadd_contract add iadd ->
  (forall n, orders_ok (os n)) -> (forall n, orders_ok (os' n)) ->
  ungrouped b -> reads (rt_unicode r) p (b ++ [joined heads i]) (b ++ [joined heads o]) ->
  written (rt_unicode r) wt (axes_named (heads ++ [i; o])) -> ~ In ell_name (heads ++ [i; o]) ->
  (forall text, bias_text = Some text -> written (rt_unicode r) text (axes_named (heads ++ [o]))) ->
  length sg = length heads -> EinMix (rt_unicode r) os os' p wt bias_text (combine (heads ++ [i; o]) (map Z.of_nat (sg ++ [ni; no]))) = Ok M ->
  (em_pre M <> None \/ em_post M <> None -> e < 8) ->
  wf x -> rank_fits b (length sb) e -> shp x = sb ++ [prodn (sg ++ [ni])] -> wf w -> shp w = sg ++ [ni; no] ->
  match bias_text with None => c = None | Some _ => exists c0, c = Some c0 /\ wf c0 /\ shp c0 = repeat 1 (length (written_names b)) ++ sg ++ [no] end ->
  map Z.of_nat (shp w) = em_weight M /\ option_map (fun c0 => map Z.of_nat (shp c0)) c = em_bias M /\
  exists y, call_einmix r lib iadd M w c x = Ok y /\ wf y /\ shp y = sb ++ [prodn (sg ++ [no])] /\
    forall h q k, inb sb h = true -> inb sg q = true -> k < no ->
      let t := sum_to add zero ni (fun j => mul (elt zero x (h ++ [ravel (sg ++ [ni]) (q ++ [j])])) (elt zero w (q ++ [j; k]))) in
      get y (h ++ [ravel (sg ++ [no]) (q ++ [k])]) =
        Some match c with None => t | Some c0 => add t (elt zero c0 (repeat 0 (length (written_names b)) ++ q ++ [k])) end.
Proof.
  exact (fun A r add mul zero one lib iadd os os' p wt bt b heads i o sb sg ni no M e x w c Hok Hsp H1 HC HI Ho Ho' =>
    linear_call add mul zero one Hsp H1 lib HC iadd HI r Hok os os' Ho Ho' p wt bt b heads i o sb sg ni no M e x w c).
Qed.
Print Assumptions C96_linear.

(** ** cases *)
Ltac solve_einsum ls r := exists ls, r; split; [reflexivity|]; split; [discriminate|].
Example C96_case_images :
  let b := [] in let l := [EName (lit "batch")] in let m := [EName (lit "h"); EName (lit "w")] in let n := [EName (lit "channel")] in
  let p := lit "batch h w, h w channel -> batch channel" in
  NoDup (b ++ l ++ m ++ n) /\ einsum_reads ascii_unicode p [b ++ l ++ m; b ++ m ++ n] (b ++ l ++ n) /\
  einsum_with ascii_unicode (ref_einsum Z.add Z.mul 0%Z 1%Z) [inl (iota [2; 2; 2]); inl (iota [2; 2; 3]); inr p] = Ok (mkT [2; 3] [42; 48; 54; 114; 136; 158]%Z).
Proof.
  cbn zeta. split; [cbn; solve_NoDup|]. split; [|vm_compute; reflexivity].
  solve_einsum [lit "batch h w"; lit " h w channel "] (lit " batch channel"). split.
  - apply Forall2_cons; [solve_lists [nm "batch"; nm "h"; nm "w"]|]. apply Forall2_cons; [solve_lists [nm "h"; nm "w"; nm "channel"]|apply Forall2_nil].
  - solve_lists [nm "batch"; nm "channel"].
Qed.
Example C96_case_dense :
  let n := [EName (lit "out_dim")] in let m := [EName (lit "in_dim")] in let p := lit "out_dim in_dim, ... in_dim -> ... out_dim" in
  NoDup (EDots :: n ++ m) /\ einsum_reads ascii_unicode p [n ++ m; EDots :: m] (EDots :: n) /\
  einsum_with ascii_unicode (ref_einsum Z.add Z.mul 0%Z 1%Z) [inl (iota [3; 2]); inl (iota [2; 1; 2]); inr p] = Ok (mkT [2; 1; 3] [1; 3; 5; 3; 13; 23]%Z).
Proof.
  cbn zeta. split; [cbn; solve_NoDup|]. split; [|vm_compute; reflexivity].
  solve_einsum [lit "out_dim in_dim"; lit " ... in_dim "] (lit " ... out_dim"). split.
  - apply Forall2_cons; [solve_lists [nm "out_dim"; nm "in_dim"]|]. apply Forall2_cons; [solve_lists [dots3; nm "in_dim"]|apply Forall2_nil].
  - solve_lists [dots3; nm "out_dim"].
Qed.
Example C96_case_trace :
  einsum_reads ascii_unicode (lit "i i ->") [[EName (lit "i"); EName (lit "i")]] [] /\
  einsum_with ascii_unicode (ref_einsum Z.add Z.mul 0%Z 1%Z) [inl (iota [3; 3]); inr (lit "i i ->")] = Ok (mkT [] [12]%Z).
Proof.
  split; [|vm_compute; reflexivity]. solve_einsum [lit "i i "] (@nil N). split; [|solve_lists (@nil item)].
  apply Forall2_cons; [solve_lists [nm "i"; nm "i"]|apply Forall2_nil].
Qed.
Example C96_case_three :
  let p := lit "a b c, c b d, a g k -> a b k" in let a := lit "a" in let b := lit "b" in let c := lit "c" in let d := lit "d" in let g := lit "g" in let k := lit "k" in
  NoDup [a; b; c; d; g; k] /\ einsum_reads ascii_unicode p [name_entries [a; b; c]; name_entries [c; b; d]; name_entries [a; g; k]] (name_entries [a; b; k]) /\
  einsum_with ascii_unicode (ref_einsum Z.add Z.mul 0%Z 1%Z) [inl (iota [1; 2; 2]); inl (iota [2; 2; 1]); inl (iota [1; 2; 2]); inr p] = Ok (mkT [1; 2; 2] [4; 8; 22; 44]%Z).
Proof.
  cbn zeta. split; [solve_NoDup|]. split; [|vm_compute; reflexivity].
  solve_einsum [lit "a b c"; lit " c b d"; lit " a g k "] (lit " a b k"). split.
  - apply Forall2_cons; [solve_lists [nm "a"; nm "b"; nm "c"]|]. apply Forall2_cons; [solve_lists [nm "c"; nm "b"; nm "d"]|]. apply Forall2_cons; [solve_lists [nm "a"; nm "g"; nm "k"]|apply Forall2_nil].
  - solve_lists [nm "a"; nm "b"; nm "k"].
Qed.

(** the channel-wise multiplication of the documentation, as a layer and as einsum *)
Definition channel_len (a : label) : nat := match a with LName s => if str_eqb s (lit "c") then 3 else 2 | _ => 0 end.
Example C96_case_channels :
  let L := [nm "t"; nm "b"; nm "c"] in let W := [nm "c"] in let sizes := [(lit "c", 3%Z)] in let q := lit "t b c, c -> t b c" in
  reads ascii_unicode (lit "t b c -> t b c") L L /\ written ascii_unicode (lit "c") W /\ ungrouped L /\ plain L /\ plain W /\
  einsum_reads ascii_unicode q [entries_of L; name_entries (keys W)] (entries_of L) /\
  rank_fits L 3 0 /\ fits channel_len (left_groups 0 L) (right_groups 0 L L) [2; 2; 3] sizes /\ no_division sizes channel_len (left_groups 0 L) /\
  exists M, EinMix ascii_unicode (fun _ => forward) (fun _ => backward) (lit "t b c -> t b c") (lit "c") None sizes = Ok M /\ em_weight M = [3%Z] /\
    call_einmix numpy_like (ref_einsum Z.add Z.mul 0%Z 1%Z) (ref_iadd Z.add 0%Z) M (iota [3]) None (iota [2; 2; 3]) =
      einsum_with ascii_unicode (ref_einsum Z.add Z.mul 0%Z 1%Z) [inl (iota [2; 2; 3]); inl (iota [3]); inr q].
Proof.
  cbn zeta. split; [solve_reads (lit "t b c ") (lit " t b c")|]. split; [unfold written; solve_written|].
  split; [intros i H; each H; subst i; right; eexists; (split; [reflexivity|discriminate])|]. split; [solve_plain|]. split; [solve_plain|]. split.
  { solve_einsum [lit "t b c"; lit " c "] (lit " t b c"). split.
    - apply Forall2_cons; [solve_lists [nm "t"; nm "b"; nm "c"]|]. apply Forall2_cons; [solve_lists [nm "c"]|apply Forall2_nil].
    - solve_lists [nm "t"; nm "b"; nm "c"]. }
  split; [split; reflexivity|]. split; [solve_fits|]. split; [intros g H; each H; subst g; vm_compute; lia|].
  destruct (EinMix ascii_unicode (fun _ => forward) (fun _ => backward) (lit "t b c -> t b c") (lit "c") None [(lit "c", 3%Z)] : result (einmix (tensor Z))) as [M|] eqn:E; [|vm_compute in E; discriminate].
  exists M. vm_compute in E. injection E as <-. split; [reflexivity|]. split; [reflexivity|]. vm_compute. reflexivity.
Qed.
Example C96_case_heads :
  let b := [nm "t"; nm "b"] in let heads := [lit "head"] in let i := lit "cin" in let o := lit "cout" in let p := lit "t b (head cin) -> t b (head cout)" in
  ungrouped b /\ reads ascii_unicode p (b ++ [joined heads i]) (b ++ [joined heads o]) /\ written ascii_unicode (lit "head cin cout") (axes_named (heads ++ [i; o])) /\
  written ascii_unicode (lit "head cout") (axes_named (heads ++ [o])) /\ rank_fits b 2 0 /\
  exists M, EinMix ascii_unicode (fun _ => forward) (fun _ => backward) p (lit "head cin cout") (Some (lit "head cout")) (combine (heads ++ [i; o]) (map Z.of_nat ([2] ++ [3; 2]))) = Ok M /\
    em_weight M = [2; 3; 2]%Z /\ em_bias M = Some [1; 1; 2; 2]%Z /\
    call_einmix numpy_like (ref_einsum Z.add Z.mul 0%Z 1%Z) (ref_iadd Z.add 0%Z) M (iota [2; 3; 2]) (Some (iota [1; 1; 2; 2])) (iota [1; 1; 6]) =
      Ok (mkT [1; 1; 4] [10; 14; 102; 115]%Z).
Proof.
  cbn zeta. split; [intros i H; each H; subst i; right; eexists; (split; [reflexivity|discriminate])|].
  split; [solve_reads (lit "t b (head cin) ") (lit " t b (head cout)")|]. split; [unfold written; solve_written|]. split; [unfold written; solve_written|]. split; [split; reflexivity|].
  destruct (EinMix ascii_unicode (fun _ => forward) (fun _ => backward) (lit "t b (head cin) -> t b (head cout)") (lit "head cin cout") (Some (lit "head cout"))
    (combine ([lit "head"] ++ [lit "cin"; lit "cout"]) (map Z.of_nat ([2] ++ [3; 2]))) : result (einmix (tensor Z))) as [M|] eqn:E; [|vm_compute in E; discriminate].
  exists M. vm_compute in E. injection E as <-. split; [reflexivity|]. split; [reflexivity|]. split; [reflexivity|]. vm_compute. reflexivity.
Qed.
