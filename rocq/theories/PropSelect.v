(** * Choosing elements of a batch: C104 *)
From Verif Require Import Py Tensor SpecSem SpecGrammar SpecForms SpecEinsum SpecPattern SpecOps SpecElements Parsing Compile Recipe Ops Backends Api SpecBatch SpecBatches SpecLinear
  Layers SpecLayers Einsum EinMix SpecEinMix BatchFacts SelectFacts LayerFacts EinsumFacts4 MixFacts8 MixFacts9 Instances PropEinMix PropContraction PropEinsum SpecPacking Packing PackFacts PropPacking PropBatches SpecSelect PackSelect.

(** ** C104: choosing elements of a batch (some, all in another order, some several times) before
    the operation is choosing the same elements of the result *)
Theorem C104_operations : forall (A : Type) (r : runtime A) (b p p' : pystr) (L1 L2 R1 R2 : expr) (sizes : list (pystr * Z)) f (e : nat) (js : list nat) (X Y X' : tensor A),
  runtime_ok r -> b <> ell_name -> reads (rt_unicode r) p (L1 ++ L2) (R1 ++ R2) ->
  reads (rt_unicode r) p' (L1 ++ Atom (AName b) :: L2) (R1 ++ Atom (AName b) :: R2) ->
  ~ In b (map fst sizes) -> NoDup (map fst sizes) -> SpecBatch.operation r p sizes f ->
  rank_fits (L1 ++ Atom (AName b) :: L2) (length (shp X)) e -> js <> [] ->
  let k := length (left_groups e L1) in let k' := length (right_groups e (L1 ++ L2) R1) in
  selects k js X X' -> f (One X) p' = Ok Y -> exists Y', f (One X') p' = Ok Y' /\ selects k' js Y Y'.
Proof. exact (fun A r b p p' L1 L2 R1 R2 sizes f e js X Y X' Hok => op_select r Hok b p p' L1 L2 R1 R2 sizes f e js X Y X'). Qed.
Print Assumptions C104_operations.

(** there is exactly one such choice for every list of valid indices *)
Theorem C104_choice : forall (A : Type) (k : nat) (X : tensor A) (n : nat) (s : list nat) (js : list nat),
  wf X -> k <= length s -> shp X = firstn k s ++ n :: skipn k s -> (forall j, In j js -> j < n) -> js <> [] ->
  exists X', selects k js X X' /\ forall X'', selects k js X X'' -> X'' = X'.
Proof.
  exact (fun A k X n s js W Hk Hs Hj Hne => match selects_exists k X n s js W Hk Hs Hj with
    ex_intro _ X' H => ex_intro _ X' (conj H (fun X'' H' => selects_fun k X X'' X' js Hne H' H)) end).
Qed.
Print Assumptions C104_choice.

(** the same for the layers *)
Theorem C104_rearrange_layer : forall (A : Type) (r : runtime A) (os : nat -> orders) (b p p' : pystr) (L1 L2 R1 R2 : expr) (sizes : list (pystr * Z)) (e : nat) (M : layer (tensor A)) (js : list nat) (X Y X' : tensor A),
  runtime_ok r -> (forall n, orders_ok (os n)) -> b <> ell_name -> reads (rt_unicode r) p (L1 ++ L2) (R1 ++ R2) ->
  reads (rt_unicode r) p' (L1 ++ Atom (AName b) :: L2) (R1 ++ Atom (AName b) :: R2) ->
  ~ In b (map fst sizes) -> NoDup (map fst sizes) -> no_reserved sizes -> Rearrange (rt_unicode r) os p' sizes = Ok M ->
  rank_fits (L1 ++ Atom (AName b) :: L2) (length (shp X)) e -> e < 8 -> js <> [] ->
  let k := length (left_groups e L1) in let k' := length (right_groups e (L1 ++ L2) R1) in
  selects k js X X' -> call_layer r M X = Ok Y -> exists Y', call_layer r M X' = Ok Y' /\ selects k' js Y Y'.
Proof.
  exact (fun A r os b p p' L1 L2 R1 R2 sizes e M js X Y X' Hok Hos Hb Hp Hp' Hs Hn Hr HM =>
    layer_select r Hok b p p' L1 L2 R1 R2 sizes _ e M js X Y X' Hb Hp Hp' Hs Hn (op_rearrange r p sizes) (rearrange_layer r Hok os p' sizes M Hos Hn Hr HM)).
Qed.
Print Assumptions C104_rearrange_layer.

Theorem C104_reduce_layer : forall (A : Type) (r : runtime A) (os : nat -> orders) (b p p' s : pystr) (L1 L2 R1 R2 : expr) (sizes : list (pystr * Z)) (e : nat) (M : layer (tensor A)) (js : list nat) (X Y X' : tensor A),
  runtime_ok r -> (forall n, orders_ok (os n)) -> b <> ell_name -> reads (rt_unicode r) p (L1 ++ L2) (R1 ++ R2) ->
  reads (rt_unicode r) p' (L1 ++ Atom (AName b) :: L2) (R1 ++ Atom (AName b) :: R2) ->
  ~ In b (map fst sizes) -> NoDup (map fst sizes) -> no_reserved sizes ->
  builtin s -> reduction_fits r s -> float_if_mean r s -> torch_fits r (RStr s) -> Reduce (rt_unicode r) os p' (RStr s) sizes = Ok M ->
  rank_fits (L1 ++ Atom (AName b) :: L2) (length (shp X)) e -> e < 8 -> js <> [] ->
  let k := length (left_groups e L1) in let k' := length (right_groups e (L1 ++ L2) R1) in
  selects k js X X' -> call_layer r M X = Ok Y -> exists Y', call_layer r M X' = Ok Y' /\ selects k' js Y Y'.
Proof.
  exact (fun A r os b p p' s L1 L2 R1 R2 sizes e M js X Y X' Hok Hos Hb Hp Hp' Hs Hn Hr Hbu Hrf Hfm Ht HM =>
    layer_select r Hok b p p' L1 L2 R1 R2 sizes _ e M js X Y X' Hb Hp Hp' Hs Hn (op_reduce r p sizes s Hbu Hrf Hfm) (reduce_layer r Hok os p' (RStr s) sizes M Hos Hn Hr Ht HM)).
Qed.
Print Assumptions C104_reduce_layer.

(** EinMix *)
Theorem C104_einmix : forall (A : Type) (r : runtime A) (add mul : A -> A -> A) (zero one : A)
    (lib_einsum : pystr -> list (tensor A) -> result (tensor A)) (iadd : tensor A -> tensor A -> result (tensor A))
    (os os' : nat -> orders) (b p p' weight_text : pystr) (bias_text : option pystr) (sizes : list (pystr * Z)) (L1 L2 R1 R2 W : expr)
    (M M' : einmix (tensor A)) (e : nat) (len : label -> nat) (js : list nat) (X X' w : tensor A) (c c' : option (tensor A)),
  runtime_ok r -> (forall a b, add a b = add b a) -> (forall a b c, add a (add b c) = add (add a b) c) -> (forall a, mul a one = a) ->
  einsum_contract add mul zero one lib_einsum -> iadd_contract add iadd ->
  (forall n, orders_ok (os n)) -> (forall n, orders_ok (os' n)) -> NoDup (map fst sizes) ->
  b <> ell_name -> ~ In b (map fst sizes) ->
  let L := L1 ++ L2 in let R := R1 ++ R2 in
  let L' := L1 ++ Atom (AName b) :: L2 in let R' := R1 ++ Atom (AName b) :: R2 in
  reads (rt_unicode r) p L R -> reads (rt_unicode r) p' L' R' -> written (rt_unicode r) weight_text W ->
  plain L -> plain R -> plain L' -> plain R' -> plain W ->
  EinMix (rt_unicode r) os os' p weight_text bias_text sizes = Ok M ->
  EinMix (rt_unicode r) os os' p' weight_text bias_text sizes = Ok M' ->
  rank_fits L' (length (shp X)) e -> fits len (left_groups e L') (right_groups e L' R') (shp X) sizes ->
  (forall g, In g (left_groups e L') -> filter (unknown (map fst sizes)) g <> [] ->
     prodn (map len (filter (fun a => negb (unknown (map fst sizes) a)) g)) <> 0) ->
  (em_pre M <> None \/ em_post M <> None -> e < 8) -> (em_pre M' <> None \/ em_post M' <> None -> e < 8) ->
  wf w -> map Z.of_nat (shp w) = em_weight M' -> bias_of (em_bias M') c' -> bias_more (length (written_names R1)) c' c ->
  let k := length (left_groups e L1) in let k' := length (right_groups e L R1) in
  js <> [] -> selects k js X X' ->
  exists Y Y', call_einmix r lib_einsum iadd M' w c' X = Ok Y /\ call_einmix r lib_einsum iadd M' w c' X' = Ok Y' /\ selects k' js Y Y'.
Proof.
  exact (fun A r add mul zero one lib iadd os os' b p p' wt bt sizes L1 L2 R1 R2 W M M' e len js X X' w c c' Hok Hc Ha H1 HC HI Ho Ho' Hn Hb Hs Hp Hp' HW PL PR PL' PR' PW HM HM' =>
    einmix_select add mul zero one Hc Ha H1 lib HC iadd HI r Hok os os' Ho Ho' b p p' wt bt sizes L1 L2 R1 R2 W Hb Hp Hp' Hs HW PL PR PL' PR' PW Hn M M' HM HM' e len js X X' w c c').
Qed.
Print Assumptions C104_einmix.

(** einsum: the same choice from all operands with the name *)
Theorem C104_einsum : forall (A : Type) (U : unicode) (add mul : A -> A -> A) (zero one : A)
    (lib : pystr -> list (tensor A) -> result (tensor A)) (p p' b : pystr) (js : list nat) (len : lab pystr -> nat)
    (Ls Ls' : list (list entry)) (R1 R2 : list entry) (Xs Xs' : list (tensor A)),
  unicode_ok U -> (forall a b, add a b = add b a) -> (forall a b c, add a (add b c) = add (add a b) c) ->
  einsum_contract add mul zero one lib ->
  einsum_reads U p Ls (R1 ++ R2) -> einsum_reads U p' Ls' (R1 ++ EName b :: R2) ->
  chosen b js Ls Ls' Xs Xs' -> js <> [] -> ~ In b (all_names Ls) -> length (distinct (all_names Ls')) <= 52 ->
  good_call len (map to_term Ls') (to_term (R1 ++ EName b :: R2)) Xs ->
  exists Y Y', einsum_with U lib (map inl Xs ++ [inr p']) = Ok Y /\ einsum_with U lib (map inl Xs' ++ [inr p']) = Ok Y' /\
    selects (length (term_labs (list_max (map2 spare (map to_term Ls') Xs)) (to_term R1))) js Y Y'.
Proof. exact (fun A U add mul zero one lib p p' b js len Ls Ls' R1 R2 Xs Xs' HU Hc Ha HL => einsum_select b js U HU add mul zero one Hc Ha lib HL p p' len Ls Ls' R1 R2 Xs Xs'). Qed.
Print Assumptions C104_einsum.

(** pack: the same choice from all tensors; unpack: the same choice from all parts. No axis
    that is named has length 0 (pack needs this to return at all). *)
Theorem C104_pack : forall (A : Type) (r : runtime A) (w p : pystr) (js : list nat) (before after : list pystr) (place : tensor A -> nat)
    (Ts Zs : list (tensor A)) (X : tensor A) (ps : list (list Z)),
  runtime_ok r -> pack_pattern (rt_unicode r) p before after -> dim_of w before after place -> js <> [] ->
  Forall2 (fun T Z => selects (place T) js T Z) Ts Zs -> pack r Ts p = Ok (X, ps) ->
  exists V, pack r Zs p = Ok (V, ps) /\ selects (place X) js X V.
Proof. exact (fun A r w p js before after place Ts Zs X ps Hr Hp HD Hne => pack_select r Hr w js Hne p before after place Ts Zs X ps Hp HD). Qed.
Print Assumptions C104_pack.
Theorem C104_unpack : forall (A : Type) (r : runtime A) (w p : pystr) (js : list nat) (before after : list pystr) (place : tensor A -> nat)
    (X X' : tensor A) (ps : list (list Z)) (b : list nat) (n : nat) (a : list nat) (Ts : list (tensor A)),
  runtime_ok r -> pack_pattern (rt_unicode r) p before after -> dim_of w before after place -> js <> [] ->
  shp X = b ++ [n] ++ a -> length b = length before -> length a = length after -> prodn (b ++ a) <> 0 ->
  ps <> [] -> (forall q, In q ps -> tame (rt_lib r) q) ->
  selects (place X) js X X' -> unpack r X ps p = Ok Ts ->
  exists Zs, unpack r X' ps p = Ok Zs /\ Forall2 (fun T Z => selects (place T) js T Z) Ts Zs.
Proof. exact (fun A r w p js before after place X X' ps b n a Ts Hr Hp HD Hne => unpack_select r Hr w js Hne p before after place X X' ps b n a Ts Hp HD). Qed.
Print Assumptions C104_unpack.

(** ** Cases *)
Ltac solve_slice n :=
  split; [reflexivity|]; split; [reflexivity|]; split; [cbn; lia|]; split; [exists n; split; [lia|reflexivity]|];
  let idx := fresh in let H := fresh in intros idx H; cbn [shp length] in H;
  repeat (destruct idx as [|? idx]; [try discriminate H|]; try discriminate H);
  cbn [shp firstn skipn app length]; unfold get, iota; cbn [shp dat inb];
  repeat match goal with |- context [?k <? ?m] => is_var k; do 8 (try destruct k as [|k]); try reflexivity end.

(** elements 2, 0, 2 of a batch of three, along the second axis of the input and the first of the result *)
Example C104_case :
  let L1 := [nm "h"] in let L2 := [nm "w"] in let R1 := @nil item in let R2 := [grp [lit "w"; lit "h"]] in
  let X := mkT [2; 3; 2] [0; 1; 4; 5; 6; 7; 2; 3; 8; 9; 10; 11]%Z in let X' := mkT [2; 3; 2] [6; 7; 0; 1; 6; 7; 10; 11; 2; 3; 10; 11]%Z in
  let f := fun x q => rearrange numpy_like x q [] in
  reads ascii_unicode (lit "h w -> (w h)") (L1 ++ L2) (R1 ++ R2) /\
  reads ascii_unicode (lit "h b w -> b (w h)") (L1 ++ nm "b" :: L2) (R1 ++ nm "b" :: R2) /\
  SpecBatch.operation numpy_like (lit "h w -> (w h)") [] f /\
  rank_fits (L1 ++ nm "b" :: L2) (length (shp X)) 0 /\ length (left_groups 0 L1) = 1 /\ length (right_groups 0 (L1 ++ L2) R1) = 0 /\
  selects 1 [2; 0; 2] X X' /\
  f (One X) (lit "h b w -> b (w h)") = Ok (mkT [3; 4] [0; 2; 1; 3; 4; 8; 5; 9; 6; 10; 7; 11]%Z) /\
  f (One X') (lit "h b w -> b (w h)") = Ok (mkT [3; 4] [6; 10; 7; 11; 0; 2; 1; 3; 6; 10; 7; 11]%Z).
Proof.
  cbv zeta. split; [solve_reads (lit "h w ") (lit " (w h)")|]. split; [solve_reads (lit "h b w ") (lit " b (w h)")|].
  split; [constructor|]. split; [vm_compute; auto|]. split; [vm_compute; reflexivity|]. split; [vm_compute; reflexivity|].
  split. { split; [reflexivity|]. split; [reflexivity|]. intros [|[|[|i]]] j E; cbn in E; try discriminate E; try (destruct i; discriminate E); injection E as <-.
    - exists (mkT [2; 2] [6; 7; 10; 11]%Z). split; solve_slice 3.
    - exists (mkT [2; 2] [0; 1; 2; 3]%Z). split; solve_slice 3.
    - exists (mkT [2; 2] [6; 7; 10; 11]%Z). split; solve_slice 3. }
  split; vm_compute; reflexivity.
Qed.

(** EinMix with a bias, both elements of a batch exchanged *)
Example C104_einmix_case :
  let L1 := @nil item in let L2 := [dots3; grp [lit "h"; lit "c"]] in let R1 := [dots3] in let R2 := [grp [lit "d"; lit "h"]] in
  let sizes := [(lit "c", 3%Z); (lit "d", 2%Z); (lit "h", 2%Z)] in
  let len := fun a => match a with SpecPattern.LName s => if str_eqb s (lit "b") then 2 else mix_len a | _ => mix_len a end in
  let X' := mkT [2; 2; 6] (dat (iota [2; 6]) ++ repeat 1%Z 12) in
  let X := mkT [2; 2; 6] (repeat 1%Z 12 ++ dat (iota [2; 6])) in
  let c := Some (iota [2; 1]) in let c' := Some (iota [1; 2; 1]) in
  let f := ref_einsum Z.add Z.mul 0%Z 1%Z in let g := ref_iadd Z.add 0%Z in
  rank_fits (L1 ++ nm "b" :: L2) 3 1 /\
  fits len (left_groups 1 (L1 ++ nm "b" :: L2)) (right_groups 1 (L1 ++ nm "b" :: L2) (R1 ++ nm "b" :: R2)) (shp X) sizes /\
  selects (length (left_groups 1 L1)) [1; 0] X X' /\ length (right_groups 1 (L1 ++ L2) R1) = 1 /\
  exists M', EinMix ascii_unicode (fun _ => forward) (fun _ => backward) (lit "b ... (h c) -> ... b (d h)") (lit "h c d") (Some (lit "d")) sizes = Ok M' /\
    call_einmix numpy_like f g M' (iota [2; 3; 2]) c' X' = Ok (mkT [2; 2; 4] [10; 100; 14; 113; 6; 24; 10; 28; 46; 244; 68; 275; 6; 24; 10; 28]%Z) /\
    call_einmix numpy_like f g M' (iota [2; 3; 2]) c' X = Ok (mkT [2; 2; 4] [6; 24; 10; 28; 10; 100; 14; 113; 6; 24; 10; 28; 46; 244; 68; 275]%Z).
Proof.
  cbv zeta. split; [vm_compute; reflexivity|]. split; [solve_fits|].
  split. { change (length _) with 0. split; [reflexivity|]. split; [reflexivity|]. intros [|[|i]] j E; cbn in E; try discriminate E; try (destruct i; discriminate E); injection E as <-.
    - exists (iota [2; 6]). split; solve_slice 2.
    - exists (mkT [2; 6] (repeat 1%Z 12)). split; solve_slice 2. }
  split; [vm_compute; reflexivity|]. eexists. split; [vm_compute; reflexivity|]. split; vm_compute; reflexivity.
Qed.

(** matrices 2, 0, 2 times one vector *)
Example C104_einsum_case :
  let Ls := [[EName (lit "i"); EName (lit "j")]; [EName (lit "j")]] in
  let Ls' := [[EName (lit "i"); EName (lit "b"); EName (lit "j")]; [EName (lit "j")]] in
  let X := mkT [2; 3; 2] [0; 1; 4; 5; 6; 9; 2; 3; 8; 9; 10; 11]%Z in let X' := mkT [2; 3; 2] [6; 9; 0; 1; 6; 9; 10; 11; 2; 3; 10; 11]%Z in let v := mkT [2] [1; -1]%Z in
  let f := ref_einsum Z.add Z.mul 0%Z 1%Z in let p' := lit "i b j, j -> b i" in
  chosen (lit "b") [2; 0; 2] Ls Ls' [X; v] [X'; v] /\
  einsum_reads ascii_unicode p' Ls' ([] ++ EName (lit "b") :: [EName (lit "i")]) /\
  good_call (fun l => match l with SpecEinsum.LName s => if str_eqb s (lit "b") then 3 else 2 | LDot _ => 1 end)
    (map to_term Ls') (to_term ([] ++ EName (lit "b") :: [EName (lit "i")])) [X; v] /\
  einsum_with ascii_unicode f [inl X; inl v; inr p'] = Ok (mkT [3; 2] [-1; -1; -1; -1; -3; -1]%Z) /\
  einsum_with ascii_unicode f [inl X'; inl v; inr p'] = Ok (mkT [3; 2] [-3; -1; -1; -1; -3; -1]%Z).
Proof.
  cbv zeta. split; [|split; [|split]].
  - apply (chosen_more (lit "b") [2; 0; 2] [EName (lit "i")] [EName (lit "j")]); [|apply chosen_same; constructor].
    change (length _) with 1. split; [reflexivity|]. split; [reflexivity|]. intros [|[|[|i]]] j E; cbn in E; try discriminate E; try (destruct i; discriminate E); injection E as <-.
    + exists (mkT [2; 2] [6; 9; 10; 11]%Z). split; solve_slice 3.
    + exists (mkT [2; 2] [0; 1; 2; 3]%Z). split; solve_slice 3.
    + exists (mkT [2; 2] [6; 9; 10; 11]%Z). split; solve_slice 3.
  - exists [lit "i b j"; lit " j "], (lit " b i"). split; [reflexivity|]. split; [discriminate|]. split; [constructor; [|constructor; [|constructor]]|].
    + solve_lists [nm "i"; nm "b"; nm "j"].
    + solve_lists [nm "j"].
    + solve_lists [nm "b"; nm "i"].
  - split; [|split; [|split; [|split; [|split]]]].
    + constructor; [|constructor; [|constructor]]; (split; [reflexivity|split; [cbn; lia|repeat constructor]]).
    + cbn. solve_NoDup.
    + cbn. intros s H. unfold all_names, entry_names in *. cbn in *. tauto.
    + cbn. lia.
    + cbn. intros H. intuition discriminate.
    + cbn. intros k H. lia.
  - repeat (split; [vm_compute; reflexivity|]). vm_compute. reflexivity.
Qed.

(** elements 2 and 0 along the last axis, after the star *)
Example C104_pack_case :
  let T1 := iota [1; 2; 3] in let T2 := iota [1; 3] in let Z1 := mkT [1; 2; 2] [2; 0; 5; 3]%Z in let Z2 := mkT [1; 2] [2; 0]%Z in
  let X := mkT [1; 3; 3] [0; 1; 2; 3; 4; 5; 0; 1; 2]%Z in let V := mkT [1; 3; 2] [2; 0; 5; 3; 2; 0]%Z in
  let place := fun T : tensor Z => length (shp T) - 1 in
  pack_pattern ascii_unicode (lit "h * b") [lit "h"] [lit "b"] /\ dim_of (lit "b") [lit "h"] [lit "b"] place /\
  Forall2 (fun T Z => selects (place T) [2; 0] T Z) [T1; T2] [Z1; Z2] /\ selects (place X) [2; 0] X V /\
  pack numpy_like [T1; T2] (lit "h * b") = Ok (X, [[2]; []]%Z) /\ pack numpy_like [Z1; Z2] (lit "h * b") = Ok (V, [[2]; []]%Z) /\
  unpack numpy_like X [[2]; []]%Z (lit "h * b") = Ok [T1; T2] /\ unpack numpy_like V [[2]; []]%Z (lit "h * b") = Ok [Z1; Z2].
Proof.
  cbv zeta. split; [solve_pack|]. split; [exact (dim_after (lit "b") [lit "h"] [] [])|]. split; [|split].
  - constructor; [|constructor; [|constructor]]; (split; [reflexivity|]; split; [reflexivity|]; intros [|[|i]] j E; cbn in E; try discriminate E; try (destruct i; discriminate E); injection E as <-).
    + exists (mkT [1; 2] [2; 5]%Z). split; [solve_slice 2|solve_slice 3].
    + exists (mkT [1; 2] [0; 3]%Z). split; [solve_slice 2|solve_slice 3].
    + exists (mkT [1] [2]%Z). split; [solve_slice 2|solve_slice 3].
    + exists (mkT [1] [0]%Z). split; [solve_slice 2|solve_slice 3].
  - split; [reflexivity|]; split; [reflexivity|]; intros [|[|i]] j E; cbn in E; try discriminate E; try (destruct i; discriminate E); injection E as <-.
    + exists (mkT [1; 3] [2; 5; 2]%Z). split; [solve_slice 2|solve_slice 3].
    + exists (mkT [1; 3] [0; 3; 0]%Z). split; [solve_slice 2|solve_slice 3].
  - repeat split; vm_compute; reflexivity.
Qed.
