(** * C75: one more axis, in contractions and in packing *)
From Verif Require Import Py Tensor SpecSem SpecGrammar SpecForms SpecPattern SpecOps SpecShape SpecElements SpecBatch SpecBatches SpecPacking SpecEinMix SpecLinear
  Parsing Recipe Ops Backends Einsum Packing Api Layers EinMix EinsumFacts4 MixFacts8 MixFacts9 PackFacts EinsumBatch PackBatch MixBatch Instances PropEinsum PropEinMix PropContraction SpecEinsum.

(** einsum: operands whose terms get the name [b] are batches; the slice of the result is
    the result for the slices. The call for the slices is then a good one too. *)
Theorem C75_einsum : forall (A : Type) (U : unicode) (add mul : A -> A -> A) (zero one : A)
    (lib : pystr -> list (tensor A) -> result (tensor A))
    (p p' b : pystr) (i : nat) (len : lab pystr -> nat) (Ls Ls' : list (list entry)) (R1 R2 : list entry) (xs Xs : list (tensor A)),
  unicode_ok U -> (forall a b, add a b = add b a) -> (forall a b c, add a (add b c) = add (add a b) c) ->
  einsum_contract add mul zero one lib ->
  einsum_reads U p Ls (R1 ++ R2) -> einsum_reads U p' Ls' (R1 ++ EName b :: R2) ->
  batch_of b i Ls Ls' xs Xs -> ~ In b (all_names Ls) -> length (distinct (all_names Ls')) <= 52 ->
  good_call len (map to_term Ls') (to_term (R1 ++ EName b :: R2)) Xs ->
  exists Y y, einsum_with U lib (map inl Xs ++ [inr p']) = Ok Y /\ einsum_with U lib (map inl xs ++ [inr p]) = Ok y /\
    slice_of (length (term_labs (list_max (map2 spare (map to_term Ls) xs)) (to_term R1))) i Y y /\
    count_at (length (term_labs (list_max (map2 spare (map to_term Ls) xs)) (to_term R1))) Y = len (LName b).
Proof. exact (fun A U add mul zero one lib p p' b i len Ls Ls' R1 R2 xs Xs HU Hc Ha HL => einsum_batch U HU add mul zero one Hc Ha lib HL p p' b i len Ls Ls' R1 R2 xs Xs). Qed.
Print Assumptions C75_einsum.

(** pack: slices of the tensors make up the slice of the packed tensor, with the same shapes *)
Theorem C75_pack : forall (A : Type) (r : runtime A) (p p' : pystr) (before after before' after' : list pystr) (place : tensor A -> nat)
    (i : nat) (Ts ts : list (tensor A)) (X : tensor A) (ps : list (list Z)),
  runtime_ok r -> pack_pattern (rt_unicode r) p before after -> pack_pattern (rt_unicode r) p' before' after' ->
  one_more before after before' after' place ->
  Forall2 (fun T t => slice_of (place t) i T t) Ts ts -> pack r Ts p' = Ok (X, ps) ->
  exists x, pack r ts p = Ok (x, ps) /\ slice_of (place x) i X x.
Proof. exact (fun A r p p' before after before' after' place i Ts ts X ps Hr => pack_batch r Hr p p' before after before' after' place i Ts ts X ps). Qed.
Print Assumptions C75_pack.

(** unpack: the parts of a slice are the slices of the parts *)
Theorem C75_unpack : forall (A : Type) (r : runtime A) (p p' : pystr) (before after before' after' : list pystr) (place : tensor A -> nat)
    (i : nat) (X x : tensor A) (ps : list (list Z)) (b : list nat) (n : nat) (a : list nat) (Ts : list (tensor A)),
  runtime_ok r -> pack_pattern (rt_unicode r) p before after -> pack_pattern (rt_unicode r) p' before' after' ->
  one_more before after before' after' place ->
  shp x = b ++ [n] ++ a -> length b = length before -> length a = length after -> prodn (b ++ a) <> 0 ->
  ps <> [] -> (forall q, In q ps -> tame (rt_lib r) q) ->
  slice_of (place x) i X x -> unpack r X ps p' = Ok Ts ->
  exists ts, unpack r x ps p = Ok ts /\ Forall2 (fun T t => slice_of (place t) i T t) Ts ts.
Proof. exact (fun A r p p' before after before' after' place i X x ps b n a Ts Hr => unpack_batch r Hr p p' before after before' after' place i X x ps b n a Ts). Qed.
Print Assumptions C75_unpack.

(** EinMix: a layer with one more name, alone on both sides, is the layer without it,
    with the same parameters, on each slice *)
Theorem C75_einmix : forall (A : Type) (r : runtime A) (add mul : A -> A -> A) (zero one : A)
    (lib_einsum : pystr -> list (tensor A) -> result (tensor A)) (iadd : tensor A -> tensor A -> result (tensor A))
    (os os' : nat -> orders) (b p p' weight_text : pystr) (bias_text : option pystr) (sizes : list (pystr * Z)) (L1 L2 R1 R2 W : expr)
    (M M' : einmix (tensor A)) (e : nat) (len : label -> nat) (X x w : tensor A) (c c' : option (tensor A)) (i : nat),
  runtime_ok r -> (forall a b, add a b = add b a) -> (forall a b c, add a (add b c) = add (add a b) c) -> (forall a, mul a one = a) ->
  einsum_contract add mul zero one lib_einsum -> iadd_contract add iadd ->
  (forall n, orders_ok (os n)) -> (forall n, orders_ok (os' n)) -> NoDup (map fst sizes) ->
  b <> ell_name -> ~ In b (map fst sizes) ->
  let L := L1 ++ L2 in let R := R1 ++ R2 in
  let L' := L1 ++ Atom (AName b) :: L2 in let R' := R1 ++ Atom (AName b) :: R2 in
  reads (rt_unicode r) p L R -> reads (rt_unicode r) p' L' R' -> written (rt_unicode r) weight_text W ->
  plain L -> plain R -> plain L' -> plain R' -> plain W ->
  EinMix (rt_unicode r) os os' p weight_text bias_text sizes = Ok M ->
  EinMix (rt_unicode r) os os' p' weight_text bias_text sizes = Ok M' ->
  rank_fits L (length (shp x)) e -> fits len (left_groups e L') (right_groups e L' R') (shp X) sizes ->
  (forall g, In g (left_groups e L') -> filter (unknown (map fst sizes)) g <> [] ->
     prodn (map len (filter (fun a => negb (unknown (map fst sizes) a)) g)) <> 0) ->
  (em_pre M <> None \/ em_post M <> None -> e < 8) -> (em_pre M' <> None \/ em_post M' <> None -> e < 8) ->
  slice_of (length (left_groups e L1)) i X x -> wf w -> map Z.of_nat (shp w) = em_weight M' ->
  bias_of (em_bias M') c' -> bias_more (length (written_names R1)) c' c ->
  map Z.of_nat (shp w) = em_weight M /\ bias_of (em_bias M) c /\
  exists Y y, call_einmix r lib_einsum iadd M' w c' X = Ok Y /\ call_einmix r lib_einsum iadd M w c x = Ok y /\
    slice_of (length (right_groups e L R1)) i Y y /\ count_at (length (right_groups e L R1)) Y = count_at (length (left_groups e L1)) X.
Proof.
  exact (fun A r add mul zero one lib iadd os os' b p p' wt bt sizes L1 L2 R1 R2 W M M' e len X x w c c' i Hok Hc Ha H1 HC HI Ho Ho' Hn Hb Hs Hp Hp' HW PL PR PL' PR' PW HM HM' =>
    einmix_batch add mul zero one Hc Ha H1 lib HC iadd HI r Hok os os' Ho Ho' b p p' wt bt sizes L1 L2 R1 R2 W Hb Hp Hp' Hs HW PL PR PL' PR' PW Hn M M' HM HM' e len X x w c c' i).
Qed.
Print Assumptions C75_einmix.

(** ** Cases *)
Ltac solve_pack :=
  lazymatch goal with |- pack_pattern _ ?s _ _ =>
    split; [exact (words_complete ascii_unicode s)|]; split; [cbn [app]; solve_NoDup|];
    cbn [app]; repeat constructor; try discriminate; intros ?H; discriminate end.
Ltac solve_slice n :=
  split; [reflexivity|]; split; [reflexivity|]; split; [cbn; lia|]; split; [exists n; split; [lia|reflexivity]|];
  let idx := fresh in let H := fresh in intros idx H; cbn [shp length] in H;
  repeat (destruct idx as [|? idx]; [try discriminate H|]; try discriminate H);
  cbn [shp firstn skipn app length]; unfold get, iota; cbn [shp dat inb];
  repeat match goal with |- context [?k <? ?m] => is_var k; do 8 (try destruct k as [|k]); try reflexivity end.

(** slice 1 of a batch of matrices times one vector *)
Example C75_einsum_case :
  let Ls := [[EName (lit "i"); EName (lit "j")]; [EName (lit "j")]] in
  let Ls' := [[EName (lit "i"); EName (lit "b"); EName (lit "j")]; [EName (lit "j")]] in
  let X := iota [2; 2; 3] in let x := mkT [2; 3] [3; 4; 5; 9; 10; 11]%Z in let v := mkT [3] [1; -1; 2]%Z in
  let f := ref_einsum Z.add Z.mul 0%Z 1%Z in
  einsum_reads ascii_unicode (lit "i j, j -> i") Ls ([] ++ [EName (lit "i")]) /\
  einsum_reads ascii_unicode (lit "i b j, j -> b i") Ls' ([] ++ EName (lit "b") :: [EName (lit "i")]) /\
  batch_of (lit "b") 1 Ls Ls' [x; v] [X; v] /\ ~ In (lit "b") (all_names Ls) /\
  good_call (fun l => match l with SpecEinsum.LName s => if str_eqb s (lit "j") then 3 else 2 | LDot _ => 1 end)
    (map to_term Ls') (to_term ([] ++ EName (lit "b") :: [EName (lit "i")])) [X; v] /\
  einsum_with ascii_unicode f [inl X; inl v; inr (lit "i b j, j -> b i")] = Ok (mkT [2; 2] [3; 15; 9; 21]%Z) /\
  einsum_with ascii_unicode f [inl x; inl v; inr (lit "i j, j -> i")] = Ok (mkT [2] [9; 21]%Z).
Proof.
  cbv zeta. split; [|split; [|split; [|split; [|split]]]].
  - exists [lit "i j"; lit " j "], (lit " i"). split; [reflexivity|]. split; [discriminate|]. split; [constructor; [|constructor; [|constructor]]|].
    + solve_lists [nm "i"; nm "j"].
    + solve_lists [nm "j"].
    + solve_lists [nm "i"].
  - exists [lit "i b j"; lit " j "], (lit " b i"). split; [reflexivity|]. split; [discriminate|]. split; [constructor; [|constructor; [|constructor]]|].
    + solve_lists [nm "i"; nm "b"; nm "j"].
    + solve_lists [nm "j"].
    + solve_lists [nm "b"; nm "i"].
  - apply (batch_more (lit "b") 1 [EName (lit "i")] [EName (lit "j")]); [|apply batch_same; constructor].
    cbn [length term_labs to_term map flat_map app]. solve_slice 2.
  - cbn. intros H. intuition discriminate.
  - split; [|split; [|split; [|split; [|split]]]].
    + constructor; [|constructor; [|constructor]]; (split; [reflexivity|split; [cbn; lia|repeat constructor]]).
    + cbn. solve_NoDup.
    + cbn. intros s H. unfold all_names, entry_names in *. cbn in *. tauto.
    + cbn. lia.
    + cbn. intros H. intuition discriminate.
    + cbn. intros k H. lia.
  - split; vm_compute; reflexivity.
Qed.

(** an axis before and an axis after the star *)
Example C75_pack_case :
  pack_pattern ascii_unicode (lit "h * c") [lit "h"] [lit "c"] /\
  pack_pattern ascii_unicode (lit "h b * c") ([lit "h"] ++ lit "b" :: []) [lit "c"] /\
  pack_pattern ascii_unicode (lit "h * b c") [lit "h"] ([] ++ lit "b" :: [lit "c"]) /\
  (let X1 := iota [1; 2; 3; 1] in let X2 := iota [1; 2; 1] in
   slice_of 1 1 X1 (mkT [1; 3; 1] [3; 4; 5]%Z) /\ slice_of 1 1 X2 (mkT [1; 1] [1]%Z) /\
   pack numpy_like [X1; X2] (lit "h b * c") = Ok (mkT [1; 2; 4; 1] [0; 1; 2; 0; 3; 4; 5; 1]%Z, [[3]; []]%Z) /\
   pack numpy_like [mkT [1; 3; 1] [3; 4; 5]%Z; mkT [1; 1] [1]%Z] (lit "h * c") = Ok (mkT [1; 4; 1] [3; 4; 5; 1]%Z, [[3]; []]%Z) /\
   unpack numpy_like (mkT [1; 2; 4; 1] [0; 1; 2; 0; 3; 4; 5; 1]%Z) [[3]; []]%Z (lit "h b * c") = Ok [X1; X2] /\
   unpack numpy_like (mkT [1; 4; 1] [3; 4; 5; 1]%Z) [[3]; []]%Z (lit "h * c") = Ok [mkT [1; 3; 1] [3; 4; 5]%Z; mkT [1; 1] [1]%Z]) /\
  (let X1 := iota [1; 3; 2; 1] in let X2 := iota [1; 2; 1] in
   slice_of 2 1 X1 (mkT [1; 3; 1] [1; 3; 5]%Z) /\ slice_of 1 1 X2 (mkT [1; 1] [1]%Z) /\
   pack numpy_like [X1; X2] (lit "h * b c") = Ok (mkT [1; 4; 2; 1] [0; 1; 2; 3; 4; 5; 0; 1]%Z, [[3]; []]%Z) /\
   pack numpy_like [mkT [1; 3; 1] [1; 3; 5]%Z; mkT [1; 1] [1]%Z] (lit "h * c") = Ok (mkT [1; 4; 1] [1; 3; 5; 1]%Z, [[3]; []]%Z)).
Proof.
  split; [solve_pack|]. split; [solve_pack|]. split; [solve_pack|]. cbv zeta. split.
  - split; [solve_slice 2|]. split; [solve_slice 2|]. repeat split; vm_compute; reflexivity.
  - split; [solve_slice 2|]. split; [solve_slice 2|]. repeat split; vm_compute; reflexivity.
Qed.

(** a batch in front of the ellipsis; the bias is per output channel *)
Example C75_einmix_case :
  let L1 := @nil item in let L2 := [dots3; grp [lit "h"; lit "c"]] in let R1 := [dots3] in let R2 := [grp [lit "d"; lit "h"]] in
  let sizes := [(lit "c", 3%Z); (lit "d", 2%Z); (lit "h", 2%Z)] in
  let len := fun a => match a with SpecPattern.LName s => if str_eqb s (lit "b") then 2 else mix_len a | _ => mix_len a end in
  let X := mkT [2; 2; 6] (repeat 1%Z 12 ++ dat (iota [2; 6])) in
  let c := Some (iota [2; 1]) in let c' := Some (iota [1; 2; 1]) in
  let f := ref_einsum Z.add Z.mul 0%Z 1%Z in let g := ref_iadd Z.add 0%Z in
  reads ascii_unicode (lit "... (h c) -> ... (d h)") (L1 ++ L2) (R1 ++ R2) /\
  reads ascii_unicode (lit "b ... (h c) -> ... b (d h)") (L1 ++ nm "b" :: L2) (R1 ++ nm "b" :: R2) /\
  rank_fits (L1 ++ L2) 2 1 /\
  fits len (left_groups 1 (L1 ++ nm "b" :: L2)) (right_groups 1 (L1 ++ nm "b" :: L2) (R1 ++ nm "b" :: R2)) (shp X) sizes /\
  slice_of (length (left_groups 1 L1)) 1 X (iota [2; 6]) /\ bias_more (length (written_names R1)) c' c /\
  exists M M', EinMix ascii_unicode (fun _ => forward) (fun _ => backward) (lit "... (h c) -> ... (d h)") (lit "h c d") (Some (lit "d")) sizes = Ok M /\
    EinMix ascii_unicode (fun _ => forward) (fun _ => backward) (lit "b ... (h c) -> ... b (d h)") (lit "h c d") (Some (lit "d")) sizes = Ok M' /\
    em_weight M' = [2; 3; 2]%Z /\ bias_of (em_bias M') c' /\ em_bias M = Some [2; 1]%Z /\
    call_einmix numpy_like f g M (iota [2; 3; 2]) c (iota [2; 6]) = Ok (mkT [2; 4] [10; 100; 14; 113; 46; 244; 68; 275]%Z) /\
    call_einmix numpy_like f g M' (iota [2; 3; 2]) c' X = Ok (mkT [2; 2; 4] [6; 24; 10; 28; 10; 100; 14; 113; 6; 24; 10; 28; 46; 244; 68; 275]%Z).
Proof.
  cbv zeta. split; [solve_reads (lit "... (h c) ") (lit " ... (d h)")|]. split; [solve_reads (lit "b ... (h c) ") (lit " ... b (d h)")|].
  split; [vm_compute; reflexivity|]. split; [solve_fits|].
  split. { cbn [left_groups length groups]. solve_slice 2. }
  split. { change (bias_more 0 (Some (iota [1; 2; 1])) (Some (iota [2; 1]))). split; [reflexivity|]. solve_slice 1. }
  eexists. eexists. split; [vm_compute; reflexivity|]. split; [vm_compute; reflexivity|]. split; [reflexivity|].
  split; [exists (iota [1; 2; 1]); repeat split|]. split; [reflexivity|]. split; vm_compute; reflexivity.
Qed.
