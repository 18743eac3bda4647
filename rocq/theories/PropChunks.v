(** * A batch in pieces: C103 *)
From Verif Require Import Py Tensor SpecSem SpecGrammar SpecForms SpecEinsum SpecPattern SpecOps SpecElements Parsing Compile Recipe Ops Backends Api SpecBatch SpecBatches SpecLinear
  Layers SpecLayers Einsum EinMix SpecEinMix BatchFacts ChunkFacts MixChunks EinsumChunks LayerFacts EinsumFacts4 MixFacts8 MixFacts9 Instances PropEinMix PropContraction PropEinsum SpecPacking Packing PropPacking PropBatches SpecChunks SpecSelect PackChunks ChunkEmpty ChunkEmptyMix EinsumChunksAll.

(** ** C103: pieces laid end to end along an axis that is alone on both sides: the call with the
    whole returns exactly when the calls with the pieces do and their results can be laid end to
    end, and this is its result. Pieces can be empty. *)
Theorem C103_operations : forall (A : Type) (r : runtime A) (b p p' : pystr) (L1 L2 R1 R2 : expr) (sizes : list (pystr * Z)) f (e : nat) (Xs : list (tensor A)) (X Y : tensor A),
  runtime_ok r -> b <> ell_name -> reads (rt_unicode r) p (L1 ++ L2) (R1 ++ R2) ->
  reads (rt_unicode r) p' (L1 ++ Atom (AName b) :: L2) (R1 ++ Atom (AName b) :: R2) ->
  ~ In b (map fst sizes) -> NoDup (map fst sizes) -> operation r p sizes f ->
  rank_fits (L1 ++ Atom (AName b) :: L2) (length (shp X)) e ->
  let k := length (left_groups e L1) in let k' := length (right_groups e (L1 ++ L2) R1) in
  t_concat Xs k = Ok X -> (forall x, In x Xs -> wf x) ->
  (f (One X) p' = Ok Y <-> exists Ys, Forall2 (fun x y => f (One x) p' = Ok y) Xs Ys /\ t_concat Ys k' = Ok Y).
Proof. exact (fun A r b p p' L1 L2 R1 R2 sizes f e Xs X Y Hok => op_chunks_all r Hok b p p' L1 L2 R1 R2 sizes f e Xs X Y). Qed.
Print Assumptions C103_operations.

(** the same for the layers *)
Theorem C103_rearrange_layer : forall (A : Type) (r : runtime A) (os : nat -> orders) (b p p' : pystr) (L1 L2 R1 R2 : expr) (sizes : list (pystr * Z)) (e : nat) (M : layer (tensor A)) (Xs : list (tensor A)) (X Y : tensor A),
  runtime_ok r -> (forall n, orders_ok (os n)) -> b <> ell_name -> reads (rt_unicode r) p (L1 ++ L2) (R1 ++ R2) ->
  reads (rt_unicode r) p' (L1 ++ Atom (AName b) :: L2) (R1 ++ Atom (AName b) :: R2) ->
  ~ In b (map fst sizes) -> NoDup (map fst sizes) -> no_reserved sizes -> Rearrange (rt_unicode r) os p' sizes = Ok M ->
  rank_fits (L1 ++ Atom (AName b) :: L2) (length (shp X)) e -> e < 8 ->
  let k := length (left_groups e L1) in let k' := length (right_groups e (L1 ++ L2) R1) in
  t_concat Xs k = Ok X -> (forall x, In x Xs -> wf x) ->
  (call_layer r M X = Ok Y <-> exists Ys, Forall2 (fun x y => call_layer r M x = Ok y) Xs Ys /\ t_concat Ys k' = Ok Y).
Proof.
  exact (fun A r os b p p' L1 L2 R1 R2 sizes e M Xs X Y Hok Hos Hb Hp Hp' Hs Hn Hr HM =>
    layer_chunks_all r Hok b p p' L1 L2 R1 R2 sizes _ e M Xs X Y Hb Hp Hp' Hs Hn (op_rearrange r p sizes) (rearrange_layer r Hok os p' sizes M Hos Hn Hr HM)).
Qed.
Print Assumptions C103_rearrange_layer.

Theorem C103_reduce_layer : forall (A : Type) (r : runtime A) (os : nat -> orders) (b p p' s : pystr) (L1 L2 R1 R2 : expr) (sizes : list (pystr * Z)) (e : nat) (M : layer (tensor A)) (Xs : list (tensor A)) (X Y : tensor A),
  runtime_ok r -> (forall n, orders_ok (os n)) -> b <> ell_name -> reads (rt_unicode r) p (L1 ++ L2) (R1 ++ R2) ->
  reads (rt_unicode r) p' (L1 ++ Atom (AName b) :: L2) (R1 ++ Atom (AName b) :: R2) ->
  ~ In b (map fst sizes) -> NoDup (map fst sizes) -> no_reserved sizes ->
  builtin s -> reduction_fits r s -> float_if_mean r s -> torch_fits r (RStr s) -> Reduce (rt_unicode r) os p' (RStr s) sizes = Ok M ->
  rank_fits (L1 ++ Atom (AName b) :: L2) (length (shp X)) e -> e < 8 ->
  let k := length (left_groups e L1) in let k' := length (right_groups e (L1 ++ L2) R1) in
  t_concat Xs k = Ok X -> (forall x, In x Xs -> wf x) ->
  (call_layer r M X = Ok Y <-> exists Ys, Forall2 (fun x y => call_layer r M x = Ok y) Xs Ys /\ t_concat Ys k' = Ok Y).
Proof.
  exact (fun A r os b p p' s L1 L2 R1 R2 sizes e M Xs X Y Hok Hos Hb Hp Hp' Hs Hn Hr Hbu Hrf Hfm Ht HM =>
    layer_chunks_all r Hok b p p' L1 L2 R1 R2 sizes _ e M Xs X Y Hb Hp Hp' Hs Hn (op_reduce r p sizes s Hbu Hrf Hfm) (reduce_layer r Hok os p' (RStr s) sizes M Hos Hn Hr Ht HM)).
Qed.
Print Assumptions C103_reduce_layer.

(** EinMix, with the same parameters for every piece *)
Theorem C103_einmix : forall (A : Type) (r : runtime A) (add mul : A -> A -> A) (zero one : A)
    (lib_einsum : pystr -> list (tensor A) -> result (tensor A)) (iadd : tensor A -> tensor A -> result (tensor A))
    (os os' : nat -> orders) (b p p' weight_text : pystr) (bias_text : option pystr) (sizes : list (pystr * Z)) (L1 L2 R1 R2 W : expr)
    (M M' : einmix (tensor A)) (e : nat) (len : label -> nat) (Xs : list (tensor A)) (X w : tensor A) (c c' : option (tensor A)),
  runtime_ok r -> (forall a b, add a b = add b a) -> (forall a b c, add a (add b c) = add (add a b) c) -> (forall a, mul a one = a) ->
  einsum_contract add mul zero one lib_einsum -> iadd_contract add iadd ->
  (forall n, orders_ok (os n)) -> (forall n, orders_ok (os' n)) -> NoDup (map fst sizes) ->
  b <> ell_name -> ~ In b (map fst sizes) ->
  let L := L1 ++ L2 in let R := R1 ++ R2 in
  let L' := L1 ++ Atom (AName b) :: L2 in let R' := R1 ++ Atom (AName b) :: R2 in
  reads (rt_unicode r) p L R -> reads (rt_unicode r) p' L' R' -> written (rt_unicode r) weight_text W ->
  plain L -> plain R -> plain L' -> plain R' -> plain W ->
  EinMix (rt_unicode r) os os' p weight_text bias_text sizes = Ok M ->
  EinMix (rt_unicode r) os os' p' weight_text bias_text sizes = Ok M' ->
  rank_fits L' (length (shp X)) e -> fits len (left_groups e L') (right_groups e L' R') (shp X) sizes ->
  (forall g, In g (left_groups e L') -> filter (unknown (map fst sizes)) g <> [] ->
     prodn (map len (filter (fun a => negb (unknown (map fst sizes) a)) g)) <> 0) ->
  (em_pre M <> None \/ em_post M <> None -> e < 8) -> (em_pre M' <> None \/ em_post M' <> None -> e < 8) ->
  wf w -> map Z.of_nat (shp w) = em_weight M' -> bias_of (em_bias M') c' -> bias_more (length (written_names R1)) c' c ->
  let k := length (left_groups e L1) in let k' := length (right_groups e L R1) in
  t_concat Xs k = Ok X -> (forall x, In x Xs -> wf x) ->
  exists Y Ys, call_einmix r lib_einsum iadd M' w c' X = Ok Y /\
    Forall2 (fun x y => call_einmix r lib_einsum iadd M' w c' x = Ok y) Xs Ys /\ t_concat Ys k' = Ok Y.
Proof.
  exact (fun A r add mul zero one lib iadd os os' b p p' wt bt sizes L1 L2 R1 R2 W M M' e len Xs X w c c' Hok Hc Ha H1 HC HI Ho Ho' Hn Hb Hs Hp Hp' HW PL PR PL' PR' PW HM HM' =>
    einmix_chunks_all add mul zero one Hc Ha H1 lib HC iadd HI r Hok os os' Ho Ho' b p p' wt bt sizes L1 L2 R1 R2 W Hb Hp Hp' Hs HW PL PR PL' PR' PW Hn M M' HM HM' e len Xs X w c c').
Qed.
Print Assumptions C103_einmix.

(** einsum: operands with the name are cut into pieces, the others go into every call *)
Theorem C103_einsum : forall (A : Type) (U : unicode) (add mul : A -> A -> A) (zero one : A)
    (lib : pystr -> list (tensor A) -> result (tensor A)) (p p' b : pystr) (ns : list nat) (len : lab pystr -> nat)
    (Ls Ls' : list (list entry)) (R1 R2 : list entry) (Xs : list (tensor A)) (Ps : list (list (tensor A))),
  unicode_ok U -> (forall a b, add a b = add b a) -> (forall a b c, add a (add b c) = add (add a b) c) ->
  einsum_contract add mul zero one lib ->
  einsum_reads U p Ls (R1 ++ R2) -> einsum_reads U p' Ls' (R1 ++ EName b :: R2) ->
  laid b ns Ls Ls' Xs Ps -> ~ In b (all_names Ls) -> length (distinct (all_names Ls')) <= 52 ->
  good_call len (map to_term Ls') (to_term (R1 ++ EName b :: R2)) Xs ->
  exists Y Ys, einsum_with U lib (map inl Xs ++ [inr p']) = Ok Y /\ length Ys = length ns /\
    (forall m xs y, piece m Ps xs -> nth_error Ys m = Some y -> einsum_with U lib (map inl xs ++ [inr p']) = Ok y) /\
    t_concat Ys (length (term_labs (list_max (map2 spare (map to_term Ls') Xs)) (to_term R1))) = Ok Y.
Proof. exact (fun A U add mul zero one lib p p' b ns len Ls Ls' R1 R2 Xs Ps HU Hc Ha HL => einsum_chunks_all U HU add mul zero one Hc Ha lib HL p p' b ns len Ls Ls' R1 R2 Xs Ps). Qed.
Print Assumptions C103_einsum.

(** pack: all tensors are cut in the same way; the packed pieces make up the packed tensor. unpack:
    the parts of the pieces make up the parts, if no named axis has length 0. *)
Theorem C103_pack : forall (A : Type) (r : runtime A) (w p : pystr) (ns : list nat) (before after : list pystr) (place : tensor A -> nat)
    (Ts : list (tensor A)) (Ps : list (list (tensor A))) (X : tensor A) (ps : list (list Z)),
  runtime_ok r -> pack_pattern (rt_unicode r) p before after -> dim_of w before after place -> (forall n, In n ns -> n <> 0) ->
  Forall2 (cut_at ns place) Ts Ps -> pack r Ts p = Ok (X, ps) ->
  exists Vs, length Vs = length ns /\ (forall m xs v, piece m Ps xs -> nth_error Vs m = Some v -> pack r xs p = Ok (v, ps)) /\
    t_concat Vs (place X) = Ok X.
Proof. exact (fun A r w p ns before after place Ts Ps X ps Hr Hp HD Hns => pack_chunks r Hr w ns Hns p before after place Ts Ps X ps Hp HD). Qed.
Print Assumptions C103_pack.
Theorem C103_unpack : forall (A : Type) (r : runtime A) (w p : pystr) (ns : list nat) (before after : list pystr) (place : tensor A -> nat)
    (X : tensor A) (Xs : list (tensor A)) (ps : list (list Z)) (b : list nat) (n : nat) (a : list nat) (Ts : list (tensor A)),
  runtime_ok r -> pack_pattern (rt_unicode r) p before after -> dim_of w before after place -> (forall n, In n ns -> n <> 0) ->
  shp X = b ++ [n] ++ a -> length b = length before -> length a = length after -> prodn (b ++ a) <> 0 ->
  ps <> [] -> (forall q, In q ps -> tame (rt_lib r) q) ->
  cut_at ns place X Xs -> unpack r X ps p = Ok Ts ->
  exists Pss, Forall2 (fun x parts => unpack r x ps p = Ok parts) Xs Pss /\
    forall q T P, nth_error Ts q = Some T -> Forall2 (fun parts z => nth_error parts q = Some z) Pss P -> t_concat P (place T) = Ok T.
Proof. exact (fun A r w p ns before after place X Xs ps b n a Ts Hr Hp HD Hns => unpack_chunks r Hr w ns Hns p before after place X Xs ps b n a Ts Hp HD). Qed.
Print Assumptions C103_unpack.

(** pieces of lengths 1, 0 and 2, along the second axis of the input and the first of the result *)
Example C103_case :
  let L1 := [nm "h"] in let L2 := [nm "w"] in let R1 := @nil item in let R2 := [grp [lit "w"; lit "h"]] in
  let x1 := mkT [2; 1; 2] [0; 1; 2; 3]%Z in let x0 := mkT [2; 0; 2] [] in let x2 := mkT [2; 2; 2] [4; 5; 6; 7; 8; 9; 10; 11]%Z in
  let X := mkT [2; 3; 2] [0; 1; 4; 5; 6; 7; 2; 3; 8; 9; 10; 11]%Z in
  let f := fun x q => rearrange numpy_like x q [] in
  reads ascii_unicode (lit "h w -> (w h)") (L1 ++ L2) (R1 ++ R2) /\
  reads ascii_unicode (lit "h b w -> b (w h)") (L1 ++ nm "b" :: L2) (R1 ++ nm "b" :: R2) /\
  operation numpy_like (lit "h w -> (w h)") [] f /\
  rank_fits (L1 ++ nm "b" :: L2) (length (shp X)) 0 /\ length (left_groups 0 L1) = 1 /\ length (right_groups 0 (L1 ++ L2) R1) = 0 /\
  t_concat [x1; x0; x2] 1 = Ok X /\ (forall x, In x [x1; x0; x2] -> wf x) /\
  f (One x1) (lit "h b w -> b (w h)") = Ok (mkT [1; 4] [0; 2; 1; 3]%Z) /\
  f (One x0) (lit "h b w -> b (w h)") = Ok (mkT [0; 4] []) /\
  f (One x2) (lit "h b w -> b (w h)") = Ok (mkT [2; 4] [4; 8; 5; 9; 6; 10; 7; 11]%Z) /\
  t_concat [mkT [1; 4] [0; 2; 1; 3]%Z; mkT [0; 4] []; mkT [2; 4] [4; 8; 5; 9; 6; 10; 7; 11]%Z] 0 = Ok (mkT [3; 4] [0; 2; 1; 3; 4; 8; 5; 9; 6; 10; 7; 11]%Z) /\
  f (One X) (lit "h b w -> b (w h)") = Ok (mkT [3; 4] [0; 2; 1; 3; 4; 8; 5; 9; 6; 10; 7; 11]%Z).
Proof.
  cbv zeta. split; [solve_reads (lit "h w ") (lit " (w h)")|]. split; [solve_reads (lit "h b w ") (lit " b (w h)")|].
  split; [constructor|]. split; [vm_compute; auto|]. split; [vm_compute; reflexivity|]. split; [vm_compute; reflexivity|].
  split; [vm_compute; reflexivity|]. split; [intros x [<-|[<-|[<-|[]]]]; reflexivity|].
  repeat (split; [vm_compute; reflexivity|]). vm_compute. reflexivity.
Qed.

(** an axis that gets into parentheses is not enough: the pieces are then not next to each other *)
Example C103_grouped :
  let x1 := mkT [2; 1] [0; 1]%Z in let x2 := mkT [2; 1] [2; 3]%Z in let X := mkT [2; 2] [0; 2; 1; 3]%Z in
  let f := fun x => rearrange numpy_like (One x) (lit "h b -> (h b)") [] in
  t_concat [x1; x2] 1 = Ok X /\ f X = Ok (mkT [4] [0; 2; 1; 3]%Z) /\ f x1 = Ok (mkT [2] [0; 1]%Z) /\ f x2 = Ok (mkT [2] [2; 3]%Z) /\
  t_concat [mkT [2] [0; 1]%Z; mkT [2] [2; 3]%Z] 0 = Ok (mkT [4] [0; 1; 2; 3]%Z).
Proof. cbv zeta. repeat (split; [vm_compute; reflexivity|]). vm_compute. reflexivity. Qed.

(** EinMix with a bias on pieces of lengths 1 and 1 *)
Example C103_einmix_case :
  let L1 := @nil item in let L2 := [dots3; grp [lit "h"; lit "c"]] in let R1 := [dots3] in let R2 := [grp [lit "d"; lit "h"]] in
  let sizes := [(lit "c", 3%Z); (lit "d", 2%Z); (lit "h", 2%Z)] in
  let len := fun a => match a with SpecPattern.LName s => if str_eqb s (lit "b") then 2 else mix_len a | _ => mix_len a end in
  let x1 := mkT [1; 2; 6] (repeat 1%Z 12) in let x2 := mkT [1; 2; 6] (dat (iota [2; 6])) in
  let X := mkT [2; 2; 6] (repeat 1%Z 12 ++ dat (iota [2; 6])) in
  let c := Some (iota [2; 1]) in let c' := Some (iota [1; 2; 1]) in
  let f := ref_einsum Z.add Z.mul 0%Z 1%Z in let g := ref_iadd Z.add 0%Z in
  rank_fits (L1 ++ nm "b" :: L2) 3 1 /\
  fits len (left_groups 1 (L1 ++ nm "b" :: L2)) (right_groups 1 (L1 ++ nm "b" :: L2) (R1 ++ nm "b" :: R2)) (shp X) sizes /\
  t_concat [x1; x2] (length (left_groups 1 L1)) = Ok X /\ length (right_groups 1 (L1 ++ L2) R1) = 1 /\
  exists M', EinMix ascii_unicode (fun _ => forward) (fun _ => backward) (lit "b ... (h c) -> ... b (d h)") (lit "h c d") (Some (lit "d")) sizes = Ok M' /\
    call_einmix numpy_like f g M' (iota [2; 3; 2]) c' x1 = Ok (mkT [2; 1; 4] [6; 24; 10; 28; 6; 24; 10; 28]%Z) /\
    call_einmix numpy_like f g M' (iota [2; 3; 2]) c' x2 = Ok (mkT [2; 1; 4] [10; 100; 14; 113; 46; 244; 68; 275]%Z) /\
    call_einmix numpy_like f g M' (iota [2; 3; 2]) c' X = Ok (mkT [2; 2; 4] [6; 24; 10; 28; 10; 100; 14; 113; 6; 24; 10; 28; 46; 244; 68; 275]%Z).
Proof.
  cbv zeta. split; [vm_compute; reflexivity|]. split; [solve_fits|].
  split; [vm_compute; reflexivity|]. split; [vm_compute; reflexivity|].
  eexists. split; [vm_compute; reflexivity|]. split; [vm_compute; reflexivity|]. split; vm_compute; reflexivity.
Qed.

(** matrices in pieces of 1 and 2 times one vector *)
Example C103_einsum_case :
  let Ls := [[EName (lit "i"); EName (lit "j")]; [EName (lit "j")]] in
  let Ls' := [[EName (lit "i"); EName (lit "b"); EName (lit "j")]; [EName (lit "j")]] in
  let x1 := mkT [2; 1; 2] [0; 1; 2; 3]%Z in let x2 := mkT [2; 2; 2] [4; 5; 6; 7; 8; 9; 10; 11]%Z in
  let X := mkT [2; 3; 2] [0; 1; 4; 5; 6; 7; 2; 3; 8; 9; 10; 11]%Z in let v := mkT [2] [1; -1]%Z in
  let f := ref_einsum Z.add Z.mul 0%Z 1%Z in let p' := lit "i b j, j -> b i" in
  laid (lit "b") [1; 2] Ls Ls' [X; v] [[x1; x2]; [v; v]] /\ piece 1 [[x1; x2]; [v; v]] [x2; v] /\
  einsum_reads ascii_unicode p' Ls' ([] ++ EName (lit "b") :: [EName (lit "i")]) /\
  good_call (fun l => match l with SpecEinsum.LName s => if str_eqb s (lit "b") then 3 else 2 | LDot _ => 1 end)
    (map to_term Ls') (to_term ([] ++ EName (lit "b") :: [EName (lit "i")])) [X; v] /\
  einsum_with ascii_unicode f [inl x1; inl v; inr p'] = Ok (mkT [1; 2] [-1; -1]%Z) /\
  einsum_with ascii_unicode f [inl x2; inl v; inr p'] = Ok (mkT [2; 2] [-1; -1; -1; -1]%Z) /\
  einsum_with ascii_unicode f [inl X; inl v; inr p'] = Ok (mkT [3; 2] [-1; -1; -1; -1; -1; -1]%Z).
Proof.
  cbv zeta. split; [|split; [|split; [|split]]].
  - apply (laid_more (lit "b") [1; 2] [EName (lit "i")] [EName (lit "j")] 1); [reflexivity|vm_compute; reflexivity|intros x [<-|[<-|[]]]; reflexivity|reflexivity|].
    apply (laid_same (lit "b") [1; 2]). constructor.
  - repeat constructor.
  - exists [lit "i b j"; lit " j "], (lit " b i"). split; [reflexivity|]. split; [discriminate|]. split; [constructor; [|constructor; [|constructor]]|].
    + solve_lists [nm "i"; nm "b"; nm "j"].
    + solve_lists [nm "j"].
    + solve_lists [nm "b"; nm "i"].
  - split; [|split; [|split; [|split; [|split]]]].
    + constructor; [|constructor; [|constructor]]; (split; [reflexivity|split; [cbn; lia|repeat constructor]]).
    + cbn. solve_NoDup.
    + cbn. intros s H. unfold all_names, entry_names in *. cbn in *. tauto.
    + cbn. lia.
    + cbn. intros H. intuition discriminate.
    + cbn. intros k H. lia.
  - repeat (split; [vm_compute; reflexivity|]). vm_compute. reflexivity.
Qed.

(** pieces of lengths 1 and 2 along the axis after the star *)
Example C103_pack_case :
  let T1 := iota [1; 2; 3] in let T2 := iota [1; 3] in
  let P1 := [mkT [1; 2; 1] [0; 3]%Z; mkT [1; 2; 2] [1; 2; 4; 5]%Z] in let P2 := [mkT [1; 1] [0]%Z; mkT [1; 2] [1; 2]%Z] in
  let X := mkT [1; 3; 3] [0; 1; 2; 3; 4; 5; 0; 1; 2]%Z in
  let Vs := [mkT [1; 3; 1] [0; 3; 0]%Z; mkT [1; 3; 2] [1; 2; 4; 5; 1; 2]%Z] in
  let place := fun T : tensor Z => length (shp T) - 1 in
  pack_pattern ascii_unicode (lit "h * b") [lit "h"] [lit "b"] /\ dim_of (lit "b") [lit "h"] [lit "b"] place /\
  Forall2 (cut_at [1; 2] place) [T1; T2] [P1; P2] /\ cut_at [1; 2] place X Vs /\
  pack numpy_like [T1; T2] (lit "h * b") = Ok (X, [[2]; []]%Z) /\
  pack numpy_like [mkT [1; 2; 1] [0; 3]%Z; mkT [1; 1] [0]%Z] (lit "h * b") = Ok (mkT [1; 3; 1] [0; 3; 0]%Z, [[2]; []]%Z) /\
  pack numpy_like [mkT [1; 2; 2] [1; 2; 4; 5]%Z; mkT [1; 2] [1; 2]%Z] (lit "h * b") = Ok (mkT [1; 3; 2] [1; 2; 4; 5; 1; 2]%Z, [[2]; []]%Z) /\
  unpack numpy_like (mkT [1; 3; 2] [1; 2; 4; 5; 1; 2]%Z) [[2]; []]%Z (lit "h * b") = Ok [mkT [1; 2; 2] [1; 2; 4; 5]%Z; mkT [1; 2] [1; 2]%Z].
Proof.
  cbv zeta. split; [solve_pack|]. split; [exact (dim_after (lit "b") [lit "h"] [] [])|].
  assert (W : forall P : list (tensor Z), forallb (fun x => length (dat x) =? prodn (shp x)) P = true -> forall x, In x P -> wf x)
    by (intros P H x Hx; rewrite forallb_forall in H; apply Nat.eqb_eq, H, Hx).
  split; [constructor; [|constructor; [|constructor]]; (split; [vm_compute; reflexivity|]; split; [apply W; reflexivity|reflexivity])|].
  split; [split; [vm_compute; reflexivity|]; split; [apply W; reflexivity|reflexivity]|].
  repeat split; vm_compute; reflexivity.
Qed.
