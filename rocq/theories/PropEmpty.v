(** * Choosing nothing from a batch: C104 *)
From Verif Require Import Py Tensor SpecSem SpecGrammar SpecForms SpecEinsum SpecPattern SpecOps SpecElements Parsing Compile Recipe Ops Backends Api SpecBatch SpecBatches SpecLinear
  Layers SpecLayers Einsum EinMix SpecEinMix BatchFacts LayerFacts EinsumFacts4 MixFacts8 MixFacts9 Instances PropEinMix PropContraction PropEinsum SpecPacking Packing PackFacts PropPacking PropBatches SpecEmpty BatchEmpty BatchEmptyMix EinsumEmpty.

(** ** C104: choosing no elements of a batch before the operation is choosing none of the result. A
    call that returns on the whole batch returns on an empty one too. *)
Theorem C104_empty_operations : forall (A : Type) (r : runtime A) (b p p' : pystr) (L1 L2 R1 R2 : expr) (sizes : list (pystr * Z)) f (e : nat) (X Y X' : tensor A),
  runtime_ok r -> b <> ell_name -> reads (rt_unicode r) p (L1 ++ L2) (R1 ++ R2) ->
  reads (rt_unicode r) p' (L1 ++ Atom (AName b) :: L2) (R1 ++ Atom (AName b) :: R2) ->
  ~ In b (map fst sizes) -> NoDup (map fst sizes) -> SpecBatch.operation r p sizes f ->
  rank_fits (L1 ++ Atom (AName b) :: L2) (length (shp X)) e ->
  let k := length (left_groups e L1) in let k' := length (right_groups e (L1 ++ L2) R1) in
  emptied k X X' -> f (One X) p' = Ok Y -> exists Y', f (One X') p' = Ok Y' /\ emptied k' Y Y'.
Proof. exact (fun A r b p p' L1 L2 R1 R2 sizes f e X Y X' Hok => op_empty r Hok b p p' L1 L2 R1 R2 sizes f e X Y X'). Qed.
Print Assumptions C104_empty_operations.

(** there is exactly one such choice along every dimension *)
Theorem C104_empty_choice : forall (A : Type) (k : nat) (X : tensor A),
  wf X -> k < length (shp X) -> exists X', emptied k X X' /\ forall X'', emptied k X X'' -> X'' = X'.
Proof. exact (fun A k X => emptied_exists k X). Qed.
Print Assumptions C104_empty_choice.

(** the same for the layers *)
Theorem C104_empty_rearrange_layer : forall (A : Type) (r : runtime A) (os : nat -> orders) (b p p' : pystr) (L1 L2 R1 R2 : expr) (sizes : list (pystr * Z)) (e : nat) (M : layer (tensor A)) (X Y X' : tensor A),
  runtime_ok r -> (forall n, orders_ok (os n)) -> b <> ell_name -> reads (rt_unicode r) p (L1 ++ L2) (R1 ++ R2) ->
  reads (rt_unicode r) p' (L1 ++ Atom (AName b) :: L2) (R1 ++ Atom (AName b) :: R2) ->
  ~ In b (map fst sizes) -> NoDup (map fst sizes) -> no_reserved sizes -> Rearrange (rt_unicode r) os p' sizes = Ok M ->
  rank_fits (L1 ++ Atom (AName b) :: L2) (length (shp X)) e -> e < 8 ->
  let k := length (left_groups e L1) in let k' := length (right_groups e (L1 ++ L2) R1) in
  emptied k X X' -> call_layer r M X = Ok Y -> exists Y', call_layer r M X' = Ok Y' /\ emptied k' Y Y'.
Proof.
  exact (fun A r os b p p' L1 L2 R1 R2 sizes e M X Y X' Hok Hos Hb Hp Hp' Hs Hn Hr HM =>
    layer_empty r Hok b p p' L1 L2 R1 R2 sizes _ e M X Y X' Hb Hp Hp' Hs Hn (op_rearrange r p sizes) (rearrange_layer r Hok os p' sizes M Hos Hn Hr HM)).
Qed.
Print Assumptions C104_empty_rearrange_layer.

Theorem C104_empty_reduce_layer : forall (A : Type) (r : runtime A) (os : nat -> orders) (b p p' s : pystr) (L1 L2 R1 R2 : expr) (sizes : list (pystr * Z)) (e : nat) (M : layer (tensor A)) (X Y X' : tensor A),
  runtime_ok r -> (forall n, orders_ok (os n)) -> b <> ell_name -> reads (rt_unicode r) p (L1 ++ L2) (R1 ++ R2) ->
  reads (rt_unicode r) p' (L1 ++ Atom (AName b) :: L2) (R1 ++ Atom (AName b) :: R2) ->
  ~ In b (map fst sizes) -> NoDup (map fst sizes) -> no_reserved sizes ->
  builtin s -> reduction_fits r s -> float_if_mean r s -> torch_fits r (RStr s) -> Reduce (rt_unicode r) os p' (RStr s) sizes = Ok M ->
  rank_fits (L1 ++ Atom (AName b) :: L2) (length (shp X)) e -> e < 8 ->
  let k := length (left_groups e L1) in let k' := length (right_groups e (L1 ++ L2) R1) in
  emptied k X X' -> call_layer r M X = Ok Y -> exists Y', call_layer r M X' = Ok Y' /\ emptied k' Y Y'.
Proof.
  exact (fun A r os b p p' s L1 L2 R1 R2 sizes e M X Y X' Hok Hos Hb Hp Hp' Hs Hn Hr Hbu Hrf Hfm Ht HM =>
    layer_empty r Hok b p p' L1 L2 R1 R2 sizes _ e M X Y X' Hb Hp Hp' Hs Hn (op_reduce r p sizes s Hbu Hrf Hfm) (reduce_layer r Hok os p' (RStr s) sizes M Hos Hn Hr Ht HM)).
Qed.
Print Assumptions C104_empty_reduce_layer.

(** EinMix *)
Theorem C104_empty_einmix : forall (A : Type) (r : runtime A) (add mul : A -> A -> A) (zero one : A)
    (lib_einsum : pystr -> list (tensor A) -> result (tensor A)) (iadd : tensor A -> tensor A -> result (tensor A))
    (os os' : nat -> orders) (b p p' weight_text : pystr) (bias_text : option pystr) (sizes : list (pystr * Z)) (L1 L2 R1 R2 W : expr)
    (M' : einmix (tensor A)) (e : nat) (len : label -> nat) (X X' w : tensor A) (c' : option (tensor A)),
  runtime_ok r -> (forall a b, add a b = add b a) -> (forall a b c, add a (add b c) = add (add a b) c) -> (forall a, mul a one = a) ->
  einsum_contract add mul zero one lib_einsum -> iadd_contract add iadd ->
  (forall n, orders_ok (os n)) -> (forall n, orders_ok (os' n)) -> NoDup (map fst sizes) ->
  b <> ell_name -> ~ In b (map fst sizes) ->
  let L := L1 ++ L2 in let R := R1 ++ R2 in
  let L' := L1 ++ Atom (AName b) :: L2 in let R' := R1 ++ Atom (AName b) :: R2 in
  reads (rt_unicode r) p L R -> reads (rt_unicode r) p' L' R' -> written (rt_unicode r) weight_text W ->
  plain L' -> plain R' -> plain W ->
  EinMix (rt_unicode r) os os' p' weight_text bias_text sizes = Ok M' ->
  rank_fits L' (length (shp X)) e -> fits len (left_groups e L') (right_groups e L' R') (shp X) sizes ->
  (forall g, In g (left_groups e L') -> filter (unknown (map fst sizes)) g <> [] ->
     prodn (map len (filter (fun a => negb (unknown (map fst sizes) a)) g)) <> 0) ->
  (em_pre M' <> None \/ em_post M' <> None -> e < 8) ->
  wf w -> map Z.of_nat (shp w) = em_weight M' -> bias_of (em_bias M') c' ->
  let k := length (left_groups e L1) in let k' := length (right_groups e L R1) in
  emptied k X X' ->
  exists Y Y', call_einmix r lib_einsum iadd M' w c' X = Ok Y /\ call_einmix r lib_einsum iadd M' w c' X' = Ok Y' /\ emptied k' Y Y'.
Proof.
  exact (fun A r add mul zero one lib iadd os os' b p p' wt bt sizes L1 L2 R1 R2 W M' e len X X' w c' Hok Hc Ha H1 HC HI Ho Ho' Hn Hb Hs Hp Hp' HW PL' PR' PW HM' =>
    einmix_empty add mul zero one Hc Ha H1 lib HC iadd HI r Hok os os' Ho Ho' b p p' wt bt sizes L1 L2 R1 R2 W Hb Hp Hp' Hs HW PL' PR' PW Hn M' HM' e len X X' w c').
Qed.
Print Assumptions C104_empty_einmix.

(** einsum: no elements of any operand with the name *)
Theorem C104_empty_einsum : forall (A : Type) (U : unicode) (add mul : A -> A -> A) (zero one : A)
    (lib : pystr -> list (tensor A) -> result (tensor A)) (p' b : pystr) (len : lab pystr -> nat)
    (Ls Ls' : list (list entry)) (R1 R2 : list entry) (Xs Xs' : list (tensor A)),
  unicode_ok U -> (forall a b, add a b = add b a) -> (forall a b c, add a (add b c) = add (add a b) c) ->
  einsum_contract add mul zero one lib ->
  einsum_reads U p' Ls' (R1 ++ EName b :: R2) ->
  emptied_all b Ls Ls' Xs Xs' -> ~ In b (all_names Ls) -> length (distinct (all_names Ls')) <= 52 ->
  good_call len (map to_term Ls') (to_term (R1 ++ EName b :: R2)) Xs ->
  exists Y Y', einsum_with U lib (map inl Xs ++ [inr p']) = Ok Y /\ einsum_with U lib (map inl Xs' ++ [inr p']) = Ok Y' /\
    emptied (length (term_labs (list_max (map2 spare (map to_term Ls') Xs)) (to_term R1))) Y Y'.
Proof. exact (fun A U add mul zero one lib p' b len Ls Ls' R1 R2 Xs Xs' HU Hc Ha HL => einsum_empty b U HU add mul zero one Hc Ha lib HL p' len Ls Ls' R1 R2 Xs Xs'). Qed.
Print Assumptions C104_empty_einsum.

(** ** Cases *)
(** nothing along the second axis of the input and the first of the result; the maximum over the
    axes that are not empty *)
Example C104_empty_case :
  let L1 := [nm "h"] in let L2 := [nm "w"] in let R1 := @nil item in let R2 := [grp [lit "w"; lit "h"]] in
  let X := iota [2; 3; 2] in let X' := mkT [2; 0; 2] [] in
  let f := fun x q => rearrange numpy_like x q [] in
  reads ascii_unicode (lit "h w -> (w h)") (L1 ++ L2) (R1 ++ R2) /\
  reads ascii_unicode (lit "h b w -> b (w h)") (L1 ++ nm "b" :: L2) (R1 ++ nm "b" :: R2) /\
  SpecBatch.operation numpy_like (lit "h w -> (w h)") [] f /\
  rank_fits (L1 ++ nm "b" :: L2) (length (shp X)) 0 /\ length (left_groups 0 L1) = 1 /\ length (right_groups 0 (L1 ++ L2) R1) = 0 /\
  emptied 1 X X' /\
  (exists Y, f (One X) (lit "h b w -> b (w h)") = Ok Y /\ shp Y = [3; 4]) /\
  f (One X') (lit "h b w -> b (w h)") = Ok (mkT [0; 4] []) /\
  reduce numpy_like (One X') (lit "h b w -> b") (RStr (lit "max")) [] = Ok (mkT [0] []).
Proof.
  cbv zeta. split; [solve_reads (lit "h w ") (lit " (w h)")|]. split; [solve_reads (lit "h b w ") (lit " b (w h)")|].
  split; [constructor|]. split; [vm_compute; auto|]. split; [vm_compute; reflexivity|]. split; [vm_compute; reflexivity|].
  split. { split; [reflexivity|]. split; [reflexivity|]. exists [2; 2], 3. split; [cbn; lia|]. split; reflexivity. }
  split; [eexists; split; vm_compute; reflexivity|]. split; vm_compute; reflexivity.
Qed.

(** EinMix with a bias *)
Example C104_empty_einmix_case :
  let L1 := @nil item in let L2 := [dots3; grp [lit "h"; lit "c"]] in let R1 := [dots3] in let R2 := [grp [lit "d"; lit "h"]] in
  let sizes := [(lit "c", 3%Z); (lit "d", 2%Z); (lit "h", 2%Z)] in
  let len := fun a => match a with SpecPattern.LName s => if str_eqb s (lit "b") then 2 else mix_len a | _ => mix_len a end in
  let X := iota [2; 2; 6] in let X' := mkT [0; 2; 6] [] in let c' := Some (iota [1; 2; 1]) in
  let f := ref_einsum Z.add Z.mul 0%Z 1%Z in let g := ref_iadd Z.add 0%Z in
  rank_fits (L1 ++ nm "b" :: L2) 3 1 /\
  fits len (left_groups 1 (L1 ++ nm "b" :: L2)) (right_groups 1 (L1 ++ nm "b" :: L2) (R1 ++ nm "b" :: R2)) (shp X) sizes /\
  emptied (length (left_groups 1 L1)) X X' /\ length (right_groups 1 (L1 ++ L2) R1) = 1 /\
  exists M', EinMix ascii_unicode (fun _ => forward) (fun _ => backward) (lit "b ... (h c) -> ... b (d h)") (lit "h c d") (Some (lit "d")) sizes = Ok M' /\
    (exists Y, call_einmix numpy_like f g M' (iota [2; 3; 2]) c' X = Ok Y /\ shp Y = [2; 2; 4]) /\
    call_einmix numpy_like f g M' (iota [2; 3; 2]) c' X' = Ok (mkT [2; 0; 4] []).
Proof.
  cbv zeta. split; [vm_compute; reflexivity|]. split; [solve_fits|].
  split. { change (length _) with 0. split; [reflexivity|]. split; [reflexivity|]. exists [2; 6], 2. split; [cbn; lia|]. split; reflexivity. }
  split; [vm_compute; reflexivity|]. eexists. split; [vm_compute; reflexivity|]. split; [eexists; split; vm_compute; reflexivity|]. vm_compute. reflexivity.
Qed.

(** no matrices times one vector *)
Example C104_empty_einsum_case :
  let Ls := [[EName (lit "i"); EName (lit "j")]; [EName (lit "j")]] in
  let Ls' := [[EName (lit "i"); EName (lit "b"); EName (lit "j")]; [EName (lit "j")]] in
  let X := iota [2; 3; 2] in let X' := mkT [2; 0; 2] [] in let v := mkT [2] [1; -1]%Z in
  let f := ref_einsum Z.add Z.mul 0%Z 1%Z in let p' := lit "i b j, j -> b i" in
  emptied_all (lit "b") Ls Ls' [X; v] [X'; v] /\
  einsum_with ascii_unicode f [inl X; inl v; inr p'] = Ok (mkT [3; 2] [-1; -1; -1; -1; -1; -1]%Z) /\
  einsum_with ascii_unicode f [inl X'; inl v; inr p'] = Ok (mkT [0; 2] []).
Proof.
  cbv zeta. split; [|split; vm_compute; reflexivity].
  apply (emptied_more (lit "b") [EName (lit "i")] [EName (lit "j")]); [|apply emptied_same; constructor].
  change (length _) with 1. split; [reflexivity|]. split; [reflexivity|]. exists [2; 2], 3. split; [cbn; lia|]. split; reflexivity.
Qed.
