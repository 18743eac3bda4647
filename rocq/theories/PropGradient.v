(** * Gradients of einsum, pack and unpack *)
From Coq Require Import Permutation.
From Verif Require Import Py Tensor SpecSem SpecGrammar SpecForms SpecPattern SpecOps SpecShape SpecElements SpecAdjoint SpecProducts Parsing Recipe Ops Backends Einsum Api Packing SpecPacking FrontFacts2 ParseFacts EinsumFacts4 GradFacts GradFacts2 GradFacts3 Instances PropPacking PropContraction SpecEinsum.

(** ** C73: einsum is linear in each operand, and its transpose is another einsum:
    the one with the operand and the result exchanged in the pattern. Each name
    of the operand has to occur once in it and again in another operand or in the
    result, and nothing in it is broadcast. *)
Theorem C73_einsum : forall (U : unicode) (A : Type) (add mul : A -> A -> A) (zero one : A)
    (lib : pystr -> list (tensor A) -> result (tensor A)) (p p' : pystr) (Lp : list (list entry)) (L : list entry) (Ls : list (list entry)) (R : list entry)
    (us : list (tensor A)) (x : tensor A) (vs : list (tensor A)) (len : lab pystr -> nat) (y z : tensor A),
  unicode_ok U -> sums_and_products add mul zero -> (forall a b, mul a b = mul b a) -> (forall a b c, mul a (mul b c) = mul (mul a b) c) -> (forall a, mul one a = a) ->
  einsum_contract add mul zero one lib ->
  einsum_reads U p (Lp ++ L :: Ls) R -> einsum_reads U p' (Lp ++ R :: Ls) L ->
  length Lp = length us -> length (distinct (all_names (Lp ++ L :: Ls))) <= 52 ->
  good_call len (map to_term (Lp ++ L :: Ls)) (to_term R) (us ++ x :: vs) ->
  NoDup (entry_names L) -> incl (entry_names L) (all_names (Lp ++ Ls) ++ entry_names R) -> (In EDots R -> In EDots L) ->
  shp x = map len (out_labs (map to_term (Lp ++ L :: Ls)) (us ++ x :: vs) (to_term L)) ->
  einsum_with U lib (map inl (us ++ x :: vs) ++ [inr p]) = Ok y -> wf z -> shp z = shp y ->
  exists w, einsum_with U lib (map inl (us ++ z :: vs) ++ [inr p']) = Ok w /\ wf w /\ shp w = shp x /\
    inner add mul zero y z = inner add mul zero x w.
Proof.
  exact (fun U A add mul zero one lib p p' Lp L Ls R us x vs len y z HU Hsp Mc Ma Mo Hl =>
    einsum_gradient U HU add mul zero one lib Hsp Mc Ma Mo Hl p p' Lp L Ls R us x vs len y z).
Qed.
Print Assumptions C73_einsum.

(** the gradient of a matrix product, any sizes: transposed factors, written with einsum *)
Example C73_matrices : forall (A : Type) (add mul : A -> A -> A) (zero one : A)
    (lib : pystr -> list (tensor A) -> result (tensor A)) (i j k : nat) (a b g : tensor A),
  sums_and_products add mul zero -> (forall a b, mul a b = mul b a) -> (forall a b c, mul a (mul b c) = mul (mul a b) c) -> (forall a, mul one a = a) ->
  einsum_contract add mul zero one lib ->
  wf a -> wf b -> wf g -> shp a = [i; j] -> shp b = [j; k] -> shp g = [i; k] ->
  exists c ga gb,
    einsum_with ascii_unicode lib [inl a; inl b; inr (lit "i j, j k -> i k")] = Ok c /\
    einsum_with ascii_unicode lib [inl g; inl b; inr (lit "i k, j k -> i j")] = Ok ga /\
    einsum_with ascii_unicode lib [inl a; inl g; inr (lit "i j, i k -> j k")] = Ok gb /\
    inner add mul zero c g = inner add mul zero a ga /\ inner add mul zero c g = inner add mul zero b gb.
Proof.
  intros A add mul zero one lib i j k a b g Hsp Mc Ma Mo Hl Wa Wb Wg Sa Sb Sg.
  set (ij := [EName (lit "i"); EName (lit "j")]). set (jk := [EName (lit "j"); EName (lit "k")]). set (ik := [EName (lit "i"); EName (lit "k")]).
  set (len := fun n : lab pystr => match n with LName s => if str_eqb s (lit "i") then i else if str_eqb s (lit "j") then j else k | LDot _ => 0 end).
  assert (R1 : einsum_reads ascii_unicode (lit "i j, j k -> i k") [ij; jk] ik).
  { exists [lit "i j"; lit " j k "], (lit " i k"). split; [reflexivity|]. split; [discriminate|]. split; [|solve_lists [nm "i"; nm "k"]].
    apply Forall2_cons; [solve_lists [nm "i"; nm "j"]|]. apply Forall2_cons; [solve_lists [nm "j"; nm "k"]|apply Forall2_nil]. }
  assert (R2 : einsum_reads ascii_unicode (lit "i k, j k -> i j") [ik; jk] ij).
  { exists [lit "i k"; lit " j k "], (lit " i j"). split; [reflexivity|]. split; [discriminate|]. split; [|solve_lists [nm "i"; nm "j"]].
    apply Forall2_cons; [solve_lists [nm "i"; nm "k"]|]. apply Forall2_cons; [solve_lists [nm "j"; nm "k"]|apply Forall2_nil]. }
  assert (R3 : einsum_reads ascii_unicode (lit "i j, i k -> j k") [ij; ik] jk).
  { exists [lit "i j"; lit " i k "], (lit " j k"). split; [reflexivity|]. split; [discriminate|]. split; [|solve_lists [nm "j"; nm "k"]].
    apply Forall2_cons; [solve_lists [nm "i"; nm "j"]|]. apply Forall2_cons; [solve_lists [nm "i"; nm "k"]|apply Forall2_nil]. }
  assert (H52 : length (distinct (all_names [ij; jk])) <= 52) by (vm_compute; lia).
  assert (G : good_call len (map to_term [ij; jk]) (to_term ik) [a; b]).
  { assert (Sp : list_max (map2 spare (map to_term [ij; jk]) [a; b]) = 0).
    { cbn [map map2]. unfold spare. rewrite Sa, Sb. reflexivity. }
    split; [|split; [|split; [|split; [|split]]]].
    - apply Forall2_cons; [|apply Forall2_cons; [|apply Forall2_nil]]; (split; [assumption|]; split; [cbv; lia|]);
        unfold operand_labs, spare; [rewrite Sa|rewrite Sb]; repeat (apply Forall2_cons; [reflexivity|]); apply Forall2_nil.
    - cbv -[In]. solve_NoDup.
    - intros s Hs. vm_compute in Hs. vm_compute. tauto.
    - cbv. lia.
    - intros H. vm_compute in H. intuition discriminate.
    - intros n Hn. rewrite Sp in Hn. lia. }
  destruct (einsum_formula ascii_unicode ascii_unicode_ok add mul zero one (sp_comm _ _ _ Hsp) (sp_assoc _ _ _ Hsp) lib _ _ _ _ _ Hl R1 H52 G) as (c & Ec & Fc).
  assert (Sc : shp g = shp c).
  { destruct (EinsumLaws2.summed_exists (map to_term [ij; jk]) (to_term ik) [a; b]) as [ms Hms]. destruct (Fc ms Hms) as (_ & -> & _). rewrite Sg. reflexivity. }
  destruct (C73_einsum ascii_unicode A add mul zero one lib _ _ [] ij [jk] ik [] a [b] len c g ascii_unicode_ok Hsp Mc Ma Mo Hl R1 R2 eq_refl H52 G) as (ga & E1 & _ & _ & D1);
    [cbv -[In]; solve_NoDup|intros s Hs; vm_compute in Hs; vm_compute; tauto|intros H; vm_compute in H; intuition discriminate|exact Sa|exact Ec|exact Wg|exact Sc|].
  destruct (C73_einsum ascii_unicode A add mul zero one lib _ _ [ij] jk [] ik [a] b [] len c g ascii_unicode_ok Hsp Mc Ma Mo Hl R1 R3 eq_refl H52 G) as (gb & E2 & _ & _ & D2);
    [cbv -[In]; solve_NoDup|intros s Hs; vm_compute in Hs; vm_compute; tauto|intros H; vm_compute in H; intuition discriminate|exact Sb|exact Ec|exact Wg|exact Sc|].
  exists c, ga, gb. auto.
Qed.

(** an ellipsis; three operands *)
Example C73_case :
  let Lu := [EDots; EName (lit "i")] in let Lx := [EDots; EName (lit "i"); EName (lit "j")] in let Lv := [EName (lit "j"); EName (lit "k")] in
  let R := [EDots; EName (lit "k")] in
  let u := iota [2] in let x := iota [2; 2; 3] in let v := iota [3; 2] in let z := mkT [2; 2] [1; -1; 0; 2]%Z in
  let f := ref_einsum Z.add Z.mul 0%Z 1%Z in
  let y := mkT [2; 2] [28; 40; 64; 94]%Z in let w := mkT [2; 2; 3] [0; 0; 0; -1; -1; -1; 0; 0; 0; 2; 6; 10]%Z in
  einsum_with ascii_unicode f [inl u; inl x; inl v; inr (lit "... i, ... i j, j k -> ... k")] = Ok y /\
  einsum_with ascii_unicode f [inl u; inl z; inl v; inr (lit "... i, ... k, j k -> ... i j")] = Ok w /\
  inner Z.add Z.mul 0%Z y z = 176%Z /\ inner Z.add Z.mul 0%Z x w = 176%Z /\
  good_call (fun l => match l with LName s => if str_eqb s (lit "j") then 3 else 2 | LDot _ => 2 end) (map to_term [Lu; Lx; Lv]) (to_term R) [u; x; v].
Proof.
  cbv zeta. split; [vm_compute; reflexivity|]. split; [vm_compute; reflexivity|]. split; [vm_compute; reflexivity|]. split; [vm_compute; reflexivity|].
  split; [|split; [|split; [|split; [|split]]]].
  - apply Forall2_cons; [|apply Forall2_cons; [|apply Forall2_cons; [|apply Forall2_nil]]]; (split; [reflexivity|]; split; [cbv; lia|]).
    + apply Forall2_cons; [reflexivity|apply Forall2_nil].
    + apply Forall2_cons; [left; reflexivity|]. apply Forall2_cons; [reflexivity|]. apply Forall2_cons; [reflexivity|apply Forall2_nil].
    + apply Forall2_cons; [reflexivity|]. apply Forall2_cons; [reflexivity|apply Forall2_nil].
  - cbv -[In]. solve_NoDup.
  - intros s Hs. vm_compute in Hs. vm_compute. tauto.
  - cbv. lia.
  - intros _. left. reflexivity.
  - intros k Hk. vm_compute in Hk. eexists. eexists. split; [right; left; reflexivity|]. destruct k as [|k]; [left; reflexivity|lia].
Qed.

(** Names that only the operand has were summed over: the gradient does not
    depend on them, repeat brings them back. *)
Theorem C73_einsum_repeat : forall (A : Type) (r : runtime A) (add mul : A -> A -> A) (zero one : A)
    (lib : pystr -> list (tensor A) -> result (tensor A)) (p p' q : pystr) (Lp : list (list entry)) (nl nm : list pystr) (Ls : list (list entry)) (R : list entry)
    (us : list (tensor A)) (x : tensor A) (vs : list (tensor A)) (len : lab pystr -> nat) (y z : tensor A),
  runtime_ok r -> sums_and_products add mul zero -> (forall a b, mul a b = mul b a) -> (forall a b c, mul a (mul b c) = mul (mul a b) c) -> (forall a, mul one a = a) ->
  einsum_contract add mul zero one lib ->
  einsum_reads (rt_unicode r) p (Lp ++ map EName nl :: Ls) R -> einsum_reads (rt_unicode r) p' (Lp ++ R :: Ls) (map EName nm) ->
  reads (rt_unicode r) q (axes_named nm) (axes_named nl) ->
  ~ In ell_name nl -> (forall s, In s nl -> ~ In s [lit "tensor"; lit "pattern"; lit "reduction"]) ->
  length Lp = length us -> length (distinct (all_names (Lp ++ map EName nl :: Ls))) <= 52 ->
  good_call len (map to_term (Lp ++ map EName nl :: Ls)) (to_term R) (us ++ x :: vs) ->
  ~ In EDots R -> NoDup nl -> NoDup nm ->
  (forall a, In a nm <-> In a nl /\ (In a (all_names (Lp ++ Ls)) \/ In a (entry_names R))) ->
  einsum_with (rt_unicode r) lib (map inl (us ++ x :: vs) ++ [inr p]) = Ok y -> wf z -> shp z = shp y ->
  exists v w, einsum_with (rt_unicode r) lib (map inl (us ++ z :: vs) ++ [inr p']) = Ok v /\
    repeat_ r (One v) q (other_sizes (fun s => len (LName s)) nm nl) = Ok w /\ wf w /\ shp w = shp x /\
    inner add mul zero y z = inner add mul zero x w.
Proof.
  exact (fun A r add mul zero one lib p p' q Lp nl nm Ls R us x vs len y z Hr Hsp Mc Ma Mo Hl =>
    einsum_gradient_repeat r Hr add mul zero one lib Hsp Mc Ma Mo Hl p p' q Lp nl nm Ls R us x vs len y z).
Qed.
Print Assumptions C73_einsum_repeat.

(** [c] is only in the operand *)
Example C73_repeat_case :
  let nl := [lit "c"; lit "i"; lit "j"] in let nm := [lit "i"; lit "j"] in
  let Lv := [EName (lit "j"); EName (lit "k")] in let R := [EName (lit "i"); EName (lit "k")] in
  let x := iota [2; 2; 3] in let v := iota [3; 2] in let z := mkT [2; 2] [1; -1; 0; 2]%Z in
  let f := ref_einsum Z.add Z.mul 0%Z 1%Z in
  let y := mkT [2; 2] [56; 80; 92; 134]%Z in let g := mkT [2; 3] [-1; -1; -1; 2; 6; 10]%Z in let w := mkT [2; 2; 3] [-1; -1; -1; 2; 6; 10; -1; -1; -1; 2; 6; 10]%Z in
  einsum_with ascii_unicode f [inl x; inl v; inr (lit "c i j, j k -> i k")] = Ok y /\
  einsum_with ascii_unicode f [inl z; inl v; inr (lit "i k, j k -> i j")] = Ok g /\
  repeat_ numpy_like (One g) (lit "i j -> c i j") [(lit "c", 2%Z)] = Ok w /\
  inner Z.add Z.mul 0%Z y z = 244%Z /\ inner Z.add Z.mul 0%Z x w = 244%Z /\
  other_sizes (fun s => if str_eqb s (lit "j") then 3 else 2) nm nl = [(lit "c", 2%Z)] /\
  (forall a, In a nm <-> In a nl /\ (In a (all_names ([] ++ [Lv])) \/ In a (entry_names R))) /\
  good_call (fun l => match l with LName s => if str_eqb s (lit "j") then 3 else 2 | LDot _ => 2 end) (map to_term [map EName nl; Lv]) (to_term R) [x; v].
Proof.
  cbv zeta. split; [vm_compute; reflexivity|]. split; [vm_compute; reflexivity|]. split; [vm_compute; reflexivity|]. split; [vm_compute; reflexivity|]. split; [vm_compute; reflexivity|].
  split; [vm_compute; reflexivity|]. split.
  - intros s. split; intros H.
    + vm_compute in H. vm_compute. tauto.
    + destruct H as [H1 H2]. vm_compute in H1, H2. vm_compute. destruct H1 as [<-|H1]; [exfalso; intuition discriminate|exact H1].
  - split; [|split; [|split; [|split; [|split]]]].
    + apply Forall2_cons; [|apply Forall2_cons; [|apply Forall2_nil]]; (split; [reflexivity|]; split; [cbv; lia|]); repeat (apply Forall2_cons; [reflexivity|]); apply Forall2_nil.
    + cbv -[In]. solve_NoDup.
    + intros s Hs. vm_compute in Hs. vm_compute. tauto.
    + cbv. lia.
    + intros H. vm_compute in H. intuition discriminate.
    + intros k Hk. vm_compute in Hk. lia.
Qed.

(** pack keeps the elements: none is lost, none is duplicated *)
Theorem C73_pack_elements : forall (A : Type) (r : runtime A) (ts : list (tensor A)) (p : pystr) (x : tensor A) (ps : list (list Z)),
  runtime_ok r -> Forall wf ts -> pack r ts p = Ok (x, ps) -> Permutation (dat x) (concat (map dat ts)).
Proof. exact @pack_elements. Qed.
Print Assumptions C73_pack_elements.

(** the transpose of pack is unpack with the shapes that pack returned *)
Theorem C73_pack : forall (A : Type) (r : runtime A) (add mul : A -> A -> A) (zero : A) (xs : list (tensor A)) (p : pystr) (y : tensor A) (ps : list (list Z)) (z : tensor A),
  runtime_ok r -> sums_and_products add mul zero -> Forall wf xs ->
  pack r xs p = Ok (y, ps) -> wf z -> shp z = shp y ->
  exists gs, unpack r z ps p = Ok gs /\ Forall2 (fun x g => wf g /\ shp g = shp x) xs gs /\
    inner add mul zero y z = fold_right add zero (map2 (inner add mul zero) xs gs).
Proof. exact (fun A r add mul zero xs p y ps z Hr Hsp => pack_gradient add mul zero Hsp r Hr xs p y ps z). Qed.
Print Assumptions C73_pack.

(** the transpose of unpack, if it does not ask for more than there is, is pack *)
Theorem C73_unpack : forall (A : Type) (r : runtime A) (add mul : A -> A -> A) (zero : A) (x : tensor A) (ps : list (list Z)) (p : pystr)
    (before after : list pystr) (b : list nat) (n : nat) (a : list nat) (xs gs : list (tensor A)),
  runtime_ok r -> sums_and_products add mul zero -> pack_pattern (rt_unicode r) p before after ->
  shp x = b ++ [n] ++ a -> length b = length before -> length a = length after ->
  wf x -> prodn (b ++ a) <> 0 -> ps <> [] -> (forall q, In q ps -> tame (rt_lib r) q) -> known_total ps <= n ->
  unpack r x ps p = Ok xs -> Forall2 (fun x g => wf g /\ shp g = shp x) xs gs ->
  exists g qs, pack r gs p = Ok (g, qs) /\ (wf g /\ shp g = shp x) /\
    fold_right add zero (map2 (inner add mul zero) xs gs) = inner add mul zero x g.
Proof.
  exact (fun A r add mul zero x ps p before after b n a xs gs Hr Hsp => unpack_gradient add mul zero Hsp r Hr x ps p before after b n a xs gs).
Qed.
Print Assumptions C73_unpack.

Example C73_pack_case :
  let xs := [iota [2; 2; 2; 2]; iota [2; 1; 2]; iota [2; 2]] in let z := t_map (fun v => v * v)%Z (iota [2; 6; 2]) in
  Forall wf xs /\
  exists y gs, pack numpy_like xs ex_pattern = Ok (y, [[2; 2]; [1]; []]%Z) /\ shp z = shp y /\ unpack numpy_like z [[2; 2]; [1]; []]%Z ex_pattern = Ok gs /\
    inner Z.add Z.mul 0%Z y z = 29552%Z /\ map2 (inner Z.add Z.mul 0%Z) xs gs = [24672; 2204; 2676]%Z.
Proof.
  cbv zeta. split; [repeat constructor; apply iota_wf|]. eexists. eexists. split; [vm_compute; reflexivity|]. split; [reflexivity|]. split; [vm_compute; reflexivity|].
  split; vm_compute; reflexivity.
Qed.

Example C73_unpack_case :
  let x := iota [2; 5; 2] in let ps := [[]; [2; -1]]%Z in
  shp x = [2] ++ [5] ++ [2] /\ known_total ps <= 5 /\ (forall q, In q ps -> tame (rt_lib numpy_like) q) /\
  exists xs, unpack numpy_like x ps ex_pattern = Ok xs /\ map shp xs = [[2; 2]; [2; 2; 2; 2]].
Proof.
  cbv zeta. split; [reflexivity|]. split; [vm_compute; lia|]. split; [intros q H; right; intros d Hd; each H; subst q; each Hd; subst; lia|].
  eexists. split; vm_compute; reflexivity.
Qed.
