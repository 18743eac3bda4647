(** * einsum of several tensors *)
From Coq Require Import Permutation.
From Verif Require Import Py Tensor SpecSem SpecGrammar SpecForms SpecEinsum SpecPattern SpecOps SpecShape SpecElements SpecProducts Parsing Recipe Ops Backends Einsum Api FrontFacts2 ParseFacts EinsumFacts4 EinsumLaws2 EinsumLaws3 Instances.

Ltac solve_lists e :=
  exists e; split; [|reflexivity];
  lazymatch goal with |- written_as _ _ _ ?s _ =>
    exists (lex None s); split; [apply spells_iff; reflexivity|];
    split; [let ts := eval cbv in (lex None s) in change (lex None s) with ts; solve_structured
           | split; [cbv; repeat constructor | first [left; reflexivity | right; cbv -[In]; solve_NoDup]]]
  end.

(** ** C55: einsum without ellipsis is a sum of products: repeat every operand to the
    list of all names, multiply element by element, reduce with sum *)
Theorem C55_product : forall (A : Type) (r : runtime A) (add mul : A -> A -> A) (zero one : A)
    (lib : pystr -> list (tensor A) -> result (tensor A)) (len : pystr -> nat) (all rs : list pystr)
    (os : list (list pystr * pystr * tensor A)) (p q : pystr),
  runtime_ok r ->
  (forall a b, add a b = add b a) -> (forall a b c, add a (add b c) = add (add a b) c) ->
  (forall a, add zero a = a) -> (forall a, mul a one = a) ->
  (forall vs, rt_red r (lit "sum") vs = Ok (fold_right add zero vs)) ->
  einsum_contract add mul zero one lib ->
  (forall ns t x, In (ns, t, x) os ->
     wf x /\ shp x = map len ns /\ incl ns all /\ reads (rt_unicode r) t (axes_named ns) (axes_named all)) ->
  incl all (flat_map (fun o => fst (fst o)) os) -> incl rs all -> ~ In ell_name all ->
  (forall s, In s all -> ~ In s [lit "tensor"; lit "pattern"; lit "reduction"]) -> length all <= 52 ->
  einsum_reads (rt_unicode r) p (map (fun o => map EName (fst (fst o))) os) (map EName rs) ->
  reads (rt_unicode r) q (axes_named all) (axes_named rs) ->
  exists ys y,
    Forall2 (fun '(ns, t, x) z => repeat_ r (One x) t (other_sizes len ns all) = Ok z) os ys /\
    einsum_with (rt_unicode r) lib (map inl (map snd os) ++ [inr p]) = Ok y /\
    reduce r (One (t_product mul one (map len all) ys)) q (RStr (lit "sum")) [] = Ok y.
Proof.
  exact (fun A r add mul zero one lib len all rs os p q Hok Hc Ha Hz Ho Hs Hl =>
    einsum_product r Hok add mul zero one lib Hc Ha Hz Ho Hs Hl len all rs os p q).
Qed.
Print Assumptions C55_product.

Example C55_product_case :
  let len := fun s => if str_eqb s (lit "i") then 2 else if str_eqb s (lit "j") then 3 else 2 in
  let all := [lit "i"; lit "j"; lit "k"] in let rs := [lit "k"; lit "i"] in
  let p := lit "i j, j k -> k i" in let q := lit "i j k -> k i" in
  let os := [([lit "i"; lit "j"], lit "i j -> i j k", iota [2; 3]); ([lit "j"; lit "k"], lit "j k -> i j k", iota [3; 2])] in
  (forall ns t x, In (ns, t, x) os ->
     wf x /\ shp x = map len ns /\ incl ns all /\ reads ascii_unicode t (axes_named ns) (axes_named all)) /\
  incl all (flat_map (fun o => fst (fst o)) os) /\ incl rs all /\ ~ In ell_name all /\
  (forall s, In s all -> ~ In s [lit "tensor"; lit "pattern"; lit "reduction"]) /\
  einsum_reads ascii_unicode p (map (fun o => map EName (fst (fst o))) os) (map EName rs) /\
  reads ascii_unicode q (axes_named all) (axes_named rs) /\
  exists ys, Forall2 (fun '(ns, t, x) z => repeat_ torch_like (One x) t (other_sizes len ns all) = Ok z) os ys /\
    einsum_with ascii_unicode (ref_einsum Z.add Z.mul 0%Z 1%Z) (map inl (map snd os) ++ [inr p]) = Ok (mkT [2; 2] [10; 28; 13; 40]%Z) /\
    reduce torch_like (One (t_product Z.mul 1%Z (map len all) ys)) q (RStr (lit "sum")) [] = Ok (mkT [2; 2] [10; 28; 13; 40]%Z).
Proof.
  cbv zeta. split; [|split; [|split; [|split; [|split; [|split; [|split]]]]]].
  - intros ns t x [E|[E|[]]]; injection E as <- <- <-.
    + split; [reflexivity|]. split; [reflexivity|]. split; [intros s Hs; vm_compute in Hs; vm_compute; tauto|]. solve_reads (lit "i j ") (lit " i j k").
    + split; [reflexivity|]. split; [reflexivity|]. split; [intros s Hs; vm_compute in Hs; vm_compute; tauto|]. solve_reads (lit "j k ") (lit " i j k").
  - intros s Hs; vm_compute in Hs; vm_compute; tauto.
  - intros s Hs; vm_compute in Hs; vm_compute; tauto.
  - vm_compute. intuition discriminate.
  - intros s Hs. each Hs; subst s; vm_compute; intuition discriminate.
  - exists [lit "i j"; lit " j k "], (lit " k i"). split; [reflexivity|]. split; [discriminate|]. split.
    + apply Forall2_cons; [solve_lists [nm "i"; nm "j"]|]. apply Forall2_cons; [solve_lists [nm "j"; nm "k"]|apply Forall2_nil].
    + solve_lists [nm "k"; nm "i"].
  - solve_reads (lit "i j k ") (lit " k i").
  - eexists. split; [|split; [vm_compute; reflexivity|]].
    + apply Forall2_cons; [vm_compute; reflexivity|]. apply Forall2_cons; [vm_compute; reflexivity|apply Forall2_nil].
    + vm_compute. reflexivity.
Qed.

(** ** the order of the operands does not matter if the multiplication commutes *)
Theorem C55_order : forall (U : unicode) (A : Type) (add mul : A -> A -> A) (zero one : A)
    (lib : pystr -> list (tensor A) -> result (tensor A)) (p p' : pystr) (ops ops' : operands A) (R : list entry) (len : lab pystr -> nat),
  unicode_ok U ->
  (forall a b, add a b = add b a) -> (forall a b c, add a (add b c) = add (add a b) c) ->
  einsum_contract add mul zero one lib ->
  (forall a b, mul a b = mul b a) -> (forall a b c, mul a (mul b c) = mul (mul a b) c) ->
  Permutation ops ops' -> einsum_reads U p (map fst ops) R -> einsum_reads U p' (map fst ops') R ->
  length (distinct (all_names (map fst ops))) <= 52 ->
  good_call len (map to_term (map fst ops)) (to_term R) (map snd ops) ->
  exists y, einsum_with U lib (map inl (map snd ops) ++ [inr p]) = Ok y /\ einsum_with U lib (map inl (map snd ops') ++ [inr p']) = Ok y.
Proof.
  exact (fun U A add mul zero one lib p p' ops ops' R len HU Hc Ha Hl Mc Ma =>
    einsum_swap U HU add mul zero one lib Hc Ha Hl Mc Ma p p' ops ops' R len).
Qed.
Print Assumptions C55_order.

(** ** einsum is linear in each operand *)
Theorem C55_linear : forall (U : unicode) (A : Type) (add mul : A -> A -> A) (zero one : A)
    (lib : pystr -> list (tensor A) -> result (tensor A)) (p : pystr) (Ls1 : list (list entry)) (L : list entry) (Ls2 : list (list entry)) (R : list entry)
    (us : list (tensor A)) (x u : tensor A) (vs : list (tensor A)) (len : lab pystr -> nat),
  unicode_ok U ->
  (forall a b, add a b = add b a) -> (forall a b c, add a (add b c) = add (add a b) c) ->
  einsum_contract add mul zero one lib ->
  (forall a, add zero a = a) ->
  (forall a b c, mul a (add b c) = add (mul a b) (mul a c)) -> (forall a b c, mul (add a b) c = add (mul a c) (mul b c)) ->
  length Ls1 = length us -> wf x -> wf u -> shp x = shp u ->
  einsum_reads U p (Ls1 ++ L :: Ls2) R -> length (distinct (all_names (Ls1 ++ L :: Ls2))) <= 52 ->
  good_call len (map to_term (Ls1 ++ L :: Ls2)) (to_term R) (us ++ x :: vs) ->
  exists y y',
    einsum_with U lib (map inl (us ++ x :: vs) ++ [inr p]) = Ok y /\
    einsum_with U lib (map inl (us ++ u :: vs) ++ [inr p]) = Ok y' /\
    einsum_with U lib (map inl (us ++ t_zip add x u :: vs) ++ [inr p]) = Ok (t_zip add y y').
Proof.
  exact (fun U A add mul zero one lib p Ls1 L Ls2 R us x u vs len HU Hc Ha Hl Hz Dl Dr =>
    einsum_linear U HU add mul zero one lib Hc Ha Hl Hz Dl Dr p Ls1 L Ls2 R us x u vs len).
Qed.
Print Assumptions C55_linear.

Example C55_case :
  let Lx := [EDots; EName (lit "i"); EName (lit "j")] in let Lv := [EName (lit "j")] in let R := [EName (lit "i"); EDots] in
  let x := iota [2; 2; 3] in let v := mkT [3] [1; -1; 2]%Z in let w := mkT [3] [0; 5; 1]%Z in
  let len := fun l => match l with SpecEinsum.LName s => if str_eqb s (lit "i") then 2 else 3 | LDot _ => 2 end in
  let f := ref_einsum Z.add Z.mul 0%Z 1%Z in
  einsum_reads ascii_unicode (lit "... i j, j -> i ...") [Lx; Lv] R /\
  einsum_reads ascii_unicode (lit "j, ... i j -> i ...") [Lv; Lx] R /\
  good_call len (map to_term [Lx; Lv]) (to_term R) [x; v] /\
  einsum_with ascii_unicode f [inl x; inl v; inr (lit "... i j, j -> i ...")] = Ok (mkT [2; 2] [3; 15; 9; 21]%Z) /\
  einsum_with ascii_unicode f [inl v; inl x; inr (lit "j, ... i j -> i ...")] = Ok (mkT [2; 2] [3; 15; 9; 21]%Z) /\
  einsum_with ascii_unicode f [inl x; inl w; inr (lit "... i j, j -> i ...")] = Ok (mkT [2; 2] [7; 43; 25; 61]%Z) /\
  einsum_with ascii_unicode f [inl x; inl (t_zip Z.add v w); inr (lit "... i j, j -> i ...")] = Ok (mkT [2; 2] [10; 58; 34; 82]%Z).
Proof.
  cbv zeta. split; [|split; [|split]].
  - exists [lit "... i j"; lit " j "], (lit " i ..."). split; [reflexivity|]. split; [discriminate|]. split.
    + apply Forall2_cons; [solve_lists [dots3; nm "i"; nm "j"]|]. apply Forall2_cons; [solve_lists [nm "j"]|apply Forall2_nil].
    + solve_lists [nm "i"; dots3].
  - exists [lit "j"; lit " ... i j "], (lit " i ..."). split; [reflexivity|]. split; [discriminate|]. split.
    + apply Forall2_cons; [solve_lists [nm "j"]|]. apply Forall2_cons; [solve_lists [dots3; nm "i"; nm "j"]|apply Forall2_nil].
    + solve_lists [nm "i"; dots3].
  - split; [|split; [|split; [|split; [|split]]]].
    + apply Forall2_cons; [|apply Forall2_cons; [|apply Forall2_nil]]; (split; [reflexivity|]; split; [vm_compute; repeat constructor|]).
      * apply Forall2_cons; [left; reflexivity|]. apply Forall2_cons; [reflexivity|]. apply Forall2_cons; [reflexivity|apply Forall2_nil].
      * apply Forall2_cons; [reflexivity|apply Forall2_nil].
    + cbv -[In]. solve_NoDup.
    + intros s Hs. vm_compute in Hs. vm_compute. tauto.
    + vm_compute. repeat constructor.
    + intros _. right. left. reflexivity.
    + intros k Hk. vm_compute in Hk. exists (to_term [EDots; EName (lit "i"); EName (lit "j")]), (iota [2; 2; 3]). split; [left; reflexivity|].
      destruct k as [|k]; [left; reflexivity|lia].
  - repeat split; vm_compute; reflexivity.
Qed.
