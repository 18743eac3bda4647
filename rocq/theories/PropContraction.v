(** * einsum in stages *)
From Verif Require Import Py Tensor SpecSem SpecGrammar SpecForms SpecEinsum SpecPattern SpecOps SpecShape SpecElements SpecProducts Parsing Recipe Ops Backends Einsum Api FrontFacts2 ParseFacts EinsumFacts4 EinsumLaws4 Instances.

Ltac solve_lists e :=
  exists e; split; [|reflexivity];
  lazymatch goal with |- written_as _ _ _ ?s _ =>
    exists (lex None s); split; [apply spells_iff; reflexivity|];
    split; [let ts := eval cbv in (lex None s) in change (lex None s) with ts; solve_structured
           | split; [cbv; repeat constructor | first [left; reflexivity | right; cbv -[In]; solve_NoDup]]]
  end.

(** ** C68: some neighbouring operands can be contracted first. If every name that the
    other operands or the result need is kept, and the ellipsis is kept, then
    einsum of the result of the first call with the other operands returns what
    one call with all operands returns. *)
Theorem C68_stages : forall (U : unicode) (A : Type) (add mul : A -> A -> A) (zero one : A)
    (lib : pystr -> list (tensor A) -> result (tensor A)) (p1 p2 p : pystr) (Lp Lt Ls : list (list entry)) (M R : list entry)
    (us xs vs : list (tensor A)) (len : lab pystr -> nat),
  unicode_ok U ->
  (forall a b, add a b = add b a) -> (forall a b c, add a (add b c) = add (add a b) c) ->
  einsum_contract add mul zero one lib ->
  (forall a, add zero a = a) -> (forall a b c, mul a (mul b c) = mul (mul a b) c) -> (forall a, mul one a = a) ->
  (forall a b c, mul a (add b c) = add (mul a b) (mul a c)) -> (forall a b c, mul (add a b) c = add (mul a c) (mul b c)) ->
  (forall a, mul zero a = zero) -> (forall a, mul a zero = zero) ->
  einsum_reads U p1 Lt M -> einsum_reads U p2 (Lp ++ M :: Ls) R -> einsum_reads U p (Lp ++ Lt ++ Ls) R ->
  length Lp = length us -> length Lt = length xs -> length (distinct (all_names (Lp ++ Lt ++ Ls))) <= 52 ->
  good_call len (map to_term (Lp ++ Lt ++ Ls)) (to_term R) (us ++ xs ++ vs) ->
  NoDup (entry_names M) -> length (filter (fun e => match e with EDots => true | _ => false end) M) <= 1 ->
  incl (entry_names M) (all_names Lt) -> (In EDots (concat Lt) -> In EDots M) -> (In EDots M -> In EDots R) ->
  (forall a, In a (all_names Lt) -> In a (all_names (Lp ++ Ls)) \/ In a (entry_names R) -> In a (entry_names M)) ->
  exists z w,
    einsum_with U lib (map inl xs ++ [inr p1]) = Ok z /\
    einsum_with U lib (map inl (us ++ z :: vs) ++ [inr p2]) = Ok w /\
    einsum_with U lib (map inl (us ++ xs ++ vs) ++ [inr p]) = Ok w.
Proof.
  exact (fun U A add mul zero one lib p1 p2 p Lp Lt Ls M R us xs vs len HU Hc Ha Hl Hz Ma Mo Dl Dr Zl Zr =>
    einsum_stages U HU add mul zero one lib Hc Ha Hl Hz Ma Mo Dl Dr Zl Zr p1 p2 p Lp Lt Ls M R us xs vs len).
Qed.
Print Assumptions C68_stages.

(** a product of three matrices of any sizes, bracketed either way or not at all *)
Example C68_chain : forall (A : Type) (add mul : A -> A -> A) (zero one : A)
    (lib : pystr -> list (tensor A) -> result (tensor A)) (i j k l : nat) (x y z : tensor A),
  (forall a b, add a b = add b a) -> (forall a b c, add a (add b c) = add (add a b) c) ->
  einsum_contract add mul zero one lib ->
  (forall a, add zero a = a) -> (forall a b c, mul a (mul b c) = mul (mul a b) c) -> (forall a, mul one a = a) ->
  (forall a b c, mul a (add b c) = add (mul a b) (mul a c)) -> (forall a b c, mul (add a b) c = add (mul a c) (mul b c)) ->
  (forall a, mul zero a = zero) -> (forall a, mul a zero = zero) ->
  wf x -> wf y -> wf z -> shp x = [i; j] -> shp y = [j; k] -> shp z = [k; l] ->
  exists xy yz w,
    einsum_with ascii_unicode lib [inl x; inl y; inr (lit "i j, j k -> i k")] = Ok xy /\
    einsum_with ascii_unicode lib [inl xy; inl z; inr (lit "i k, k l -> i l")] = Ok w /\
    einsum_with ascii_unicode lib [inl y; inl z; inr (lit "j k, k l -> j l")] = Ok yz /\
    einsum_with ascii_unicode lib [inl x; inl yz; inr (lit "i j, j l -> i l")] = Ok w /\
    einsum_with ascii_unicode lib [inl x; inl y; inl z; inr (lit "i j, j k, k l -> i l")] = Ok w.
Proof.
  intros A add mul zero one lib i j k l x y z Hc Ha Hl Hz Ma Mo Dl Dr Zl Zr Wx Wy Wz Sx Sy Sz.
  set (ij := [EName (lit "i"); EName (lit "j")]). set (jk := [EName (lit "j"); EName (lit "k")]). set (kl := [EName (lit "k"); EName (lit "l")]).
  set (ik := [EName (lit "i"); EName (lit "k")]). set (jl := [EName (lit "j"); EName (lit "l")]). set (il := [EName (lit "i"); EName (lit "l")]).
  set (len := fun n : lab pystr => match n with SpecEinsum.LName s => if str_eqb s (lit "i") then i else if str_eqb s (lit "j") then j else if str_eqb s (lit "k") then k else l | LDot _ => 0 end).
  assert (R1 : einsum_reads ascii_unicode (lit "i j, j k -> i k") [ij; jk] ik).
  { exists [lit "i j"; lit " j k "], (lit " i k"). split; [reflexivity|]. split; [discriminate|]. split; [|solve_lists [nm "i"; nm "k"]].
    apply Forall2_cons; [solve_lists [nm "i"; nm "j"]|]. apply Forall2_cons; [solve_lists [nm "j"; nm "k"]|apply Forall2_nil]. }
  assert (R2 : einsum_reads ascii_unicode (lit "i k, k l -> i l") [ik; kl] il).
  { exists [lit "i k"; lit " k l "], (lit " i l"). split; [reflexivity|]. split; [discriminate|]. split; [|solve_lists [nm "i"; nm "l"]].
    apply Forall2_cons; [solve_lists [nm "i"; nm "k"]|]. apply Forall2_cons; [solve_lists [nm "k"; nm "l"]|apply Forall2_nil]. }
  assert (R3 : einsum_reads ascii_unicode (lit "j k, k l -> j l") [jk; kl] jl).
  { exists [lit "j k"; lit " k l "], (lit " j l"). split; [reflexivity|]. split; [discriminate|]. split; [|solve_lists [nm "j"; nm "l"]].
    apply Forall2_cons; [solve_lists [nm "j"; nm "k"]|]. apply Forall2_cons; [solve_lists [nm "k"; nm "l"]|apply Forall2_nil]. }
  assert (R4 : einsum_reads ascii_unicode (lit "i j, j l -> i l") [ij; jl] il).
  { exists [lit "i j"; lit " j l "], (lit " i l"). split; [reflexivity|]. split; [discriminate|]. split; [|solve_lists [nm "i"; nm "l"]].
    apply Forall2_cons; [solve_lists [nm "i"; nm "j"]|]. apply Forall2_cons; [solve_lists [nm "j"; nm "l"]|apply Forall2_nil]. }
  assert (R5 : einsum_reads ascii_unicode (lit "i j, j k, k l -> i l") [ij; jk; kl] il).
  { exists [lit "i j"; lit " j k"; lit " k l "], (lit " i l"). split; [reflexivity|]. split; [discriminate|]. split; [|solve_lists [nm "i"; nm "l"]].
    apply Forall2_cons; [solve_lists [nm "i"; nm "j"]|]. apply Forall2_cons; [solve_lists [nm "j"; nm "k"]|]. apply Forall2_cons; [solve_lists [nm "k"; nm "l"]|apply Forall2_nil]. }
  assert (H52 : length (distinct (all_names [ij; jk; kl])) <= 52) by (vm_compute; lia).
  assert (G : good_call len (map to_term [ij; jk; kl]) (to_term il) [x; y; z]).
  { assert (Sp : list_max (map2 spare (map to_term [ij; jk; kl]) [x; y; z]) = 0).
    { cbn [map map2]. unfold spare. rewrite Sx, Sy, Sz. reflexivity. }
    split; [|split; [|split; [|split; [|split]]]].
    - apply Forall2_cons; [|apply Forall2_cons; [|apply Forall2_cons; [|apply Forall2_nil]]]; (split; [assumption|]; split; [cbv; lia|]);
        unfold operand_labs, spare; [rewrite Sx|rewrite Sy|rewrite Sz]; repeat (apply Forall2_cons; [reflexivity|]); apply Forall2_nil.
    - cbv -[In]. solve_NoDup.
    - intros s Hs. vm_compute in Hs. vm_compute. tauto.
    - cbv. lia.
    - intros H. vm_compute in H. intuition discriminate.
    - intros n Hn. rewrite Sp in Hn. lia. }
  destruct (C68_stages ascii_unicode A add mul zero one lib _ _ _ [] [ij; jk] [kl] ik il [] [x; y] [z] len ascii_unicode_ok Hc Ha Hl Hz Ma Mo Dl Dr Zl Zr R1 R2 R5 eq_refl eq_refl H52 G)
    as (xy & w & E1 & E2 & E3); [cbv -[In]; solve_NoDup|cbv; lia|intros s Hs; vm_compute in Hs; vm_compute; tauto|intros H; vm_compute in H; intuition discriminate|intros H; vm_compute in H; intuition discriminate| |].
  { intros a H1 H2. vm_compute in H1, H2. vm_compute. destruct H1 as [<-|[<-|[<-|[<-|[]]]]]; auto; exfalso; intuition discriminate. }
  destruct (C68_stages ascii_unicode A add mul zero one lib _ _ _ [ij] [jk; kl] [] jl il [x] [y; z] [] len ascii_unicode_ok Hc Ha Hl Hz Ma Mo Dl Dr Zl Zr R3 R4 R5 eq_refl eq_refl H52 G)
    as (yz & w' & E4 & E5 & E6); [cbv -[In]; solve_NoDup|cbv; lia|intros s Hs; vm_compute in Hs; vm_compute; tauto|intros H; vm_compute in H; intuition discriminate|intros H; vm_compute in H; intuition discriminate| |].
  { intros a H1 H2. vm_compute in H1, H2. vm_compute. destruct H1 as [<-|[<-|[<-|[<-|[]]]]]; auto; exfalso; intuition discriminate. }
  cbn [map app] in *. exists xy, yz, w. rewrite E6 in E3. injection E3 as ->. auto.
Qed.

(** broadcasting under the ellipsis: the first call sees only lengths 1 *)
Example C68_case :
  let Lx := [EDots; EName (lit "i"); EName (lit "j")] in let Lv := [EDots; EName (lit "j")] in let Lw := [EDots; EName (lit "i")] in
  let M := [EName (lit "i"); EDots] in let R := [EDots] in
  let x := iota [1; 2; 3] in let v := mkT [3] [1; -1; 2]%Z in let w := iota [2; 3; 2] in
  let f := ref_einsum Z.add Z.mul 0%Z 1%Z in
  einsum_with ascii_unicode f [inl x; inl v; inr (lit "... i j, ... j -> i ...")] = Ok (mkT [2; 1] [3; 9]%Z) /\
  einsum_with ascii_unicode f [inl w; inl (mkT [2; 1] [3; 9]%Z); inr (lit "... i, i ... -> ...")] = Ok (mkT [2; 3] [9; 33; 57; 81; 105; 129]%Z) /\
  einsum_with ascii_unicode f [inl w; inl x; inl v; inr (lit "... i, ... i j, ... j -> ...")] = Ok (mkT [2; 3] [9; 33; 57; 81; 105; 129]%Z) /\
  good_call (fun l => match l with SpecEinsum.LName s => if str_eqb s (lit "i") then 2 else 3 | LDot 0 => 3 | LDot _ => 2 end)
    (map to_term [Lw; Lx; Lv]) (to_term R) [w; x; v] /\
  einsum_reads ascii_unicode (lit "... i j, ... j -> i ...") [Lx; Lv] M /\
  einsum_reads ascii_unicode (lit "... i, i ... -> ...") [Lw; M] R /\
  einsum_reads ascii_unicode (lit "... i, ... i j, ... j -> ...") [Lw; Lx; Lv] R /\
  (forall a, In a (all_names [Lx; Lv]) -> In a (all_names [Lw]) \/ In a (entry_names R) -> In a (entry_names M)).
Proof.
  cbv zeta. split; [vm_compute; reflexivity|]. split; [vm_compute; reflexivity|]. split; [vm_compute; reflexivity|]. split; [|split; [|split; [|split]]].
  - split; [|split; [|split; [|split; [|split]]]].
    + apply Forall2_cons; [|apply Forall2_cons; [|apply Forall2_cons; [|apply Forall2_nil]]]; (split; [reflexivity|]; split; [cbv; lia|]).
      * apply Forall2_cons; [left; reflexivity|]. apply Forall2_cons; [left; reflexivity|]. apply Forall2_cons; [reflexivity|apply Forall2_nil].
      * apply Forall2_cons; [right; reflexivity|]. apply Forall2_cons; [reflexivity|]. apply Forall2_cons; [reflexivity|apply Forall2_nil].
      * apply Forall2_cons; [reflexivity|apply Forall2_nil].
    + cbv -[In]. constructor.
    + intros s Hs. destruct Hs.
    + cbv. lia.
    + intros _. left. reflexivity.
    + intros k Hk. vm_compute in Hk. eexists. eexists. split; [left; reflexivity|]. destruct k as [|[|k]]; [right; left; reflexivity|left; reflexivity|lia].
  - exists [lit "... i j"; lit " ... j "], (lit " i ..."). split; [reflexivity|]. split; [discriminate|]. split; [|solve_lists [nm "i"; dots3]].
    apply Forall2_cons; [solve_lists [dots3; nm "i"; nm "j"]|]. apply Forall2_cons; [solve_lists [dots3; nm "j"]|apply Forall2_nil].
  - exists [lit "... i"; lit " i ... "], (lit " ..."). split; [reflexivity|]. split; [discriminate|]. split; [|solve_lists [dots3]].
    apply Forall2_cons; [solve_lists [dots3; nm "i"]|]. apply Forall2_cons; [solve_lists [nm "i"; dots3]|apply Forall2_nil].
  - exists [lit "... i"; lit " ... i j"; lit " ... j "], (lit " ..."). split; [reflexivity|]. split; [discriminate|]. split; [|solve_lists [dots3]].
    apply Forall2_cons; [solve_lists [dots3; nm "i"]|]. apply Forall2_cons; [solve_lists [dots3; nm "i"; nm "j"]|]. apply Forall2_cons; [solve_lists [dots3; nm "j"]|apply Forall2_nil].
  - intros a H1 H2. vm_compute in H1, H2. vm_compute. destruct H1 as [<-|[<-|[<-|[]]]]; auto; exfalso; intuition discriminate.
Qed.

(** a name that is still needed must not be summed away *)
Example C68_needed :
  let f := ref_einsum Z.add Z.mul 0%Z 1%Z in let x := iota [2; 2] in let v := mkT [2] [1; 2]%Z in
  einsum_with ascii_unicode f [inl x; inr (lit "i j -> i")] = Ok (mkT [2] [1; 5]%Z) /\
  einsum_with ascii_unicode f [inl (mkT [2] [1; 5]%Z); inl v; inr (lit "i, j -> i")] = Ok (mkT [2] [3; 15]%Z) /\
  einsum_with ascii_unicode f [inl x; inl v; inr (lit "i j, j -> i")] = Ok (mkT [2] [2; 8]%Z).
Proof. cbv zeta. repeat split; vm_compute; reflexivity. Qed.
