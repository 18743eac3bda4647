(** * Properties of einsum *)
From Verif Require Import Py Tensor Parsing Recipe Ops SpecSem SpecGrammar SpecForms SpecEinsum Einsum EinsumFacts EinsumFacts2 EinsumFacts3 EinsumFacts4 FrontFacts2 ParseFacts Instances.

Ltac solve_lists e :=
  exists e; split; [|reflexivity];
  lazymatch goal with |- written_as _ _ _ ?s _ =>
    exists (lex None s); split; [apply spells_iff; reflexivity|];
    split; [let ts := eval cbv in (lex None s) in change (lex None s) with ts; solve_structured
           | split; [cbv; repeat constructor | first [left; reflexivity | right; cbv -[In]; solve_NoDup]]]
  end.

(** ** C29: the translation succeeds exactly for the patterns described, and is
    the given renaming *)
Theorem C29_compactify : forall (U : unicode) (pattern c : pystr), unicode_ok U ->
  (compactify U pattern = Ok c <->
   exists Ls R, einsum_reads U pattern Ls R /\ incl (entry_names R) (all_names Ls) /\
     length (distinct (all_names Ls)) <= 52 /\ c = short_pattern (letter_of (distinct (all_names Ls))) Ls R).
Proof. exact (fun U pattern c HU => compactify_iff U HU pattern c). Qed.
Print Assumptions C29_compactify.

(** different names get different letters *)
Theorem C29_injective : forall (Ls : list (list entry)) (s t : pystr),
  length (distinct (all_names Ls)) <= 52 -> In s (all_names Ls) -> In t (all_names Ls) ->
  let f := letter_of (distinct (all_names Ls)) in
  In (f s) letters /\ (f s = f t -> s = t).
Proof. exact letter_injective. Qed.
Print Assumptions C29_injective.

(** a pattern is read in one way only *)
Theorem C29_unambiguous : forall (U : unicode) (pattern : pystr) (Ls Ls' : list (list entry)) (R R' : list entry), unicode_ok U ->
  einsum_reads U pattern Ls R -> einsum_reads U pattern Ls' R' -> Ls = Ls' /\ R = R'.
Proof. exact (fun U pattern Ls Ls' R R' HU => einsum_reads_fun U HU pattern Ls R Ls' R'). Qed.
Print Assumptions C29_unambiguous.

(** what each error means *)
Theorem C29_errors : forall (U : unicode) (pattern : pystr) (ex : exn), unicode_ok U ->
  compactify U pattern = Err ex ->
  (ex = ValueError /\ forall l r, str_contains (lit "->") l = false -> str_contains (lit "->") r = false -> pattern <> l ++ lit "->" ++ r) \/
  exists ls r, pattern = str_join (lit ",") ls ++ lit "->" ++ r /\ ls <> [] /\ Forall (fun l => ~ In 44%N l) ls /\
    ((ex = EinopsError /\ ((exists l, In l ls /\ forall e, ~ written_as U true true l e) \/ (forall e, ~ written_as U true false r e))) \/
     exists es e, Forall2 (written_as U true true) ls es /\ written_as U true false r e /\
       ((ex = NotImplementedError /\ exists i, In i (concat es ++ e) /\ item_entry i = None) \/
        (ex = RuntimeError /\ 52 < length (distinct (flat_map expr_names es))) \/
        (ex = EinopsError /\ ~ incl (expr_names e) (flat_map expr_names es)))).
Proof. exact (fun U pattern ex HU => compactify_err U HU pattern ex). Qed.
Print Assumptions C29_errors.

Example C29_case :
  einsum_reads ascii_unicode (lit "batch h w, ... h w h ,h->h ... batch")
    [[EName (lit "batch"); EName (lit "h"); EName (lit "w")]; [EDots; EName (lit "h"); EName (lit "w"); EName (lit "h")]; [EName (lit "h")]]
    [EName (lit "h"); EDots; EName (lit "batch")] /\
  compactify ascii_unicode (lit "batch h w, ... h w h ,h->h ... batch") = Ok (lit "abc,...bcb,b->b...a").
Proof.
  split; [|vm_compute; reflexivity].
  exists [lit "batch h w"; lit " ... h w h "; lit "h"], (lit "h ... batch"). split; [reflexivity|]. split; [discriminate|]. split.
  - apply Forall2_cons; [solve_lists [nm "batch"; nm "h"; nm "w"]|].
    apply Forall2_cons; [solve_lists [dots3; nm "h"; nm "w"; nm "h"]|].
    apply Forall2_cons; [solve_lists [nm "h"]|apply Forall2_nil].
  - solve_lists [nm "h"; dots3; nm "batch"].
Qed.

Example C29_case_errors :
  compactify ascii_unicode (lit "a b, b") = Err ValueError /\
  compactify ascii_unicode (lit "a b -> a -> b") = Err ValueError /\
  compactify ascii_unicode (lit "a b, b -> b b") = Err EinopsError /\
  compactify ascii_unicode (lit "a b, b -> c") = Err EinopsError /\
  compactify ascii_unicode (lit "a (b c), b -> c") = Err NotImplementedError /\
  compactify ascii_unicode (lit "a 1 -> a") = Err NotImplementedError /\
  compactify ascii_unicode (lit "a b2 -> 2 b2") = Err NotImplementedError /\
  compactify ascii_unicode (lit "a0 a1 a2 a3 a4 a5 a6 a7 a8 a9 b0 b1 b2 b3 b4 b5 b6 b7 b8 b9 c0 c1 c2 c3 c4 c5 c6 c7 c8 c9 d0 d1 d2 d3 d4 d5 d6 d7 d8 d9 e0 e1 e2 e3 e4 e5 e6 e7 e8 e9 f0 f1 f2 -> a0") = Err RuntimeError.
Proof. vm_compute. repeat split. Qed.

(** Parentheses are not supported, but parentheses around one name or around the
    ellipsis are accepted; the latter is then an ordinary axis *)
Theorem C29_no_parentheses_refuted :
  compactify ascii_unicode (lit "(a) b, (b 1) -> a") = Ok (lit "ab,b->a") /\
  compactify ascii_unicode (lit "(...) a -> (...)") = Ok (lit "ab->a").
Proof. exact (conj eq_refl eq_refl). Qed.
Print Assumptions C29_no_parentheses_refuted.

(** ** C30: einsum computes the formula, for any library that does so for
    patterns of single letters *)
Theorem C30_einsum : forall (A : Type) (U : unicode) (add mul : A -> A -> A) (zero one : A)
    (lib : pystr -> list (tensor A) -> result (tensor A))
    (pattern : pystr) (Ls : list (list entry)) (R : list entry) (xs : list (tensor A)) (len : lab pystr -> nat),
  unicode_ok U ->
  (forall a b, add a b = add b a) -> (forall a b c, add a (add b c) = add (add a b) c) ->
  einsum_contract add mul zero one lib ->
  einsum_reads U pattern Ls R -> length (distinct (all_names Ls)) <= 52 ->
  good_call len (map to_term Ls) (to_term R) xs ->
  exists y, einsum_with U lib (map inl xs ++ [inr pattern]) = Ok y /\
    forall ms, summed (map to_term Ls) (to_term R) xs ms ->
      is_einsum str_eqb add mul zero one len (map to_term Ls) (to_term R) xs ms y.
Proof. exact (fun A U add mul zero one lib pattern Ls R xs len HU Hc Ha => einsum_formula U HU add mul zero one Hc Ha lib pattern Ls R xs len). Qed.
Print Assumptions C30_einsum.

(** wrong calls; a wrong pattern is reported before the library is called *)
Theorem C30_arguments : forall (A : Type) (U : unicode) (lib : pystr -> list (tensor A) -> result (tensor A)),
  (forall args, length args <= 1 -> einsum_with U lib args = Err ValueError) /\
  (forall args x, einsum_with U lib (args ++ [inl x]) = Err ValueError) /\
  (forall args pattern ex, args <> [] -> compactify U pattern = Err ex -> einsum_with U lib (args ++ [inr pattern]) = Err ex) /\
  (forall xs pattern c, xs <> [] -> compactify U pattern = Ok c -> einsum_with U lib (map inl xs ++ [inr pattern]) = lib c xs).
Proof. exact (fun A U lib => einsum_calls U lib). Qed.
Print Assumptions C30_arguments.

(** there are libraries that satisfy what is assumed *)
Theorem C30_library : forall (A : Type) (add mul : A -> A -> A) (zero one : A),
  einsum_contract add mul zero one (ref_einsum add mul zero one).
Proof. exact (fun A => @ref_einsum_contract A). Qed.
Print Assumptions C30_library.

Definition ex_len (l : lab pystr) : nat :=
  match l with
  | LName s => if str_eqb s (lit "i") then 2 else if str_eqb s (lit "j") then 3 else 2
  | LDot k => nth k [4; 2] 1
  end.
Example C30_case :
  let Ls := [[EName (lit "i"); EName (lit "i"); EName (lit "j")]; [EDots; EName (lit "j"); EName (lit "kk")]; [EDots; EName (lit "kk")]] in
  let R := [EDots; EName (lit "kk")] in
  let xs := [iota [2; 2; 3]; iota [1; 3; 2]; iota [2; 4; 2]] in
  let pattern := lit "i i j, ... j kk, ... kk -> ... kk" in
  einsum_reads ascii_unicode pattern Ls R /\
  length (distinct (all_names Ls)) <= 52 /\
  good_call ex_len (map to_term Ls) (to_term R) xs /\
  summed (map to_term Ls) (to_term R) xs [LName (lit "i"); LName (lit "j")] /\
  einsum_with ascii_unicode (ref_einsum Z.add Z.mul 0%Z 1%Z) (map inl xs ++ [inr pattern]) =
    Ok (mkT [2; 4; 2] [0; 107; 148; 321; 296; 535; 444; 749; 592; 963; 740; 1177; 888; 1391; 1036; 1605]%Z).
Proof.
  cbn zeta. split; [|split; [|split; [|split]]].
  - exists [lit "i i j"; lit " ... j kk"; lit " ... kk "], (lit " ... kk"). split; [reflexivity|]. split; [discriminate|]. split.
    + apply Forall2_cons; [solve_lists [nm "i"; nm "i"; nm "j"]|].
      apply Forall2_cons; [solve_lists [dots3; nm "j"; nm "kk"]|].
      apply Forall2_cons; [solve_lists [dots3; nm "kk"]|apply Forall2_nil].
    + solve_lists [dots3; nm "kk"].
  - vm_compute. repeat constructor.
  - split; [|split; [|split; [|split; [|split]]]].
    + repeat (apply Forall2_cons; [split; [reflexivity|]; split; [vm_compute; repeat constructor|vm_compute]|]);
        [repeat constructor|repeat (apply Forall2_cons; [first [reflexivity|right; reflexivity]|]); apply Forall2_nil
        |repeat (apply Forall2_cons; [first [reflexivity|left; reflexivity]|]); apply Forall2_nil|apply Forall2_nil].
    + cbv -[In]. solve_NoDup.
    + intros s Hs. vm_compute in Hs. destruct Hs as [<-|[]]. vm_compute. intuition.
    + vm_compute. repeat constructor.
    + intros _. left. reflexivity.
    + intros k Hk. vm_compute in Hk. exists (to_term [EDots; EName (lit "kk")]), (iota [2; 4; 2]). split; [right; right; left; reflexivity|].
      destruct k as [|[|k]]; [right; left; reflexivity|left; reflexivity|lia].
  - split; [cbv -[In]; solve_NoDup|]. intros l. split.
    + intros [<-|[<-|[]]]; vm_compute; intuition discriminate.
    + vm_compute. intuition (subst; try discriminate; try contradiction).
  - vm_compute. reflexivity.
Qed.
