(** * C72: spelling of patterns and order of lengths, for layers, EinMix, einsum,
    pack, unpack and parse_shape *)
From Coq Require Import Permutation.
From Verif Require Import Py Tensor SpecSem SpecGrammar SpecForms SpecEinsum SpecPattern SpecOps SpecEinMix SpecSpelling
  Parsing Recipe Ops Backends Api Packing Layers Einsum EinMix EinsumFacts2 EinsumFacts4 ApiFacts ParseFacts MixFacts9 SpellingFacts Instances PropEinsum PropEinMix.

(** ** Rearrange and Reduce *)
Theorem C72_layers : forall (A : Type) (U : unicode) (os os' : nat -> orders) (sizes sizes' : list (pystr * Z)) (l q l' q' : pystr),
  unicode_ok U -> (forall n, orders_ok (os n)) -> (forall n, orders_ok (os' n)) -> NoDup (map fst sizes) -> Permutation sizes sizes' ->
  no_arrow l -> no_arrow q -> no_arrow l' -> no_arrow q' -> same_side U l l' -> same_side U q q' ->
  let same (P P' : layer (tensor A)) := forall r x, runtime_ok r -> rt_unicode r = U -> call_layer r P' x = call_layer r P x in
  same_outcome same (Rearrange U os (l ++ lit "->" ++ q) sizes) (Rearrange U os' (l' ++ lit "->" ++ q') sizes') /\
  forall red, same_outcome same (Reduce U os (l ++ lit "->" ++ q) red sizes) (Reduce U os' (l' ++ lit "->" ++ q') red sizes').
Proof. exact (fun A U os os' sizes sizes' l q l' q' => layer_spellings U os os' sizes sizes' l q l' q'). Qed.
Print Assumptions C72_layers.

(** ** EinMix.  Parentheses are not allowed in the shape of the weight *)
Theorem C72_einmix : forall (A : Type) (U : unicode) (os1 os1' os2 os2' : nat -> orders) (l q l' q' wt wt' : pystr) (bt bt' : option pystr)
    (sizes sizes' : list (pystr * Z)),
  unicode_ok U -> (forall n, orders_ok (os1 n)) -> (forall n, orders_ok (os1' n)) -> (forall n, orders_ok (os2 n)) -> (forall n, orders_ok (os2' n)) ->
  no_arrow l -> no_arrow q -> no_arrow l' -> no_arrow q' -> same_side U l l' -> same_side U q q' -> same_words wt wt' -> same_option (same_side U) bt bt' ->
  NoDup (map fst sizes) -> Permutation sizes sizes' ->
  same_outcome (fun M M' : einmix (tensor A) =>
      em_weight M' = em_weight M /\ em_bias M' = em_bias M /\ em_fan_in M' = em_fan_in M /\ em_einsum M' = em_einsum M /\
      forall r lib iadd w b x, runtime_ok r -> rt_unicode r = U -> call_einmix r lib iadd M' w b x = call_einmix r lib iadd M w b x)
    (EinMix U os1 os1' (l ++ lit "->" ++ q) wt bt sizes) (EinMix U os2 os2' (l' ++ lit "->" ++ q') wt' bt' sizes').
Proof. exact (fun A U os1 os1' os2 os2' l q l' q' wt wt' bt bt' sizes sizes' => einmix_spellings U os1 os1' os2 os2' l q l' q' wt wt' bt bt' sizes sizes'). Qed.
Print Assumptions C72_einmix.

(** ** einsum *)
Theorem C72_einsum : forall (T : Type) (U : unicode) (lib_einsum : pystr -> list T -> result T) (args : list (T + pystr)) (ls ls' : list pystr) (q q' : pystr),
  unicode_ok U -> ls <> [] -> Forall2 (same_side_as U true true) ls ls' -> same_side_as U true false q q' ->
  Forall no_comma ls -> Forall no_comma ls' ->
  no_arrow (str_join (lit ",") ls) -> no_arrow (str_join (lit ",") ls') -> no_arrow q -> no_arrow q' ->
  einsum_with U lib_einsum (args ++ [inr (str_join (lit ",") ls ++ lit "->" ++ q)]) =
  einsum_with U lib_einsum (args ++ [inr (str_join (lit ",") ls' ++ lit "->" ++ q')]).
Proof.
  exact (fun T U lib args ls ls' q q' HU H1 H2 H3 H4 H5 H6 H7 H8 H9 =>
    einsum_spelled U lib args _ _ (compactify_spelled U HU ls ls' q q' H1 H2 H3 H4 H5 H6 H7 H8 H9)).
Qed.
Print Assumptions C72_einsum.

(** ** parse_shape *)
Theorem C72_parse_shape : forall (U : unicode) (shape : list Z) (s s' : pystr),
  unicode_ok U -> same_side_as U true false s s' -> parse_shape U shape s = parse_shape U shape s'.
Proof. exact (fun U shape s s' HU => parse_shape_spelled U HU shape s s'). Qed.
Print Assumptions C72_parse_shape.

(** ** pack and unpack: any white space *)
Theorem C72_pack : forall (A : Type) (r : runtime A) (p p' : pystr), same_list (rt_unicode r) p p' ->
  (forall xs, pack r xs p = pack r xs p' /\ xp_pack r xs p = xp_pack r xs p') /\
  (forall x ps, unpack r x ps p = unpack r x ps p' /\ xp_unpack r x ps p = xp_unpack r x ps p').
Proof. exact (fun A r p p' => pack_spelled r p p'). Qed.
Print Assumptions C72_pack.

(** ** Cases *)
Ltac solve_words := lazymatch goal with |- same_words ?s _ => exists (lex None s); split; apply spells_iff; reflexivity end.
Example C72_einmix_case :
  let sizes := [(lit "c", 3%Z); (lit "d", 2%Z); (lit "h", 2%Z)] in
  let sizes' := [(lit "h", 2%Z); (lit "c", 3%Z); (lit "d", 2%Z)] in
  same_side ascii_unicode (lit "... (h c) ") (lit " ...(1 h  c 1)") /\ same_side ascii_unicode (lit " ... (d h)") (lit " ... ( d h )") /\
  same_words (lit "h c d") (lit "  h c  d ") /\ same_option (same_side ascii_unicode) (Some (lit "d")) (Some (lit "(d)")) /\ Permutation sizes sizes' /\
  exists M M' : einmix (tensor Z), EinMix ascii_unicode (fun _ => forward) (fun _ => backward) (lit "... (h c) -> ... (d h)") (lit "h c d") (Some (lit "d")) sizes = Ok M /\
    EinMix ascii_unicode (fun _ => backward) (fun _ => forward) (lit " ...(1 h  c 1)-> ... ( d h )") (lit "  h c  d ") (Some (lit "(d)")) sizes' = Ok M' /\
    em_einsum M' = em_einsum M /\
    call_einmix numpy_like (ref_einsum Z.add Z.mul 0%Z 1%Z) (ref_iadd Z.add 0%Z) M' (iota [2; 3; 2]) (Some (iota [2; 1])) (iota [2; 6]) =
      Ok (mkT [2; 4] [10; 100; 14; 113; 46; 244; 68; 275]%Z).
Proof.
  cbn zeta. split.
  { right. exists [dots3; grp [lit "h"; lit "c"]], [dots3; Group [ANum 1; AName (lit "h"); AName (lit "c"); ANum 1]].
    split; [solve_written|]. split; [solve_written|]. vm_compute. reflexivity. }
  split; [left; solve_words|]. split; [solve_words|]. split.
  { cbn [same_option]. right. exists [nm "d"], [grp [lit "d"]]. split; [solve_written|]. split; [solve_written|]. vm_compute. reflexivity. }
  split; [apply Permutation_sym; eapply Permutation_trans; [apply perm_swap|]; apply perm_skip, perm_swap|].
  eexists. eexists. split; [vm_compute; reflexivity|]. split; [vm_compute; reflexivity|]. split; vm_compute; reflexivity.
Qed.

Example C72_einsum_case :
  Forall2 (same_side_as ascii_unicode true true) [lit "i j"; lit " j k"] [lit "i  j"; lit "j k "] /\ same_words (lit " i k") (lit " i  k ") /\
  no_arrow (str_join (lit ",") [lit "i  j"; lit "j k "]) /\
  compactify ascii_unicode (lit "i j, j k-> i k") = Ok (lit "ab,bc->ac") /\ compactify ascii_unicode (lit "i  j,j k -> i  k ") = Ok (lit "ab,bc->ac").
Proof.
  split; [constructor; [left; solve_words|constructor; [left; solve_words|constructor]]|]. split; [solve_words|].
  split; [apply no_arrow_free; vm_compute; reflexivity|]. split; vm_compute; reflexivity.
Qed.

Example C72_parse_shape_case :
  same_side_as ascii_unicode true false (lit "a b 1") (lit " a  (b) ()") /\ same_list ascii_unicode (lit "a * b") (lit "  a  * b") /\
  parse_shape ascii_unicode [2; 3; 1]%Z (lit "a b 1") = Ok [(lit "a", 2%Z); (lit "b", 3%Z)] /\
  pack numpy_like [iota [2; 3; 4]] (lit "  a  * b") = Ok (iota [2; 3; 4], [[3%Z]]).
Proof.
  split; [|split; [vm_compute; reflexivity|split; vm_compute; reflexivity]].
  right. exists [nm "a"; nm "b"; Atom (ANum 1)], [nm "a"; grp [lit "b"]; Group []].
  split; [solve_written|]. split; [solve_written|]. vm_compute. reflexivity.
Qed.
