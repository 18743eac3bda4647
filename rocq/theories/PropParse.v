(** * Patterns: C15, C16, C23, C38 *)
From Verif Require Import Py Tensor SpecSem SpecGrammar SpecForms SpecPattern SpecOps Parsing Compile Recipe Ops Backends Api Instances ParseFacts2 ParseFacts3 ParseLaws.

(** ** C15 *)
(** a space that does not separate two words does not matter *)
Theorem C15_redundant_space : forall (U : unicode) (au ad : bool) (k : nat) (a b : pystr),
  unicode_ok U -> redundant_between a b ->
  parse_expression U au ad k (a ++ c_space :: b) = parse_expression U au ad k (a ++ b).
Proof. exact (fun U au ad k a b HU H => same_words_parse U au ad k _ _ HU (redundant_words a b H)). Qed.
Print Assumptions C15_redundant_space.

(** any two layouts of the same words and parentheses are parsed alike, errors included *)
Theorem C15_layout : forall (U : unicode) (au ad : bool) (k : nat) (s s' : pystr),
  unicode_ok U -> same_words s s' -> parse_expression U au ad k s = parse_expression U au ad k s'.
Proof. exact same_words_parse. Qed.
Print Assumptions C15_layout.

(** [(a)] for [a], [()] for [1], 1s inside groups *)
Theorem C15_trivial_parentheses : forall (U : unicode) (au ad : bool) (k : nat) (s s' : pystr) (e e' : expr),
  unicode_ok U -> written_as U au ad s e -> written_as U au ad s' e' -> simple e = simple e' ->
  parse_expression U au ad k s = parse_expression U au ad k s'.
Proof. exact simple_parse. Qed.
Print Assumptions C15_trivial_parentheses.

Theorem C15_calls_layout : forall (A : Type) (r : runtime A) (l q l' q' : pystr),
  runtime_ok r -> no_arrow l -> no_arrow q -> no_arrow l' -> no_arrow q' -> same_words l l' -> same_words q q' ->
  let p := l ++ lit "->" ++ q in let p' := l' ++ lit "->" ++ q' in
  forall (x : input (tensor A)) (sizes : list (pystr * Z)),
    rearrange r x p sizes = rearrange r x p' sizes /\
    repeat_ r x p sizes = repeat_ r x p' sizes /\
    (forall red, reduce r x p red sizes = reduce r x p' red sizes) /\
    xp_rearrange r x p sizes = xp_rearrange r x p' sizes /\
    xp_repeat r x p sizes = xp_repeat r x p' sizes /\
    (forall red, xp_reduce_ r x p red sizes = xp_reduce_ r x p' red sizes).
Proof. exact (fun A r l q l' q' Hok => calls_words r Hok l q l' q'). Qed.
Print Assumptions C15_calls_layout.

Theorem C15_calls_trivial_parentheses : forall (A : Type) (r : runtime A) (p p' : pystr) (L R L' R' : expr),
  runtime_ok r -> reads (rt_unicode r) p L R -> reads (rt_unicode r) p' L' R' -> simple L = simple L' -> simple R = simple R' ->
  forall (x : input (tensor A)) (sizes : list (pystr * Z)),
    rearrange r x p sizes = rearrange r x p' sizes /\
    repeat_ r x p sizes = repeat_ r x p' sizes /\
    (forall red, reduce r x p red sizes = reduce r x p' red sizes) /\
    xp_rearrange r x p sizes = xp_rearrange r x p' sizes /\
    xp_repeat r x p sizes = xp_repeat r x p' sizes /\
    (forall red, xp_reduce_ r x p red sizes = xp_reduce_ r x p' red sizes).
Proof. exact (fun A r p p' L R L' R' Hok => calls_simple r Hok p p' L R L' R'). Qed.
Print Assumptions C15_calls_trivial_parentheses.

Example C15_case_space :
  redundant_between (lit "a (b ") (lit " c)1") /\ redundant_between (lit "a (") (lit "b c)1") /\
  parse_expression ascii_unicode false false 0 (lit "a (b c)1") =
  Ok ({| p_has_ellipsis := false; p_ell_par := None;
         p_identifiers := [AxName (lit "a"); AxName (lit "b"); AxName (lit "c")]; p_anon := false;
         p_composition := [CGrp [AxName (lit "a")]; CGrp [AxName (lit "b"); AxName (lit "c")]; CGrp []] |}, 0).
Proof.
  split; [right; right; left; exists (lit "a (b"), c_space; split; [reflexivity|right; right; reflexivity]|].
  split; [right; right; left; exists (lit "a "), c_open; split; [reflexivity|left; reflexivity]|].
  vm_compute. reflexivity.
Qed.
Example C15_case_forms :
  written_as ascii_unicode false false (lit "a (1 b 1 c) 1 ...") [nm "a"; Group [ANum 1; AName (lit "b"); ANum 1; AName (lit "c")]; Atom (ANum 1); dots3] /\
  written_as ascii_unicode false false (lit "(a)(b c)()...") [Group [AName (lit "a")]; Group [AName (lit "b"); AName (lit "c")]; Group []; dots3] /\
  simple [nm "a"; Group [ANum 1; AName (lit "b"); ANum 1; AName (lit "c")]; Atom (ANum 1); dots3] =
  simple [Group [AName (lit "a")]; Group [AName (lit "b"); AName (lit "c")]; Group []; dots3].
Proof. split; [solve_written|]. split; [solve_written|reflexivity]. Qed.

(** ** C16 *)
(** accepted, and with what result, iff it is a legal way to write an expression *)
Theorem C16_accepts : forall (U : unicode) (au ad : bool) (k : nat) (s : pystr) (p : parsed * nat),
  unicode_ok U ->
  (parse_expression U au ad k s = Ok p <-> exists e, written_as U au ad s e /\ p = compile k e).
Proof. exact (fun U au ad k s p HU => parse_expression_iff U HU au ad k s p). Qed.
Print Assumptions C16_accepts.

Theorem C16_unambiguous : forall (U : unicode) (au ad : bool) (s : pystr) (e1 e2 : expr),
  unicode_ok U -> written_as U au ad s e1 -> written_as U au ad s e2 -> e1 = e2.
Proof. exact written_fun. Qed.
Print Assumptions C16_unambiguous.

Theorem C16_error : forall (U : unicode) (au ad : bool) (k : nat) (s : pystr) (e : exn),
  parse_expression U au ad k s = Err e -> e = EinopsError.
Proof. exact parse_expression_err. Qed.
Print Assumptions C16_error.

Example C16_case_accepted :
  written_as ascii_unicode false false (lit "b1 (x_2 3 ...)  1 ()") [nm "b1"; Group [AName (lit "x_2"); ANum 3; ADots]; Atom (ANum 1); Group []] /\
  parse_expression ascii_unicode false false 7 (lit "b1 (x_2 3 ...)  1 ()") =
  Ok ({| p_has_ellipsis := true; p_ell_par := Some true;
         p_identifiers := [AxName (lit "b1"); AxName (lit "x_2"); AxAnon 7 3; AxName ell_name]; p_anon := true;
         p_composition := [CGrp [AxName (lit "b1")]; CGrp [AxName (lit "x_2"); AxAnon 7 3; AxName ell_name]; CGrp []; CGrp []] |}, 8).
Proof. split; [solve_written|vm_compute; reflexivity]. Qed.
Example C16_case_rejected :
  Forall (fun s => parse_expression ascii_unicode false false 0 s = Err EinopsError)
    [lit "a a"; lit "(a (b))"; lit "(a"; lit "a)"; lit "a 0"; lit "a -1"; lit "_a"; lit "a_"; lit "2a"; lit "... ..."; lit "a.b"; lit ".."; lit "a, b"; lit "_"].
Proof. repeat (constructor; [vm_compute; reflexivity|]). constructor. Qed.

(** The documentation has no such name: the one-character word U+2026, which is
    what the parser turns [...] into, is taken as an axis by itself. *)
Theorem C16_ellipsis_character_refuted : forall (U : unicode), unicode_ok U ->
  exists p, parse_expression U false false 0 (lit "a " ++ [c_ell]) = Ok p /\ p_has_ellipsis (fst p) = false /\
    p_composition (fst p) = [CGrp [AxName (lit "a")]; CEll].
Proof. exact ellipsis_character. Qed.
Print Assumptions C16_ellipsis_character_refuted.

(** ** C23 *)
Theorem C23_parse_shape : forall (U : unicode) (pattern : pystr) (shape : list Z) (d : list (pystr * Z)),
  unicode_ok U ->
  (parse_shape U shape pattern = Ok d <->
   exists e, written_as U true false pattern e /\ shape_ok e shape /\ d = shape_dict e shape).
Proof. exact (fun U pattern shape d HU => parse_shape_iff U HU pattern shape d). Qed.
Print Assumptions C23_parse_shape.

(** the result is a dict: no key twice *)
Theorem C23_keys : forall (U : unicode) (pattern : pystr) (shape : list Z) (d : list (pystr * Z)),
  unicode_ok U -> parse_shape U shape pattern = Ok d -> NoDup (map fst d).
Proof. exact (fun U pattern shape d HU => parse_shape_keys U HU pattern shape d). Qed.
Print Assumptions C23_keys.

(** what it says: a name at position [i] before the ellipsis stands for dimension
    [i]; a name after it counts from the end; and there are no other entries *)
Theorem C23_entries : forall (U : unicode) (pattern : pystr) (shape : list Z) (d : list (pystr * Z)) (s : pystr) (n : Z),
  unicode_ok U -> parse_shape U shape pattern = Ok d ->
  (In (s, n) d <->
   s <> [c_under] /\
   exists e before i after, written_as U true false pattern e /\ e = before ++ i :: after /\ content i = [AName s] /\
     ((~ In (Atom ADots) before /\ nth_error shape (length before) = Some n) \/
      (In (Atom ADots) before /\ nth_error shape (length shape - S (length after)) = Some n))).
Proof. exact (fun U pattern shape d s n HU => parse_shape_entries U HU pattern shape d s n). Qed.
Print Assumptions C23_entries.

(** failures *)
Theorem C23_errors : forall (U : unicode) (pattern : pystr) (shape : list Z) (e : exn),
  unicode_ok U -> parse_shape U shape pattern = Err e ->
  e = EinopsError /\ (forall t, ~ written_as U true false pattern t) \/
  e = RuntimeError \/
  e = ValueError /\ exists t, written_as U true false pattern t /\ grouped_dots t.
Proof. exact (fun U pattern shape e HU => parse_shape_errors U HU pattern shape e). Qed.
Print Assumptions C23_errors.

Example C23_case :
  parse_shape ascii_unicode [2; 3; 5; 1; 7]%Z (lit "a _ ... (1) (b)") = Ok [(lit "a", 2); (lit "b", 7)]%Z /\
  parse_shape ascii_unicode [2; 3]%Z (lit "a 4") = Err RuntimeError /\
  parse_shape ascii_unicode [2; 3]%Z (lit "a (b c)") = Err RuntimeError /\
  parse_shape ascii_unicode [2; 3]%Z (lit "a a") = Err EinopsError /\
  parse_shape ascii_unicode [2]%Z (lit "(...)") = Err ValueError.
Proof. repeat split; vm_compute; reflexivity. Qed.

(** ** C38 *)
Theorem C38_open_grid : forall (A : Type) (r : runtime A) (x : tensor A),
  exists ts, enumerate_directions int_ops (rt_backend r) x = Ok ts /\ length ts = length (shp x) /\
    forall k t, nth_error ts k = Some t ->
      wf t /\ shp t = repeat 1 k ++ nth k (shp x) 0 :: repeat 1 (length (shp x) - S k) /\
      forall idx, inb (shp t) idx = true -> get t idx = Some (rt_num r (nth k idx 0)).
Proof. exact @directions. Qed.
Print Assumptions C38_open_grid.

Example C38_case :
  enumerate_directions int_ops (rt_backend numpy_like) (iota [2; 3]) =
  Ok [mkT [2; 1] [0; 1]%Z; mkT [1; 3] [0; 1; 2]%Z].
Proof. vm_compute. reflexivity. Qed.
