(** * einops/tests/test_parsing.py and the part of test_other.py about parse_shape *)
From Verif Require Import Py Tensor Parsing Recipe Ops Backends SpecGrammar ParseFacts Api Instances TestBase.

(** one letter outside ASCII is needed *)
Definition latin : unicode := {|
  u_alnum := fun c => ascii_letter c || ascii_digit c || (c =? 223)%N;
  u_digit := fun c => if ascii_digit c then Some (c - 48)%N else None;
  u_idstart := fun c => ascii_letter c || (c =? c_under)%N || (c =? 223)%N;
  u_idcont := fun c => ascii_letter c || ascii_digit c || (c =? c_under)%N || (c =? 223)%N;
  u_space := ascii_space
|}.
Notation parse s := (parse_expression latin false false 0 (lit s)).

(** test_parsing.py:18-24: the first comparison; the others are about placeholders *)
Definition test_anonymous_axes : Prop := axis_eqb (AxAnon 0 2) (AxAnon 1 2) = false.
Succeed Definition holds : test_anonymous_axes := ltac:(vm_compute; repeat split).
(** test_parsing.py:27-45 *)
Definition test_elementary_axis_name : Prop :=
  forallb (check_axis_name latin false)
    [lit "a"; lit "b"; lit "h"; lit "dx"; lit "h1"; lit "zz"; lit "i9123"; lit "somelongname"; lit "Alex"; lit "camelCase"; lit "u_n_d_e_r_score"; lit "unreasonablyLongAxisName"] = true /\
  existsb (check_axis_name latin false) [lit ""; lit "2b"; lit "12"; lit "_startWithUnderscore"; lit "endWithUnderscore_"; lit "_"; lit "..."; ellipsis_str] = false.
Succeed Definition holds : test_elementary_axis_name := ltac:(vm_compute; repeat split).
(** test_parsing.py:48-78 *)
Definition test_invalid_expressions : Prop :=
  works (parse "... a b c d") = true /\
  raises_with EinopsError (parse "... a b c d ...") = true /\
  raises_with EinopsError (parse "... a b c (d ...)") = true /\
  raises_with EinopsError (parse "(... a) b c (d ...)") = true /\
  works (parse "(a) b c (d ...)") = true /\
  raises_with EinopsError (parse "(a)) b c (d ...)") = true /\
  raises_with EinopsError (parse "(a b c (d ...)") = true /\
  raises_with EinopsError (parse "(a) (()) b c (d ...)") = true /\
  raises_with EinopsError (parse "(a) ((b c) (d ...))") = true /\
  works (parse_expression latin false false 0 (lit "camelCase under_scored cApiTaLs " ++ [223%N] ++ lit " ...")) = true /\
  raises_with EinopsError (parse "1a") = true /\
  raises_with EinopsError (parse "_pre") = true /\
  raises_with EinopsError (parse "...pre") = true /\
  raises_with EinopsError (parse "pre...") = true.
Succeed Definition holds : test_invalid_expressions := ltac:(vm_compute; repeat split).
(** test_parsing.py:81-131.  The numbers of the anonymous axes are their identities *)
Notation names l := (CGrp (map (fun s => AxName s) l)).
Definition fields (a : result (parsed * nat)) := match a with Ok (p, _) => Some (p_identifiers p, p_composition p, p_anon p, p_has_ellipsis p, p_ell_par p) | Err _ => None end.
Definition test_parse_expression : Prop :=
  fields (parse "a1  b1   c1    d1") =
    Some ([AxName (lit "a1"); AxName (lit "b1"); AxName (lit "c1"); AxName (lit "d1")], [names [lit "a1"]; names [lit "b1"]; names [lit "c1"]; names [lit "d1"]], false, false, None) /\
  fields (parse "() () () ()") = Some ([], [CGrp []; CGrp []; CGrp []; CGrp []], false, false, None) /\
  fields (parse "1 1 1 ()") = Some ([], [CGrp []; CGrp []; CGrp []; CGrp []], false, false, None) /\
  fields (parse "5 (3 4)") = Some ([AxAnon 0 5; AxAnon 1 3; AxAnon 2 4], [CGrp [AxAnon 0 5]; CGrp [AxAnon 1 3; AxAnon 2 4]], true, false, None) /\
  fields (parse "5 1 (1 4) 1") = Some ([AxAnon 0 5; AxAnon 1 4], [CGrp [AxAnon 0 5]; CGrp []; CGrp [AxAnon 1 4]; CGrp []], true, false, None) /\
  fields (parse "name1 ... a1 12 (name2 14)") =
    Some ([AxName (lit "name1"); ax_ellipsis; AxName (lit "a1"); AxAnon 0 12; AxName (lit "name2"); AxAnon 1 14],
          [names [lit "name1"]; CEll; names [lit "a1"]; CGrp [AxAnon 0 12]; CGrp [AxName (lit "name2"); AxAnon 1 14]], true, true, Some false) /\
  fields (parse "(name1 ... a1 12) name2 14") =
    Some ([AxName (lit "name1"); ax_ellipsis; AxName (lit "a1"); AxAnon 0 12; AxName (lit "name2"); AxAnon 1 14],
          [CGrp [AxName (lit "name1"); ax_ellipsis; AxName (lit "a1"); AxAnon 0 12]; names [lit "name2"]; CGrp [AxAnon 1 14]], true, true, Some true).
Succeed Definition holds : test_parse_expression := ltac:(vm_compute; repeat split).

(** test_other.py:79-176 *)
Notation shape_of l s := (parse_shape latin l (lit s)).
Definition x_np : list Z := [10; 20; 30; 40]%Z.
Definition test_parse_shape_imperative : Prop := same_sizes_ (shape_of x_np "a b c d") [(lit "a", 10%Z); (lit "b", 20%Z); (lit "c", 30%Z); (lit "d", 40%Z)] = true /\
  same_sizes_ (shape_of x_np "a b c d") [(lit "a", 1%Z); (lit "b", 20%Z); (lit "c", 30%Z); (lit "d", 40%Z)] = false.
Succeed Definition holds : test_parse_shape_imperative := ltac:(vm_compute; repeat split).
Definition test_underscore : Prop := same_sizes_ (shape_of x_np "_ _ _ _") [] = true /\ same_sizes_ (shape_of x_np "_ _ _ hello") [(lit "hello", 40%Z)] = true /\
  same_sizes_ (shape_of x_np "_ _ a1 a1a111a") [(lit "a1", 30%Z); (lit "a1a111a", 40%Z)] = true.
Succeed Definition holds : test_underscore := ltac:(vm_compute; repeat split).
Definition test_repeating : Prop := raises_with EinopsError (shape_of x_np "a a b b") = true.
Succeed Definition holds : test_repeating := ltac:(vm_compute; repeat split).
Definition test_ellipsis : Prop := forallb (fun '(l, s, e) => same_sizes_ (parse_shape latin l s) e)
  [([10; 20]%Z, lit "...", []); ([10]%Z, lit "... a", [(lit "a", 10%Z)]); ([10; 20]%Z, lit "... a", [(lit "a", 20%Z)]); ([10; 20; 30]%Z, lit "... a", [(lit "a", 30%Z)]);
   ([10; 20; 30; 40]%Z, lit "... a", [(lit "a", 40%Z)]); ([10]%Z, lit "a ...", [(lit "a", 10%Z)]); ([10; 20]%Z, lit "a ...", [(lit "a", 10%Z)]);
   ([10; 20; 30]%Z, lit "a ...", [(lit "a", 10%Z)]); ([10; 20; 30; 40]%Z, lit "a ...", [(lit "a", 10%Z)]);
   ([10; 20; 30; 40]%Z, lit " a ... b", [(lit "a", 10%Z); (lit "b", 40%Z)]); ([10; 40]%Z, lit " a ... b", [(lit "a", 10%Z); (lit "b", 40%Z)])] = true.
Succeed Definition holds : test_ellipsis := ltac:(vm_compute; repeat split).
Definition test_parse_with_anonymous_axes : Prop := forallb (fun '(l, s, e) => same_sizes_ (parse_shape latin l s) e)
  [([1; 2; 3; 4]%Z, lit "1 2 3 a", [(lit "a", 4%Z)]); ([10; 1; 2]%Z, lit "a 1 2", [(lit "a", 10%Z)]); ([10; 1; 2]%Z, lit "a () 2", [(lit "a", 10%Z)])] = true.
Succeed Definition holds : test_parse_with_anonymous_axes := ltac:(vm_compute; repeat split).
Definition test_failures : Prop := forallb (fun s => raises_with RuntimeError (parse_shape latin [1; 2; 3; 4]%Z s))
  [lit "a b c"; lit "2 a b c"; lit "a b c ()"; lit "a b c d e"; lit "a b c d e ..."; lit "a b c ()"] = true.
Succeed Definition holds : test_failures := ltac:(vm_compute; repeat split).
