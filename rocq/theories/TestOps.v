(** * einops/tests/test_ops.py *)
From Verif Require Import Py Tensor Parsing Recipe Ops Backends Api Instances TestBase.

Notation everywhere f := (forallb (fun fw : framework => f (runtime_for fw)) imperative).
Definition x5 : tensor Z := iota [2; 3; 4; 5; 6].
Definition x4 : tensor Z := iota [2; 3; 2; 2; 3].

(** test_ops.py:14-39 *)
Definition identity_patterns : list pystr :=
  [lit "...->..."; lit "a b c d e-> a b c d e"; lit "a b c d e ...-> ... a b c d e"; lit "a b c d e ...-> a ... b c d e";
   lit "... a b c d e -> ... a b c d e"; lit "a ... e-> a ... e"; lit "a ... -> a ... "; lit "a ... c d e -> a (...) c d e"].
Definition equivalent_rearrange_patterns : list (pystr * pystr) :=
  [(lit "a b c d e -> (a b) c d e", lit "a b ... -> (a b) ... "); (lit "a b c d e -> a b (c d) e", lit "... c d e -> ... (c d) e");
   (lit "a b c d e -> a b c d e", lit "... -> ... "); (lit "a b c d e -> (a b c d e)", lit "... ->  (...)");
   (lit "a b c d e -> b (c d e) a", lit "a b ... -> b (...) a"); (lit "a b c d e -> b (a c d) e", lit "a b ... e -> b (a ...) e")].
Definition equivalent_reduction_patterns : list (pystr * pystr) :=
  [(lit "a b c d e -> ", lit " ... ->  "); (lit "a b c d e -> (e a)", lit "a ... e -> (e a)");
   (lit "a b c d e -> d (a e)", lit " a b c d e ... -> d (a e) "); (lit "a b c d e -> (a b)", lit " ... c d e  -> (...) ")].

(** test_ops.py:42-50 *)
Definition test_collapsed_ellipsis_errors_out : Prop := let x := One (iota [1; 1; 1; 1; 1]) in
  works (rearrange numpy_like x (lit "a b c d ... ->  a b c ... d") []) = true /\
  raises_with EinopsError (rearrange numpy_like x (lit "a b c d (...) ->  a b c ... d") []) = true /\
  works (rearrange numpy_like x (lit "... ->  (...)") []) = true /\
  raises_with EinopsError (rearrange numpy_like x (lit "(...) -> (...)") []) = true.
Succeed Definition holds : test_collapsed_ellipsis_errors_out := ltac:(vm_compute; repeat split).

(** test_ops.py:53-67 *)
Definition test_ellipsis_ops_numpy : Prop :=
  forallb (fun p => same (Ok x5) (rearrange numpy_like (One x5) p [])) identity_patterns = true /\
  forallb (fun '(p, q) => same (rearrange numpy_like (One x5) p []) (rearrange numpy_like (One x5) q [])) equivalent_rearrange_patterns = true /\
  forallb (fun red => forallb (fun '(p, q) => same (reduce numpy_like (One x5) p (RStr red) []) (reduce numpy_like (One x5) q (RStr red) [])) equivalent_reduction_patterns)
    [lit "min"; lit "max"; lit "sum"] = true.
Succeed Definition holds : test_ellipsis_ops_numpy := ltac:(vm_compute; repeat split).

(** test_ops.py:98-112 (the eager part) *)
Definition both {X} (l : list (X * X)) : list X := flat_map (fun '(p, q) => [p; q]) l.
Definition test_ellipsis_ops_imperative : Prop := everywhere (fun r : runtime Z =>
  forallb (fun p => same (rearrange numpy_like (One x4) p []) (rearrange r (One x4) p [])) (identity_patterns ++ both equivalent_rearrange_patterns) &&
  forallb (fun red => forallb (fun p => same (reduce numpy_like (One x4) p (RStr red) []) (reduce r (One x4) p (RStr red) [])) (both equivalent_reduction_patterns))
    [lit "min"; lit "max"; lit "sum"]) = true.
Succeed Definition holds : test_ellipsis_ops_imperative := ltac:(vm_compute; repeat split).

(** test_ops.py:115-141 *)
Definition test_array_api : Prop :=
  forallb (fun p => same (rearrange numpy_like (One x5) p []) (xp_rearrange numpy_like (One x5) p [])) (identity_patterns ++ both equivalent_rearrange_patterns) = true /\
  forallb (fun red => forallb (fun p => same (reduce numpy_like (One x5) p (RStr red) []) (xp_reduce_ numpy_like (One x5) p (RStr red) [])) (both equivalent_reduction_patterns))
    [lit "min"; lit "max"; lit "sum"] = true.
Succeed Definition holds : test_array_api := ltac:(vm_compute; repeat split).

(** test_ops.py:144-179 *)
Definition x6 : tensor Z := iota [1; 2; 3; 5; 7; 11].
Definition values (t : tensor Z) : tensor Z := mkT [length (dat t)] (dat t).
Definition subset (a b : list Z) : bool := forallb (fun v => existsb (Z.eqb v) b) a.
Definition six : list (pystr * Z) := [(lit "a", 1%Z); (lit "b", 2%Z); (lit "c", 3%Z); (lit "d", 5%Z); (lit "e", 7%Z); (lit "f", 11%Z)].
Definition then_ (a : result (tensor Z)) (f : tensor Z -> result (tensor Z)) : result (tensor Z) := bind a f.
Definition test_rearrange_consistency_numpy : Prop :=
  forallb (fun p => match rearrange numpy_like (One (iota [1; 2; 3; 2; 3; 2])) p [] with Ok y => subset (map Z.of_nat (seq 0 72)) (dat y) | _ => false end)
    [lit "a b c d e f -> a b c d e f"; lit "b a c d e f -> a b d e f c"; lit "a b c d e f -> f e d c b a"; lit "a b c d e f -> (f e) d (c b a)"; lit "a b c d e f -> (f e d c b a)"] = true /\
  match rearrange numpy_like (One x6) (lit "a b c d e f -> a (b) (c d e) f") [] with Ok y => tensor_eqb (values y) (values x6) | _ => false end = true /\
  same (Ok x6) (rearrange numpy_like (One x6) (lit "a aa aa1 a1a1 aaaa a11 -> a aa aa1 a1a1 aaaa a11") []) = true /\
  same (rearrange numpy_like (One x6) (lit "a b c d e f -> f e d c b a") []) (rearrange numpy_like (One x6) (lit "f e d c b a -> a b c d e f") []) = true /\
  same (Ok x6) (then_ (rearrange numpy_like (One x6) (lit "a b c d e f -> (f d) c (e b) a") [])
                 (fun y => rearrange numpy_like (One y) (lit "(f d) c (e b) a -> a b c d e f") [(lit "b", 2%Z); (lit "d", 5%Z)])) = true /\
  same (Ok x6) (then_ (rearrange numpy_like (One x6) (lit "a b c d e f -> (f d) c (e b) a") six)
                 (fun y => rearrange numpy_like (One y) (lit "(f d) c (e b) a -> a b c d e f") six)) = true /\
  match rearrange numpy_like (One (iota [2; 3; 4])) (lit "a b c -> b c a") [] with
  | Ok y => get y [2; 3; 1] = get (iota [2; 3; 4]) [1; 2; 3] /\ get y [1; 2; 0] = get (iota [2; 3; 4]) [0; 1; 2]
  | _ => False end.
Succeed Definition holds : test_rearrange_consistency_numpy := ltac:(vm_compute; repeat split).

(** test_ops.py:182-207: permutations of axes against transpose *)
Definition digits (n : nat) : pystr := [N.of_nat (48 + n)].
Definition names_of (c : N) (l : list nat) : pystr := str_join (lit " ") (map (fun k => c :: digits k) l).
Definition test_rearrange_permutations_numpy : Prop :=
  forallb (fun perm => let n := length perm in let x := iota (repeat 2 n) in
     same (t_transpose x perm) (rearrange numpy_like (One x) (names_of 105%N (seq 0 n) ++ lit " -> " ++ names_of 105%N perm) []))
    [[0]; [1; 0]; [2; 0; 1]; [1; 3; 0; 2]; [4; 2; 0; 1; 3]; [0; 5; 1; 4; 2; 3]; [6; 5; 4; 3; 2; 1; 0]; [3; 7; 1; 0; 5; 2; 6; 4]; [8; 1; 6; 3; 4; 5; 2; 7; 0]] = true.
Succeed Definition holds : test_rearrange_permutations_numpy := ltac:(vm_compute; repeat split).

(** test_ops.py:210-243, against reductions of the whole tensor and of two axes *)
Definition red_of (s : pystr) (t : tensor Z) (axes : list nat) : result (tensor Z) := t_reduce (z_red s) t axes.
Definition ec (s : pystr) (t : tensor Z) (final : list Z) : result (tensor Z) :=
  let* y := red_of s t [1; 3] in let* y := t_transpose y [2; 1; 0] in t_reshape true y final.
Definition test_reduction_imperatives : Prop := everywhere (fun r : runtime Z => forallb (fun s => let x := x4 in
  same (reduce r (One x) (lit "a b c d e -> ") (RStr s) []) (red_of s x [0; 1; 2; 3; 4]) &&
  same (reduce r (One x) (lit "a ... -> ") (RStr s) []) (red_of s x [0; 1; 2; 3; 4]) &&
  same (reduce r (One x) (lit "(a1 a2) ... (e1 e2) -> ") (RStr s) [(lit "a1", 1%Z); (lit "e2", 3%Z)]) (red_of s x [0; 1; 2; 3; 4]) &&
  same (reduce r (One x) (lit "a b c d e -> (e c) a") (RStr s) []) (ec s x [-1; 2]%Z) &&
  same (reduce r (One x) (lit "a ... c d e -> (e c) a") (RStr s) []) (ec s x [-1; 2]%Z) &&
  same (reduce r (One x) (lit "a b c d e ... -> (e c) a") (RStr s) []) (ec s x [-1; 2]%Z) &&
  same (reduce r (One x) (lit "a b c d e -> (e c a)") (RStr s) []) (ec s x [-1]%Z) &&
  same (reduce r (One x) (lit "(a a2) ... -> (a2 a) ...") (RStr s) [(lit "a2", 1%Z)]) (Ok x)) [lit "min"; lit "max"; lit "sum"; lit "prod"]) = true.
Succeed Definition holds : test_reduction_imperatives := ltac:(vm_compute; repeat split).

(** test_ops.py:299-327, for chosen permutations and numbers of skipped axes *)
Definition test_reduction_stress_imperatives : Prop := everywhere (fun r : runtime Z => forallb (fun s => forallb (fun '(shape, perm, skipped) =>
   let x := iota shape in let n := length shape in
   same (reduce r (One x) (names_of 120%N (seq 0 n) ++ lit "->" ++ names_of 120%N (skipn skipped perm)) (RStr s) [])
        (let* y := t_transpose x perm in if skipped =? 0 then Ok y else red_of s y (seq 0 skipped)))
  [([], [], 0); ([3], [0], 0); ([2], [0], 1); ([2; 3], [1; 0], 0); ([2; 3], [1; 0], 1); ([3; 2; 3], [2; 0; 1], 1); ([3; 2; 2; 3], [3; 1; 0; 2], 2); ([2; 3; 2; 3; 2], [4; 2; 0; 3; 1], 3);
   ([2; 2; 3; 2; 2; 2], [5; 0; 4; 2; 3; 1], 4)]) [lit "min"; lit "max"; lit "sum"]) = true.
Succeed Definition holds : test_reduction_stress_imperatives := ltac:(vm_compute; repeat split).
Definition test_rearrange_stress_imperatives : Prop := everywhere (fun r : runtime Z => forallb (fun '(shape, perm) =>
   let x := iota shape in let n := length shape in
   same (reduce r (One x) (names_of 120%N (seq 0 n) ++ lit "->" ++ names_of 120%N perm) (RStr (lit "rearrange")) []) (t_transpose x perm))
  [([], []); ([3], [0]); ([2; 3], [1; 0]); ([3; 2; 3], [2; 0; 1]); ([3; 2; 2; 3], [3; 1; 0; 2]); ([2; 3; 2; 3; 2], [4; 2; 0; 3; 1])]) = true.
Succeed Definition holds : test_rearrange_stress_imperatives := ltac:(vm_compute; repeat split).

(** test_ops.py:331-379: a callable, here one that sums *)
Definition sum_over (t : tensor Z) (axes : list nat) : result (tensor Z) := t_reduce (z_red (lit "sum")) t axes.
Definition test_reduction_with_callable_imperatives : Prop := everywhere (fun r : runtime Z =>
  forallb (fun p => same (reduce r (One x4) p (RCall sum_over) []) (reduce numpy_like (One x4) p (RStr (lit "sum")) [])) (both equivalent_reduction_patterns)) = true.
Succeed Definition holds : test_reduction_with_callable_imperatives := ltac:(vm_compute; repeat split).

(** test_ops.py:382-393 *)
Definition directions (r : runtime Z) (t : tensor Z) := enumerate_directions int_ops (rt_backend r) t.
Fixpoint all2 {X Y} (f : X -> Y -> bool) (l : list X) (m : list Y) : bool :=
  match l, m with [], [] => true | x :: l, y :: m => f x y && all2 f l m | _, _ => false end.
Definition test_enumerating_directions : Prop := everywhere (fun r : runtime Z => forallb (fun s =>
   match directions numpy_like (iota s), directions r (iota s) with Ok l, Ok m => (length l =? length s) && all2 tensor_eqb l m | _, _ => false end)
  [[]; [1]; [1; 1; 1]; [2; 3; 5; 7]]) = true.
Succeed Definition holds : test_enumerating_directions := ltac:(vm_compute; repeat split).

(** test_ops.py:396-412 *)
Definition shifted (k : nat) (s : list nat) : tensor Z := mkT s (map Z.of_nat (seq k (prodn s))).
Definition test_concatenations_and_stacking : Prop := everywhere (fun r : runtime Z => forallb (fun n => forallb (fun s =>
   let arrays := map (fun k => shifted k s) (seq 0 n) in
   same (t_stack arrays) (rearrange r (Many arrays) (lit "...->...") []) &&
   same (rearrange numpy_like (Many arrays) (lit "b ... -> ... b") []) (rearrange r (Many arrays) (lit "b ... -> ... b") []) &&
   same (let* y := t_stack arrays in t_transpose y (seq 1 (length s) ++ [0])) (rearrange r (Many arrays) (lit "b ... -> ... b") []))
   [[]; [1]; [1; 1]; [2; 3; 5; 7]; [1; 1; 1; 1; 1; 1]]) [1; 2; 5]) = true.
Succeed Definition holds : test_concatenations_and_stacking := ltac:(vm_compute; repeat split).

(** test_ops.py:488-523 *)
Definition repeat_test_cases : list (pystr * pystr * list (pystr * Z)) :=
  [(lit "a b c ", lit " c a b", []); (lit "a b c ", lit " (c copy a b)", [(lit "copy", 2%Z); (lit "a", 2%Z); (lit "b", 3%Z); (lit "c", 5%Z)]);
   (lit "a b c ", lit " (a copy) b c ", [(lit "copy", 1%Z)]); (lit "a b c ", lit " (c a) (copy1 b copy2)", [(lit "a", 2%Z); (lit "copy1", 1%Z); (lit "copy2", 2%Z)]);
   (lit "a ...  ", lit " a ... copy", [(lit "copy", 4%Z)]); (lit "... c ", lit " ... (copy1 c copy2)", [(lit "copy1", 1%Z); (lit "copy2", 2%Z)]);
   (lit "...  ", lit " ... ", []); (lit " ...  ", lit " copy1 ... copy2 ", [(lit "copy1", 2%Z); (lit "copy2", 3%Z)]);
   (lit "a b c  ", lit " copy1 a copy2 b c () ", [(lit "copy1", 2%Z); (lit "copy2", 1%Z)])].
Definition check_reversion (r : runtime Z) (x : tensor Z) (c : pystr * pystr * list (pystr * Z)) : bool :=
  let '(left_, right_, sizes) := c in
  let repeated := repeat_ r (One x) (left_ ++ lit "->" ++ right_) sizes in
  forallb (fun s => same (Ok x) (let* y := repeated in reduce r (One y) (right_ ++ lit "->" ++ left_) (RStr s) sizes)) [lit "min"; lit "max"].
Definition x3 : tensor Z := iota [2; 3; 5].
Definition test_repeat_numpy : Prop := same (repeat_ numpy_like (One x3) (lit "a b c -> copy a b c ") [(lit "copy", 1%Z)]) (Ok (iota [1; 2; 3; 5])) = true /\
  forallb (check_reversion numpy_like x3) repeat_test_cases = true.
Succeed Definition holds : test_repeat_numpy := ltac:(vm_compute; repeat split).
Definition test_repeat_imperatives : Prop := everywhere (fun r : runtime Z => forallb (fun '(l, rr, sizes) =>
   same (repeat_ numpy_like (One x3) (l ++ lit "->" ++ rr) sizes) (repeat_ r (One x3) (l ++ lit "->" ++ rr) sizes)) repeat_test_cases) = true.
Succeed Definition holds : test_repeat_imperatives := ltac:(vm_compute; repeat split).
Definition test_repeat_array_api : Prop := forallb (fun '(l, rr, sizes) =>
   same (repeat_ numpy_like (One x3) (l ++ lit "->" ++ rr) sizes) (xp_repeat numpy_like (One x3) (l ++ lit "->" ++ rr) sizes)) repeat_test_cases = true.
Succeed Definition holds : test_repeat_array_api := ltac:(vm_compute; repeat split).

(** test_ops.py:556-570 *)
Definition test_cases_repeat_anonymous : list (pystr * pystr * list (pystr * Z)) :=
  [(lit "a b c d ", lit " c a d b", []); (lit "a b c d ", lit " (c 2 d a b)", [(lit "a", 1%Z); (lit "c", 4%Z); (lit "d", 6%Z)]);
   (lit "1 b c d ", lit " (d copy 1) 3 b c ", [(lit "copy", 3%Z)]); (lit "1 ...  ", lit " 3 ... ", []);
   (lit "() ... d ", lit " 1 (copy1 d copy2) ... ", [(lit "copy1", 2%Z); (lit "copy2", 3%Z)]); (lit "1 b c d ", lit " (1 1) (1 b) 2 c 3 d (1 1)", [])].
Definition test_anonymous_axes : Prop := forallb (check_reversion numpy_like (iota [1; 2; 4; 6])) test_cases_repeat_anonymous = true.
Succeed Definition holds : test_anonymous_axes := ltac:(vm_compute; repeat split).

(** test_ops.py:573-587 *)
Definition slices (t : tensor Z) : list (tensor Z) :=
  match shp t with [] => [] | n :: s => map (fun k => mkT s (firstn (prodn s) (skipn (k * prodn s) (dat t)))) (seq 0 n) end.
Definition test_list_inputs : Prop :=
  same (rearrange numpy_like (Many (slices x5)) (lit "... -> (...)") []) (rearrange numpy_like (One x5) (lit "... -> (...)") []) = true /\
  same (reduce numpy_like (Many (slices x5)) (lit "a ... e -> (...)") (RStr (lit "min")) []) (reduce numpy_like (One x5) (lit "a ... e -> (...)") (RStr (lit "min")) []) = true /\
  same (repeat_ numpy_like (Many (slices x5)) (lit "...  -> b (...)") [(lit "b", 3%Z)]) (repeat_ numpy_like (One x5) (lit "...  -> b (...)") [(lit "b", 3%Z)]) = true.
Succeed Definition holds : test_list_inputs := ltac:(vm_compute; repeat split).

(** test_ops.py:590-614: the function that is compiled there, with two numbers of dimensions *)
Definition func1 (r : runtime Z) (x : tensor Z) : result (tensor Z) :=
  let c := Z.of_nat (nth 2 (shp x) 0) in
  let* y := rearrange r (One x) (lit "(a a2) b c ... -> b (c a2) (a ...)") [(lit "a2", 2%Z)] in
  reduce r (One y) (lit "b ca2 A -> b A") (RStr (lit "sum")) [(lit "ca2", (c * 2)%Z)].
Definition test_torch_compile_with_dynamic_shape : Prop := has_shape (func1 torch_like (iota [4; 5; 6; 3])) [5; 6] = true /\ has_shape (func1 torch_like (iota [6; 3; 4; 2; 3])) [3; 18] = true.
Succeed Definition holds : test_torch_compile_with_dynamic_shape := ltac:(vm_compute; repeat split).

(** test_ops.py:617-658: any and all, on the parity of the number of ones *)
Definition b_red (s : pystr) (l : list bool) : result bool :=
  if str_eqb s (lit "any") then Ok (existsb (fun b => b) l) else if str_eqb s (lit "all") then Ok (forallb (fun b => b) l) else Err BackendError.
Definition bools (f : framework) : runtime bool := mkR bool ascii_unicode forward f true b_red (fun _ => false) (fun _ => false).
Definition parity : tensor bool := mkT [2; 2; 2; 2; 2; 2] (map (fun i => Nat.even (fold_right Nat.add 0 i)) (indices [2; 2; 2; 2; 2; 2])).
Definition b_same (a b : result (tensor bool)) : bool :=
  match a, b with Ok x, Ok y => shape_eqb (shp x) (shp y) && (if list_eq_dec Bool.bool_dec (dat x) (dat y) then true else false) | _, _ => false end.
Definition kept (t : tensor bool) (s : pystr) (axes : list nat) : result (tensor bool) :=
  let* y := t_reduce (b_red s) t axes in
  t_reshape true y (map (fun k => if nat_mem k axes then 1%Z else 2%Z) (seq 0 6)).
Definition six_names : list pystr := [lit "a"; lit "b"; lit "c"; lit "d"; lit "e"; lit "f"].
Definition test_reduction_imperatives_booleans : Prop := forallb (fun f => forallb (fun s =>
   forallb (fun axis => b_same (reduce (bools f) (One parity) (str_join (lit " ") six_names ++ lit " -> " ++ str_join (lit " ") (replace_nth axis (lit "1") six_names)) (RStr s) [])
                               (kept parity s [axis])) (seq 0 6) &&
   b_same (reduce (bools f) (One parity) (lit "a b ... -> 1 1 ...") (RStr s) []) (kept parity s [0; 1])) [lit "any"; lit "all"]) imperative = true.
Succeed Definition holds : test_reduction_imperatives_booleans := ltac:(vm_compute; repeat split).
