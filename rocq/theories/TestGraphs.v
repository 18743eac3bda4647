(** * The parts of test_ops.py and test_other.py about graphs: a graph is built from
    a placeholder, some or all of whose dimensions are unknown, and run *)
From Verif Require Import Py Tensor Parsing Recipe Ops Backends Api Symbolic SymPacking Instances TestBase TestOps.

Definition graphs : list framework := [Tensorflow; Keras; Pytensor].
Definition E : Type := tensor Z.
Definition placeholder (s : list (option Z)) : node E Z := mkN s true (fun e => Ok e).
Definition full (t : tensor Z) : list (option Z) := map (fun d => Some (Z.of_nat d)) (shp t).
Definition none (t : tensor Z) : list (option Z) := map (fun _ => None) (shp t).
(** every other dimension unknown *)
Fixpoint mixed (b : bool) (l : list nat) : list (option Z) := match l with [] => [] | d :: l => (if b then Some (Z.of_nat d) else None) :: mixed (negb b) l end.
Definition all_shapes (t : tensor Z) : list (list (option Z)) := [full t; none t; mixed true (shp t); mixed false (shp t)].
Definition run (a : result (node E Z)) (x : tensor Z) : result (tensor Z) := let* n := a in n_run n x.
Definition as_ints (sizes : list (pystr * Z)) : list (pystr * sdim E) := map (fun '(k, z) => (k, SInt z)) sizes.

(** test_ops.py:98-112 (the symbolic part) *)
Definition test_ellipsis_ops_symbolic : Prop := forallb (fun f => let r := runtime_for f in forallb (fun s =>
  forallb (fun p => same (rearrange numpy_like (One x4) p []) (run (graph_rearrange r (One (placeholder s)) p []) x4)) (identity_patterns ++ both equivalent_rearrange_patterns) &&
  forallb (fun red => forallb (fun p => same (reduce numpy_like (One x4) p (RStr red) []) (run (graph_reduce_ r (One (placeholder s)) p (RStr red) []) x4))
    (both equivalent_reduction_patterns)) [lit "min"; lit "max"; lit "sum"]) (all_shapes x4)) graphs = true.
Succeed Definition holds : test_ellipsis_ops_symbolic := ltac:(vm_compute; repeat split).

(** test_ops.py:246-296 *)
Definition reduction_cases (s : pystr) (x : tensor Z) : list (pystr * list (pystr * Z) * result (tensor Z)) :=
  [(lit "a b c d e -> ", [], red_of s x [0; 1; 2; 3; 4]); (lit "a ... -> ", [], red_of s x [0; 1; 2; 3; 4]);
   (lit "(a a2) ... (e e2) -> ", [(lit "a2", 1%Z); (lit "e2", 1%Z)], red_of s x [0; 1; 2; 3; 4]);
   (lit "a b c d e -> (e c) a", [], ec s x [-1; 2]%Z); (lit "a ... c d e -> (e c) a", [], ec s x [-1; 2]%Z); (lit "a b c d e ... -> (e c) a", [], ec s x [-1; 2]%Z);
   (lit "a b c d e -> (e c a)", [], ec s x [-1]%Z); (lit "(a a2) ... -> (a2 a) ...", [(lit "a2", 1%Z)], Ok x)].
Definition test_reduction_symbolic : Prop := forallb (fun f => let r := runtime_for f in forallb (fun s => forallb (fun '(p, sizes, expected) =>
  forallb (fun shape => same (run (graph_reduce_ r (One (placeholder shape)) p (RStr s) (as_ints sizes)) x4) expected) [full x4; none x4])
  (reduction_cases s x4)) [lit "min"; lit "max"; lit "sum"; lit "prod"]) graphs = true.
Succeed Definition holds : test_reduction_symbolic := ltac:(vm_compute; repeat split).
(** lengths of the axes that occur in the pattern given, their dimensions unknown *)
Definition occurs (c : N) (p : pystr) : bool := existsb (N.eqb c) p.
Definition five : list (N * nat) := [(97%N, 2); (98%N, 3); (99%N, 2); (100%N, 2); (101%N, 3)].
Definition with_lengths (p : pystr) (sizes : list (pystr * Z)) : list (pystr * Z) :=
  sizes ++ flat_map (fun '(c, d) => if occurs c p then [([c], Z.of_nat d)] else []) five.
Definition some_unknown (p : pystr) : list (option Z) := map (fun '(c, d) => if occurs c p then None else Some (Z.of_nat d)) five.
Definition test_reduction_symbolic_lengths : Prop := forallb (fun f => let r := runtime_for f in forallb (fun s => forallb (fun '(p, sizes, expected) =>
  same (run (graph_reduce_ r (One (placeholder (some_unknown p))) p (RStr s) (as_ints (with_lengths p sizes))) x4) expected)
  (reduction_cases s x4)) [lit "min"; lit "max"; lit "sum"]) graphs = true.
Succeed Definition holds : test_reduction_symbolic_lengths := ltac:(vm_compute; repeat split).

(** test_ops.py:526-537 *)
Definition test_repeat_symbolic : Prop := forallb (fun f => let r := runtime_for f in forallb (fun '(l, rr, sizes) =>
  same (run (graph_repeat r (One (placeholder (full x3))) (l ++ lit "->" ++ rr) (as_ints sizes)) x3) (repeat_ numpy_like (One x3) (l ++ lit "->" ++ rr) sizes)) repeat_test_cases) graphs = true.
Succeed Definition holds : test_repeat_symbolic := ltac:(vm_compute; repeat split).

(** test_other.py:179-206, with a smaller tensor *)
Definition evaluate (l : list (pystr * sdim E)) (x : tensor Z) : result (list (pystr * Z)) := mapM (fun '(k, d) => let* z := s_run d x in Ok (k, z)) l.
Definition x234 : tensor Z := iota [1; 2; 3; 4].
Definition test_parse_shape_symbolic : Prop := forallb (fun f => let r := runtime_for f in forallb (fun shape =>
  match graph_parse_shape r (placeholder shape) (lit "a b c d") with
  | Ok l => same_sizes_ (evaluate l x234) [(lit "a", 1%Z); (lit "b", 2%Z); (lit "c", 3%Z); (lit "d", 4%Z)]
  | Err _ => false end &&
  match graph_parse_shape r (placeholder shape) (lit "a b c1 _") with
  | Ok l => same (run (graph_rearrange r (One (placeholder shape)) (lit "a b (c1 c2) (d1 d2) -> (a b d1) c1 (c2 d2)") (l ++ [(lit "d2", SInt 2)])) x234)
                 (rearrange numpy_like (One x234) (lit "a b c (d1 d2) -> (a b d1) c d2") [(lit "d2", 2%Z)])
  | Err _ => false end)
  [full x234; [Some 1; Some 2; None; None]%Z; none x234]) [Tensorflow; Pytensor] = true.
Succeed Definition holds : test_parse_shape_symbolic := ltac:(vm_compute; repeat split).
(** test_other.py:209-231 *)
Definition test_parse_shape_symbolic_ellipsis : Prop := forallb (fun f => let r := runtime_for f in forallb (fun '(s, p, expected) =>
  match graph_parse_shape r (placeholder (none (iota s))) p with Ok l => same_sizes_ (evaluate l (iota s)) expected | Err _ => false end)
  [([1; 2], lit "...", []); ([5], lit "... a", [(lit "a", 5%Z)]); ([1; 2], lit "... a", [(lit "a", 2%Z)]); ([1; 2; 3], lit "... a", [(lit "a", 3%Z)]); ([1; 2; 3; 4], lit "... a", [(lit "a", 4%Z)]);
   ([5], lit "a ...", [(lit "a", 5%Z)]); ([3; 2], lit "a ...", [(lit "a", 3%Z)]); ([3; 2; 1], lit "a ...", [(lit "a", 3%Z)]); ([4; 3; 2; 1], lit "a ...", [(lit "a", 4%Z)]);
   ([3; 1; 2; 4], lit " a ... b", [(lit "a", 3%Z); (lit "b", 4%Z)]); ([1; 4], lit " a ... b ", [(lit "a", 1%Z); (lit "b", 4%Z)])]) [Tensorflow; Pytensor] = true.
Succeed Definition holds : test_parse_shape_symbolic_ellipsis := ltac:(vm_compute; repeat split).
