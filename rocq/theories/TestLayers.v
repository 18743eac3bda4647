(** * einops/tests/test_layers.py: Rearrange and Reduce (gradients left out) *)
From Verif Require Import Py Tensor Parsing Recipe Ops Backends Api Layers Symbolic SymLayers Instances TestBase.
From Coq Require Import String.

Notation "k =: v" := (lit k, v%Z) (at level 60).
(** test_layers.py:14-33, 101-105: pattern, lengths, shape, wrong shapes; 10, 20, 30, 40 are 2, 4, 6, 8 here *)
Definition rearrangement_patterns : list (pystr * list (pystr * Z) * list nat * list (list nat)) :=
  [(lit "b c h w -> b (c h w)", ["c" =: 4], [2; 4; 6; 8], [[]; [2]; [2; 2; 2]; [2; 5; 6; 8]; [1; 4; 1; 1; 1]]);
   (lit "b c (h1 h2) (w1 w2) -> b (c h2 w2) h1 w1", ["h2" =: 2; "w2" =: 2], [2; 4; 6; 8], [[]; [1; 1; 1; 1]; [1; 2; 3]; []]);
   (lit "b ... c -> c b ...", ["b" =: 2], [2; 4; 6], [[]; [2]; [1; 2]])].
Definition reduction_patterns := rearrangement_patterns ++
  [(lit "b c h w -> b ()", ["b" =: 2], [2; 4; 6; 8], [[2]; [2; 4; 6]]);
   (lit "b c (h1 h2) (w1 w2) -> b c h1 w1", ["h1" =: 3; "h2" =: 2; "w2" =: 2], [2; 4; 6; 8], [[2; 4; 7; 8]]);
   (lit "b ... c -> b", ["b" =: 2], [2; 4; 6; 8], [[2]; [3; 2]])].
Definition layer_frameworks : list framework := [Tensorflow; Keras; Torch; Oneflow; Paddle].
Definition os : nat -> orders := fun _ => backward.
Definition called (r : runtime Z) (L : result (layer (tensor Z))) (x : tensor Z) : result (tensor Z) := let* L := L in call_layer r L x.
Definition pickled_rearrange (L : layer (tensor Z)) : result (layer (tensor Z)) := Rearrange_setstate ascii_unicode os (Rearrange_getstate L).
Definition pickled_reduce (L : layer (tensor Z)) : result (layer (tensor Z)) := Reduce_setstate ascii_unicode os (Reduce_getstate L).

(** test_layers.py:36-65 *)
Definition test_rearrange_imperative : Prop := forallb (fun f => let r := runtime_for f in forallb (fun '(p, sizes, s, wrong) =>
  let x := iota s in let L := Rearrange ascii_unicode os p sizes in
  forallb (fun s => works L && raises (called r L (iota s))) wrong &&
  same (rearrange numpy_like (One x) p sizes) (called r L x) && same (called r L x) (called r (let* L := L in pickled_rearrange L) x)) rearrangement_patterns) layer_frameworks = true.
Succeed Definition holds : test_rearrange_imperative := ltac:(vm_compute; repeat split).
(** test_layers.py:108-146 *)
Definition test_reduce_imperative : Prop := forallb (fun f => let r := runtime_for f in forallb (fun red => forallb (fun '(p, sizes, s, wrong) =>
  let x := iota s in let L := Reduce ascii_unicode os p (RStr red) sizes in
  forallb (fun s => works L && raises (called r L (iota s))) wrong &&
  same (reduce numpy_like (One x) p (RStr red) sizes) (called r L x) && same (called r L x) (called r (let* L := L in pickled_reduce L) x)) reduction_patterns)
  [lit "min"; lit "max"; lit "sum"]) layer_frameworks = true.
Succeed Definition holds : test_reduce_imperative := ltac:(vm_compute; repeat split).
(** test_layers.py:68-98, 149-175 *)
Definition placeholder (s : list (option Z)) : node (tensor Z) Z := mkN s true (fun e => Ok e).
Definition g_called (r : runtime Z) (L : result (layer (node (tensor Z) Z))) (s : list (option Z)) (x : tensor Z) : result (tensor Z) :=
  let* L := L in let* n := graph_call_layer r L (placeholder s) in n_run n x.
Definition test_layers_symbolic : Prop := forallb (fun f => let r := runtime_for f in
  forallb (fun '(p, sizes, s, wrong) => forallb (fun shape =>
    same (rearrange numpy_like (One (iota s)) p sizes) (g_called r (Rearrange ascii_unicode os p sizes) shape (iota s)))
    [map (fun d => Some (Z.of_nat d)) s; map (fun _ => None) s]) rearrangement_patterns &&
  forallb (fun red => forallb (fun '(p, sizes, s, wrong) => forallb (fun shape =>
    same (reduce numpy_like (One (iota s)) p (RStr red) sizes) (g_called r (Reduce ascii_unicode os p (RStr red) sizes) shape (iota s)))
    [map (fun d => Some (Z.of_nat d)) s; map (fun _ => None) s]) reduction_patterns) [lit "min"; lit "max"; lit "sum"]) [Tensorflow; Keras] = true.
Succeed Definition holds : test_layers_symbolic := ltac:(vm_compute; repeat split).
