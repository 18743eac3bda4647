(** * einops/tests/test_examples.py and the examples in docstrings

    Dimensions are smaller than there; the expected shapes are computed with the
    same formulas. *)
From Verif Require Import Py Tensor Parsing Recipe Ops Backends Api Packing Instances TestBase.
From Coq Require Import String.

Notation "k =: v" := (lit k, v%Z) (at level 60).
Definition ops_shape (r : runtime Z) (x : tensor Z) (p : pystr) (sizes : list (pystr * Z)) (s : list nat) : bool := has_shape (rearrange r (One x) p sizes) s.
Notation everywhere f := (forallb (fun fw : framework => f (runtime_for fw)) imperative).

(** ** Docstrings *)
(** einops.py:475-500 [reduce] *)
Definition tbc : tensor Z := iota [5; 2; 3].
Definition bhwc : tensor Z := iota [2; 3; 6; 8].
Definition doc_reduce : Prop :=
  same (reduce numpy_like (One tbc) (lit "t b c -> b c") (RStr (lit "max")) []) (t_reduce (z_red (lit "max")) tbc [0]) = true /\
  same (reduce numpy_like (One tbc) (lit "t b c -> b c") (RStr (lit "max")) []) (reduce numpy_like (One tbc) (lit "time batch channel -> batch channel") (RStr (lit "max")) []) = true /\
  has_shape (reduce numpy_like (One bhwc) (lit "b c (h1 h2) (w1 w2) -> b c h1 w1") (RStr (lit "max")) ["h2" =: 2; "w2" =: 2]) [2; 3; 3; 4] = true /\
  same (reduce numpy_like (One bhwc) (lit "b c (h1 h2) (w1 w2) -> b c h1 w1") (RStr (lit "max")) ["h2" =: 2; "w2" =: 2])
       (reduce numpy_like (One bhwc) (lit "b c (h1 2) (w1 2) -> b c h1 w1") (RStr (lit "max")) []) = true /\
  has_shape (reduce numpy_like (One bhwc) (lit "b c (h1 h2) (w1 w2) -> b c h1 w1") (RStr (lit "max")) ["h1" =: 3; "w1" =: 4]) [2; 3; 3; 4] = true /\
  has_shape (reduce numpy_like (One bhwc) (lit "b c h w -> b c") (RStr (lit "mean")) []) [2; 3] = true /\
  same (reduce numpy_like (One bhwc) (lit "b c h w -> 1 c 1 1") (RStr (lit "sum")) []) (let* y := t_reduce (z_red (lit "sum")) bhwc [0; 2; 3] in t_reshape true y [1; 3; 1; 1]%Z) = true /\
  has_shape (reduce numpy_like (One bhwc) (lit "b c h w -> b c 1 1") (RStr (lit "mean")) []) [2; 3; 1; 1] = true /\
  same (reduce numpy_like (One bhwc) (lit "b c h w -> b c 1 1") (RStr (lit "mean")) []) (reduce numpy_like (One bhwc) (lit "b c h w -> b c () ()") (RStr (lit "mean")) []) = true.
Succeed Definition holds : doc_reduce := ltac:(vm_compute; repeat split).
(** einops.py:555-583 [rearrange]: 4 images of 6 by 8 pixels with 3 channels *)
Definition image (k : nat) : tensor Z := mkT [6; 8; 3] (map (fun z => (z + 1000 * Z.of_nat k)%Z) (dat (iota [6; 8; 3]))).
Definition images : list (tensor Z) := map image (seq 0 4).
Definition doc_rearrange : Prop := everywhere (fun r : runtime Z =>
  let shape p sizes s := has_shape (rearrange r (Many images) p sizes) s in
  shape (lit "b h w c -> b h w c") [] [4; 6; 8; 3] && shape (lit "b h w c -> b c h w") [] [4; 3; 6; 8] &&
  shape (lit "b h w c -> (b h) w c") [] [4 * 6; 8; 3] && same (t_concat images 0) (rearrange r (Many images) (lit "b h w c -> (b h) w c") []) &&
  shape (lit "b h w c -> h (b w) c") [] [6; 4 * 8; 3] && same (t_concat images 1) (rearrange r (Many images) (lit "b h w c -> h (b w) c") []) &&
  shape (lit "b h w c -> b (c h w)") [] [4; 6 * 8 * 3] && shape (lit "b (h1 h) (w1 w) c -> (b h1 w1) h w c") ["h1" =: 2; "w1" =: 2] [4 * 2 * 2; 3; 4; 3] &&
  shape (lit "b (h h1) (w w1) c -> b h w (c h1 w1)") ["h1" =: 2; "w1" =: 2] [4; 3; 4; 12]) = true.
Succeed Definition holds : doc_rearrange := ltac:(vm_compute; repeat split).
(** einops.py:612-630 [repeat] *)
Definition gray : tensor Z := iota [4; 6].
Definition tiled (reps : list Z) := t_tile gray reps.
Definition doc_repeat : Prop := everywhere (fun r : runtime Z =>
  let rep p sizes := repeat_ r (One gray) p sizes in
  has_shape (rep (lit "h w -> h w c") ["c" =: 3]) [4; 6; 3] &&
  has_shape (rep (lit "h w -> (repeat h) w") ["repeat" =: 2]) [8; 6] && same (tiled [2; 1]%Z) (rep (lit "h w -> (repeat h) w") ["repeat" =: 2]) &&
  has_shape (rep (lit "h w -> (h2 h) (w3 w)") ["h2" =: 2; "w3" =: 3]) [8; 18] && same (tiled [2; 3]%Z) (rep (lit "h w -> (h2 h) (w3 w)") ["h2" =: 2; "w3" =: 3]) &&
  has_shape (rep (lit "h w -> (h h2) (w w2)") ["h2" =: 2; "w2" =: 2]) [8; 12] &&
  has_shape (let* d := reduce r (One gray) (lit "(h h2) (w w2) -> h w") (RStr (lit "mean")) ["h2" =: 2; "w2" =: 2] in
             repeat_ r (One d) (lit "h w -> (h h2) (w w2)") ["h2" =: 2; "w2" =: 2]) [4; 6]) = true.
Succeed Definition holds : doc_repeat := ltac:(vm_compute; repeat split).
(** einops.py:654-663 [parse_shape] *)
Definition doc_parse_shape : Prop := parse_shape ascii_unicode [2; 3; 5; 7]%Z (lit "batch _ h w") = Ok ["batch" =: 2; "h" =: 5; "w" =: 7] /\
  match parse_shape ascii_unicode [2; 3; 5; 7]%Z (lit "b _ h w") with Ok l => has_shape (rearrange numpy_like (One (iota [700])) (lit "(b c h w) -> b c h w") l) [2; 10; 5; 7] | Err _ => false end = true.
Succeed Definition holds : doc_parse_shape := ltac:(vm_compute; repeat split).
(** packing.py:46-66 [pack], 115-135 [unpack] *)
Definition doc_packing : Prop := everywhere (fun r : runtime Z =>
  match pack r [iota [2; 3; 5]; iota [2; 3; 7; 5]; iota [2; 3; 7; 9; 5]] (lit "i j * k") with
  | Ok (packed, ps) => shape_eqb (shp packed) [2; 3; 71; 5] && (if list_eq_dec (list_eq_dec Z.eq_dec) ps [[]; [7]; [7; 9]]%Z then true else false)
  | Err _ => false end) = true.
Succeed Definition holds : doc_packing := ltac:(vm_compute; repeat split).
Definition doc_unpacking : Prop :=
  match unpack numpy_like (iota [2; 3; 71; 5]) [[]; [7]; [7; 9]]%Z (lit "i j * k") with
  | Ok us => map shp us = [[2; 3; 5]; [2; 3; 7; 5]; [2; 3; 7; 9; 5]]
  | Err _ => False end.
Succeed Definition holds : doc_unpacking := ltac:(vm_compute; repeat split).

(** ** test_examples.py:9-148; 10, 20, 30, 40 are 2, 4, 6, 8 here *)
Definition x : tensor Z := iota [2; 4; 6; 8].
Definition slices (t : tensor Z) : list (tensor Z) :=
  match shp t with [] => [] | n :: s => map (fun k => mkT s (firstn (prodn s) (skipn (k * prodn s) (dat t)))) (seq 0 n) end.
(** t[:, ::2] *)
Definition every_other (t : tensor Z) : tensor Z :=
  match shp t with [n; c] => mkT [n; c / 2] (flat_map (fun i => match Tensor.get t i with Some v => if Nat.even (nth 1 i 0) then [v] else [] | None => [] end) (indices [n; c])) | _ => t end.
Definition test_rearrange_examples : Prop := everywhere (fun r : runtime Z =>
  ops_shape r x (lit "b c h w -> b h w c") [] [2; 6; 8; 4] &&
  ops_shape r x (lit "b c h w -> b (c h w)") [] [2; 4 * 6 * 8] &&
  ops_shape r x (lit "b (c h1 w1) h w -> b c (h h1) (w w1)") ["h1" =: 2; "w1" =: 2] [2; 1; 6 * 2; 8 * 2] &&
  ops_shape r x (lit "b c (h h1) (w w1) -> b (h1 w1 c) h w") ["h1" =: 2; "w1" =: 2] [2; 4 * 4; 3; 4] &&
  ops_shape r x (lit "b1 sound b2 letter -> b1 b2 sound letter") [] [2; 6; 4; 8] &&
  match rearrange r (One x) (lit "b c h w -> (b h w) c") [], parse_shape ascii_unicode [2; 4; 6; 8]%Z (lit "b _ h w") with
  | Ok t, Ok l => ops_shape r (every_other t) (lit "(b h w) c2 -> b c2 h w") l [2; 2; 6; 8]
  | _, _ => false end &&
  ops_shape r x (lit "b (c g) h w -> g b c h w") ["g" =: 2] [2; 2; 2; 6; 8] &&
  has_shape (reduce r (One x) (lit "b c (h h1) (w w1) -> b c h w") (RStr (lit "max")) ["h1" =: 2; "w1" =: 2]) [2; 4; 3; 4] &&
  has_shape (reduce r (One x) (lit "b c h w -> b c () ()") (RStr (lit "max")) []) [2; 4; 1; 1] &&
  has_shape (let* y := reduce r (One x) (lit "b c h w -> b c () ()") (RStr (lit "max")) [] in rearrange r (One y) (lit "b c () () -> c b") []) [4; 2] &&
  has_shape (rearrange r (Many (slices x)) (lit "b c h w -> b h w c") []) [2; 6; 8; 4] &&
  has_shape (rearrange r (Many (slices x)) (lit "b c h w -> h (b w) c") []) [6; 2 * 8; 4]) = true.
Succeed Definition holds : test_rearrange_examples := ltac:(vm_compute; repeat split).
(** the functions with a convolution: with the identity in its place *)
Definition test_functions : Prop := everywhere (fun r : runtime Z =>
  same (rearrange r (One x) (lit "b (c1 c2) h w-> b (c2 c1) h w") ["c1" =: 2; "c2" =: 2]) (rearrange numpy_like (One x) (lit "b (c1 c2) h w-> b (c2 c1) h w") ["c1" =: 2; "c2" =: 2]) &&
  same (rearrange r (One x) (lit "b c t1 t2 -> b c (t1 t2)") [])
       (let* y := rearrange r (One x) (lit "b c t1 t2 -> b c (t1 t2)") [] in let* y := rearrange r (One y) (lit "b c (t stride) -> (stride b) c t") ["stride" =: 2] in
        rearrange r (One y) (lit "(stride b) c t -> b c (t stride)") ["stride" =: 2]) &&
  same (Ok x) (let* y := rearrange r (One x) (lit "b c (h hs) (w ws) -> (hs ws b) c h w") ["hs" =: 2; "ws" =: 2] in
               rearrange r (One y) (lit "(hs ws b) c h w -> b c (h hs) (w ws)") ["hs" =: 2; "ws" =: 2]) &&
  same (rearrange r (One x) (lit "b c t1 t2 -> b c (t1 t2)") [])
       (let* y := rearrange r (One x) (lit "b c t1 t2 -> b c (t1 t2)") [] in let* z := rearrange r (One y) (lit "b c (t dt) -> b (dt c) t") ["dt" =: 2] in
        rearrange r (One z) (lit "b (dt c) t -> b c (t dt)") ["dt" =: 2])) = true.
Succeed Definition holds : test_functions := ltac:(vm_compute; repeat split).
