(** * einops/tests/test_packing.py *)
From Verif Require Import Py Tensor Parsing Recipe Ops Backends Api Packing Instances TestBase.

(** test_packing.py:62-120.  [stack_at k] stacks along axis [k] *)
Definition H := 4.
Definition W := 5.
Definition plane (k : Z) : tensor Z := mkT [H; W] (map (Z.add k) (dat (iota [H; W]))).
Definition rgb : list (tensor Z) := [plane 0; plane 100; plane 200].
Definition embeddings : tensor Z := mkT [H; W; 6] (map (Z.add 1000) (dat (iota [H; W; 6]))).
Definition stack_at (k : nat) (ts : list (tensor Z)) : result (tensor Z) :=
  let* us := mapM (fun t => t_expand_dims t k) ts in t_concat us k.
Definition packed (r : runtime Z) (ts : list (tensor Z)) (p : pystr) : result (tensor Z) := let* (y, _) := pack r ts p in Ok y.
Notation everywhere f := (forallb (fun fw : framework => f (runtime_for fw)) imperative).
Definition test_numpy_trivial : Prop := everywhere (fun r : runtime Z =>
  same (stack_at 2 rgb) (packed r rgb (lit "h w *")) && same (stack_at 1 rgb) (packed r rgb (lit "h * w")) && same (stack_at 0 rgb) (packed r rgb (lit "* h w")) &&
  same (t_concat rgb 1) (packed r rgb (lit "h *")) && same (t_concat rgb 0) (packed r rgb (lit "* w")) &&
  same (let* us := mapM (fun t => t_expand_dims t 2) rgb in t_concat (us ++ [embeddings]) 2) (packed r (rgb ++ [embeddings]) (lit "h w *")) &&
  raises_with EinopsError (pack r (rgb ++ [embeddings]) (lit "h w nonexisting_axis *")) &&
  works (pack r rgb (lit "some_name_for_H some_name_for_w1 *")) &&
  forallb (fun p => raises_with EinopsError (pack r (rgb ++ [embeddings]) p)) [lit "h _w *"; lit "h_ w *"; lit "1h_ w *"; lit "1 w *"; lit "h h *"] &&
  works (pack r (rgb ++ [embeddings]) (lit "h H *"))) = true.
Succeed Definition holds : test_numpy_trivial := ltac:(vm_compute; repeat split).

(** test_packing.py:136-146: the packed axis has length 5 and is number [k] *)
Definition cases : list (list nat * pystr * nat) :=
  [([5], lit "*", 0); ([5; 7], lit "* seven", 0); ([7; 5], lit "seven *", 1); ([5; 3; 4], lit "* three four", 0); ([4; 5; 3], lit "four * three", 1); ([3; 4; 5], lit "three four *", 2)].
Definition unpack_and_pack (r : runtime Z) (x : tensor Z) (ps : list (list Z)) (p : pystr) : bool :=
  same (Ok x) (let* us := unpack r x ps p in packed r us p).
Definition unpacked (r : runtime Z) (x : tensor Z) (ps : list (list Z)) (p : pystr) (f : list (tensor Z) -> bool) : bool :=
  match unpack r x ps p with Ok l => f l | Err _ => false end.
(** test_packing.py:145-205 *)
Definition test_pack_unpack_with_numpy : Prop := forallb (fun '(s, p, k) => let x := iota s in let r := numpy_like in
  unpack_and_pack r x [[2]; [1]; [2]]%Z p &&
  raises (unpack r x [[2]; [1]; [2]]%Z (p ++ lit " non_existent_axis")) &&
  raises (unpack r x [[2]; [1]; [1]]%Z p) && raises (unpack r x [[4]; [1]; [1]]%Z p) &&
  unpack_and_pack r x [[2]; [1]; [-1]]%Z p && unpack_and_pack r x [[2]; [-1]; [2]]%Z p && unpack_and_pack r x [[-1]; [1]; [2]]%Z p &&
  unpack_and_pack r x [[2]; [3]; [-1]]%Z p && unpacked r x [[2]; [3]; [-1]]%Z p (fun l => match l with [_; _; t] => nth k (shp t) 1 =? 0 | _ => false end) &&
  raises (unpack r x [[2]; [4]; [-1]]%Z p) &&
  works (unpack r x [[2]; [-1]; [4]]%Z p) &&
  raises (unpack r x [[-1]; [1]; [5]]%Z p) &&
  forallb (fun ps => unpack_and_pack r x ps p && unpacked r x ps p (forallb (fun t => length (shp t) =? S (length s))))
    [[[1; 2]; [1; 1]; [-1; 1]]; [[1; 2]; [1; -1]; [1; 1]]; [[2; -1]; [1; 2]; [1; 1]]]%Z &&
  forallb (fun ps => raises (unpack r x ps p)) [[[-1; 2]; [1]; [5]]; [[2; 2]; [2]; [5; -1]]; [[2; 1]; [1]; [3; -1]]; [[2; 1]; [3; -1]; [1]]; [[3; -1]; [2; 1]; [1]]]%Z &&
  forallb (fun ps => unpack_and_pack r x ps p) [[[0]; [5]; [-1]]; [[0]; [-1]; [5]]; [[-1]; [5]; [0]]; [[2; -1]; [1; 5]]]%Z) cases = true.
Succeed Definition holds : test_pack_unpack_with_numpy := ltac:(vm_compute; repeat split).

(** test_packing.py:208-269: all frameworks do what numpy does *)
Definition all_shapes : list (list (list Z)) :=
  [[[2]; [1]; [2]]; [[2]; [1]; [1]]; [[4]; [1]; [1]]; [[2]; [1]; [-1]]; [[2]; [-1]; [2]]; [[-1]; [1]; [2]]; [[2]; [4]; [-1]]; [[-1]; [1]; [5]];
   [[1; 2]; [1; 1]; [-1; 1]]; [[1; 2]; [1; -1]; [1; 1]]; [[2; -1]; [1; 2]; [1; 1]]; [[-1; 2]; [1]; [5]]; [[2; 2]; [2]; [5; -1]]; [[2; 1]; [1]; [3; -1]]; [[2; 1]; [3; -1]; [1]];
   [[3; -1]; [2; 1]; [1]]; [[2]; [3]; [-1]]; [[0]; [5]; [-1]]; [[0]; [-1]; [5]]; [[-1]; [5]; [0]]; [[2; -1]; [1; 5]]]%Z.
Fixpoint all2 {X Y} (f : X -> Y -> bool) (l : list X) (m : list Y) : bool :=
  match l, m with [], [] => true | x :: l, y :: m => f x y && all2 f l m | _, _ => false end.
Definition same_list (a b : result (list (tensor Z))) : bool :=
  match a, b with Ok l, Ok m => all2 tensor_eqb l m | Err e, Err e' => if exn_eq_dec e e' then true else false | _, _ => false end.
Definition test_pack_unpack_against_numpy : Prop := everywhere (fun r : runtime Z => forallb (fun '(s, p, k) => forallb (fun ps => let x := iota s in
  same_list (unpack numpy_like x ps p) (unpack r x ps p) &&
  (raises (unpack r x ps p) || unpack_and_pack r x ps p)) all_shapes) cases) = true.
Succeed Definition holds : test_pack_unpack_against_numpy := ltac:(vm_compute; repeat split).

(** test_packing.py:272-310 *)
Definition test_pack_unpack_array_api : Prop := forallb (fun '(s, p, k) => let x := iota s in
  forallb (fun ps => same_list (unpack numpy_like x ps p) (xp_unpack numpy_like x ps p) &&
     match unpack numpy_like x ps p with
     | Ok l => match pack numpy_like l p, xp_pack numpy_like l p with
               | Ok (t, s1), Ok (u, s2) => tensor_eqb t u && (if list_eq_dec (list_eq_dec Z.eq_dec) s1 s2 then true else false)
               | _, _ => false end
     | Err _ => false end) [[[2]; [1]; [2]]; [[1]; [1]; [-1]]; [[1]; [1]; [-1; 3]]; [[2; 1]; [1; 1; 1]; [-1]]]%Z &&
  forallb (fun ps => raises (unpack numpy_like x ps p) && raises (xp_unpack numpy_like x ps p)) [[[2; 3]]; [[1]; [5]]; [[1]; [5]; [-1]]; [[1]; [2; 3]]; [[1]; [5]; [-1; 2]]]%Z) cases = true.
Succeed Definition holds : test_pack_unpack_array_api := ltac:(vm_compute; repeat split).
