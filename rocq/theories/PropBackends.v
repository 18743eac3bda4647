(** * Lists of tensors, the array API, frameworks: C17, C18, C19, C37 *)
From Coq Require Import Permutation.
From Verif Require Import Py Tensor SpecSem SpecGrammar SpecPattern SpecOps Parsing Recipe Ops Backends Api Instances RedFacts StepFacts MainFacts3 CallFacts ApiFacts ApiFacts4 ApiFacts5 ApiFacts6 ReduceOrder.

(** ** C17 *)
Theorem C17_list_is_stack : forall (A : Type) (r : runtime A) (ts : list (tensor A)) s (pattern : pystr) (sizes : list (pystr * Z)),
  ts <> [] -> (forall t, In t ts -> wf t /\ shp t = s) ->
  exists t, wf t /\ shp t = length ts :: s /\
    (forall k i t', nth_error ts k = Some t' -> get t (k :: i) = get t' i) /\
    rearrange r (Many ts) pattern sizes = rearrange r (One t) pattern sizes /\
    repeat_ r (Many ts) pattern sizes = repeat_ r (One t) pattern sizes /\
    (forall red, reduce r (Many ts) pattern red sizes = reduce r (One t) pattern red sizes).
Proof. exact (fun A r ts s pattern sizes => list_is_stack r ts s pattern sizes). Qed.
Print Assumptions C17_list_is_stack.

Theorem C17_unequal_list : forall (A : Type) (r : runtime A) (ts : list (tensor A)) (pattern : pystr) (sizes : list (pystr * Z)) ex,
  ts <> [] -> (forall s, exists t, In t ts /\ shp t <> s) -> no_reserved sizes -> ex = BackendError ->
  rearrange r (Many ts) pattern sizes = Err ex /\ repeat_ r (Many ts) pattern sizes = Err ex /\
  (forall red, reduce r (Many ts) pattern red sizes = Err ex).
Proof. exact (fun A r ts pattern sizes ex => unequal_list r ts pattern sizes ex). Qed.
Print Assumptions C17_unequal_list.

Theorem C17_empty_list : forall (A : Type) (r : runtime A) (pattern : pystr) (sizes : list (pystr * Z)),
  rearrange r (Many []) pattern sizes = Err TypeError /\ repeat_ r (Many []) pattern sizes = Err TypeError /\
  (forall red, reduce r (Many []) pattern red sizes = Err TypeError).
Proof. exact (fun A r => empty_list r). Qed.
Print Assumptions C17_empty_list.

Example C17_case :
  reduce torch_like (Many [iota [3]; iota [3]; iota [3]; iota [3]]) (lit "(b1 b2) w -> w b2") (RStr (lit "sum")) [(lit "b1", 2%Z)] =
  Ok (mkT [3; 2] [0; 0; 2; 2; 4; 4]%Z) /\
  rearrange torch_like (Many [iota [3]; iota [2]]) (lit "a b -> b a") [] = Err BackendError.
Proof. split; vm_compute; reflexivity. Qed.

(** ** C18 *)
Theorem C18_array_api_agrees : forall (A : Type) (r : runtime A) (x : input (tensor A)) (y : tensor A) (pattern : pystr) (sizes : list (pystr * Z)),
  runtime_ok r -> NoDup (map fst sizes) ->
  (forall t, x = One t -> wf t) -> (forall ts t, x = Many ts -> In t ts -> wf t) ->
  (rearrange r x pattern sizes = Ok y -> xp_rearrange r x pattern sizes = Ok y) /\
  (repeat_sizes_ok r pattern sizes -> repeat_ r x pattern sizes = Ok y -> xp_repeat r x pattern sizes = Ok y) /\
  (forall s, builtin s -> reduction_fits r s ->
     reduce r x pattern (RStr s) sizes = Ok y -> xp_reduce_ r x pattern (RStr s) sizes = Ok y) /\
  (forall g, reduce r x pattern (RCall g) sizes = Ok y -> xp_reduce_ r x pattern (RCall g) sizes = Ok y).
Proof. exact (fun A r x y pattern sizes Hok => xp_agree r Hok x pattern sizes y). Qed.
Print Assumptions C18_array_api_agrees.

Example C18_case :
  xp_repeat torch_like (One (iota [2; 1])) (lit "a ... -> ... (a n) 2") [(lit "n", 3%Z)] =
  Ok (mkT [1; 6; 2] [0; 0; 0; 0; 0; 0; 1; 1; 1; 1; 1; 1]%Z) /\
  xp_reduce_ torch_like (One (iota [2; 6])) (lit "a (b c) -> c") (RStr (lit "max")) [(lit "b", 2%Z)] = Ok (mkT [3] [9; 10; 11]%Z).
Proof. split; vm_compute; reflexivity. Qed.

(** ** C19 *)
(** the three ways to add axes: expand_dims and tile; unsqueeze and expand; the
    array API's expand_dims and broadcast_to (einops.py:270-280) *)
Theorem C19_adding_axes_agrees : forall (A : Type) (x : tensor A) (target : list (option nat)),
  wf x -> length (shp x) = count_old target ->
  exists y, tile_add_axes x (length target) (inserted target) = Ok y /\
            expand_add_axes x (length target) (inserted target) = Ok y /\
            (let* t := foldM (fun t '(p, _) => t_expand_dims t p) (inserted target) x in
             let* s := foldM (fun s '(p, l) => list_upd s p l) (inserted target) (int_shape t) in
             t_broadcast_to t s) = Ok y /\
            wf y /\ shp y = filled target (shp x) /\
            forall idx, inb (shp y) idx = true -> get y idx = get x (olds target idx).
Proof. exact (fun A => @add_axes_agree A). Qed.
Print Assumptions C19_adding_axes_agrees.

Theorem C19_rearrange_agrees : forall (A : Type) (r : runtime A) (f f' : framework) (x : input (tensor A)) (pattern : pystr) (sizes : list (pystr * Z)),
  runtime_ok r ->
  rearrange (with_framework r f) x pattern sizes = rearrange (with_framework r f') x pattern sizes.
Proof. exact (fun A r f f' x pattern sizes Hok => rearrange_same r Hok f f' x pattern sizes). Qed.
Print Assumptions C19_rearrange_agrees.

Theorem C19_repeat_agrees : forall (A : Type) (r : runtime A) (f f' : framework) (x y : tensor A) (pattern : pystr) (sizes : list (pystr * Z)),
  runtime_ok r -> NoDup (map fst sizes) -> wf x -> nonneg sizes ->
  repeat_ (with_framework r f) (One x) pattern sizes = Ok y ->
  repeat_ (with_framework r f') (One x) pattern sizes = Ok y.
Proof. exact (fun A r f f' x y pattern sizes Hok => repeat_agrees r Hok f f' x pattern sizes y). Qed.
Print Assumptions C19_repeat_agrees.

Theorem C19_reduce_agrees : forall (A : Type) (r : runtime A) (f f' : framework) (x y : tensor A) (pattern op : pystr) (sizes : list (pystr * Z)),
  runtime_ok r -> NoDup (map fst sizes) -> wf x -> builtin op ->
  (one_by_one f op = true \/ one_by_one f' op = true -> splits (rt_red r op)) -> has_reduction f' op = true ->
  reduce (with_framework r f) (One x) pattern (RStr op) sizes = Ok y ->
  reduce (with_framework r f') (One x) pattern (RStr op) sizes = Ok y.
Proof.
  exact (fun A r f f' x y pattern op sizes Hok Hn Hw Hb =>
    reduce_agrees r Hok f f' x pattern op sizes y Hn Hw (proj1 (builtin_mem op) Hb)).
Qed.
Print Assumptions C19_reduce_agrees.

(** Every framework reduces the same axes to the same tensor, or refuses them,
    in whatever order they are listed. *)
Theorem C19_listed_order : forall (A : Type) lib red isf num (f : framework) (x : tensor A) (op : pystr) (axes axes' : list nat), Permutation axes axes' ->
  b_reduce (backend_of lib red isf num f) x op axes = b_reduce (backend_of lib red isf num f) x op axes'.
Proof. exact @listed_order. Qed.
Print Assumptions C19_listed_order.
Example C19_case_order : Permutation [2; 0; 1] [0; 1; 2] /\
  forall f, b_reduce (rt_backend (with_framework numpy_like f)) (iota [2; 3; 2; 2]) (lit "prod") [2; 0; 1] = Ok (mkT [2] [0; 316234143225]%Z).
Proof. split; [apply (Permutation_cons_app [0; 1] [] 2); reflexivity|]. intros []; vm_compute; reflexivity. Qed.

(** reductions that can be done one axis at a time *)
Theorem C19_splits_sum : forall (A : Type) (f : A -> A -> A) (u : A),
  (forall a b c, f a (f b c) = f (f a b) c) -> (forall a, f u a = a) -> splits (fold_red f u).
Proof. exact (fun A f u => fold_red_splits f u). Qed.
Print Assumptions C19_splits_sum.
Theorem C19_splits_minmax : forall (A : Type) (f : A -> A -> A),
  (forall a b c, f a (f b c) = f (f a b) c) -> splits (fold1_red f).
Proof. exact (fun A f => fold1_red_splits f). Qed.
Print Assumptions C19_splits_minmax.
Theorem C19_splits_mean : splits mean_red.
Proof. exact mean_splits. Qed.
Print Assumptions C19_splits_mean.

Example C19_case :
  inserted [Some 3; None; Some 2] = [(0, 3%Z); (2, 2%Z)] /\
  tile_add_axes (iota [2]) 3 [(0, 3%Z); (2, 2%Z)] = Ok (mkT [3; 2; 2] [0; 0; 1; 1; 0; 0; 1; 1; 0; 0; 1; 1]%Z) /\
  forall f, reduce (with_framework numpy_like f) (One (iota [2; 6])) (lit "a (b c) -> c") (RStr (lit "prod")) [(lit "b", 2%Z)] =
    Ok (mkT [3] [0; 280; 880]%Z).
Proof. split; [reflexivity|]. split; [vm_compute; reflexivity|]. intros []; vm_compute; reflexivity. Qed.

(** ** C37 *)
(** Arbitrary tensors, dimensions and backends: two backends that agree on the
    functions listed give the same result, so no other function is used. *)
Theorem C37_rearrange_uses : forall (U : unicode) (o : orders) (T D : Type) (O : dim_ops D) (B B' : backend T D) (x : input T)
    (pattern : pystr) (sizes : list (pystr * D)),
  unicode_ok U -> orders_ok o ->
  (forall t, b_shape B t = b_shape B' t) -> (forall t s, b_reshape B t s = b_reshape B' t s) ->
  (forall t p, b_transpose B t p = b_transpose B' t p) ->
  (forall ts, x = Many ts -> b_stack B ts = b_stack B' ts) ->
  api_rearrange U o O B x pattern sizes = api_rearrange U o O B' x pattern sizes.
Proof. exact (fun U o T D O B B' x pattern sizes HU Ho => rearrange_uses U HU o Ho O B B' x pattern sizes). Qed.
Print Assumptions C37_rearrange_uses.

Theorem C37_repeat_uses : forall (U : unicode) (o : orders) (T D : Type) (O : dim_ops D) (B B' : backend T D) (x : input T)
    (pattern : pystr) (sizes : list (pystr * D)),
  unicode_ok U -> orders_ok o ->
  (forall t, b_shape B t = b_shape B' t) -> (forall t s, b_reshape B t s = b_reshape B' t s) ->
  (forall t p, b_transpose B t p = b_transpose B' t p) ->
  (forall t n l, b_add_axes B t n l = b_add_axes B' t n l) ->
  (forall ts, x = Many ts -> b_stack B ts = b_stack B' ts) ->
  api_repeat U o O B x pattern sizes = api_repeat U o O B' x pattern sizes.
Proof. exact (fun U o T D O B B' x pattern sizes HU Ho => repeat_uses U HU o Ho O B B' x pattern sizes). Qed.
Print Assumptions C37_repeat_uses.

Theorem C37_reduce_uses : forall (U : unicode) (o : orders) (T D : Type) (O : dim_ops D) (B B' : backend T D) (x : input T)
    (pattern op : pystr) (sizes : list (pystr * D)),
  unicode_ok U -> orders_ok o -> op <> lit "repeat" ->
  (forall t, b_shape B t = b_shape B' t) -> (forall t s, b_reshape B t s = b_reshape B' t s) ->
  (forall t p, b_transpose B t p = b_transpose B' t p) ->
  (forall t axes, b_reduce B t op axes = b_reduce B' t op axes) ->
  (op = lit "mean" -> forall t, b_is_float B t = b_is_float B' t) ->
  (forall ts, x = Many ts -> b_stack B ts = b_stack B' ts) ->
  api_reduce U o O B x pattern (RStr op) sizes = api_reduce U o O B' x pattern (RStr op) sizes.
Proof. exact (fun U o T D O B B' x pattern op sizes HU Ho => reduce_uses U HU o Ho O B B' x pattern op sizes). Qed.
Print Assumptions C37_reduce_uses.

Theorem C37_callable_uses : forall (U : unicode) (o : orders) (T D : Type) (O : dim_ops D) (B B' : backend T D) (x : input T)
    (pattern : pystr) g (sizes : list (pystr * D)),
  unicode_ok U -> orders_ok o ->
  (forall t, b_shape B t = b_shape B' t) -> (forall t s, b_reshape B t s = b_reshape B' t s) ->
  (forall t p, b_transpose B t p = b_transpose B' t p) ->
  (forall ts, x = Many ts -> b_stack B ts = b_stack B' ts) ->
  api_reduce U o O B x pattern (RCall g) sizes = api_reduce U o O B' x pattern (RCall g) sizes.
Proof. exact (fun U o T D O B B' x pattern g sizes HU Ho => callable_uses U HU o Ho O B B' x pattern g sizes). Qed.
Print Assumptions C37_callable_uses.

(** with an identity pattern the tensor itself is returned, whatever the backend
    (so reshape and transpose are not called: they might fail) *)
Theorem C37_rearrange_identity : forall (U : unicode) (o : orders) (T D : Type) (O : dim_ops D) (B : backend T D) (t : T) (pattern : pystr) L e,
  unicode_ok U -> orders_ok o ->
  reads U pattern L L -> rank_fits L (length (b_shape B t)) e ->
  (forall i, In i L -> (exists s, i = Atom (AName s)) \/ i = Atom ADots) ->
  api_rearrange U o O B (One t) pattern [] = Ok t.
Proof. exact (fun U o T D O B t pattern L e HU Ho => rearrange_identity U HU o Ho O B t pattern L e). Qed.
Print Assumptions C37_rearrange_identity.

Example C37_case :
  reads ascii_unicode (lit "a ... b -> a ... b") [nm "a"; dots3; nm "b"] [nm "a"; dots3; nm "b"] /\
  rank_fits [nm "a"; dots3; nm "b"] (length (b_shape (rt_backend numpy_like) (iota [2; 3; 4; 5]))) 2.
Proof. split; [solve_reads (lit "a ... b ") (lit " a ... b")|reflexivity]. Qed.
