(** * Which calls are accepted, how the others fail, what does not matter: C08, C09, C10, C12 *)
From Verif Require Import Py Tensor SpecSem SpecGrammar SpecPattern SpecOps Parsing Recipe Ops Backends Api Instances ApiFacts ApiFacts2 ApiFacts4 ApiFacts6.

(** ** C08 *)
Theorem C08_rearrange_accepts : forall (A : Type) (r : runtime A) (x : tensor A) (pattern : pystr) (sizes : list (pystr * Z)),
  runtime_ok r -> NoDup (map fst sizes) -> wf x ->
  ((exists y, rearrange r (One x) pattern sizes = Ok y) <->
   no_reserved sizes /\ exists L R e len, call_ok (rt_unicode r) Rearranging pattern sizes (shp x) L R e len).
Proof. exact (fun A r x pattern sizes Hok => rearrange_accepts r Hok x pattern sizes). Qed.
Print Assumptions C08_rearrange_accepts.

Theorem C08_repeat_accepts : forall (A : Type) (r : runtime A) (x : tensor A) (pattern : pystr) (sizes : list (pystr * Z)),
  runtime_ok r -> NoDup (map fst sizes) -> wf x -> repeat_sizes_ok r pattern sizes ->
  ((exists y, repeat_ r (One x) pattern sizes = Ok y) <->
   no_reserved sizes /\ exists L R e len, call_ok (rt_unicode r) Repeating pattern sizes (shp x) L R e len).
Proof. exact (fun A r x pattern sizes Hok => repeat_accepts r Hok x pattern sizes). Qed.
Print Assumptions C08_repeat_accepts.

(** reduce may in addition fail because of the reduction: the framework does not
    know it, or it refuses the elements (the minimum of nothing) *)
Theorem C08_reduce_accepts : forall (A : Type) (r : runtime A) (x : tensor A) (pattern op : pystr) (sizes : list (pystr * Z)),
  runtime_ok r -> NoDup (map fst sizes) -> wf x -> builtin op -> reduction_fits r op -> float_if_mean r op ->
  ((exists y, reduce r (One x) pattern (RStr op) sizes = Ok y) <->
   no_reserved sizes /\ exists L R e len, call_ok (rt_unicode r) Reducing pattern sizes (shp x) L R e len /\
     let gl := left_groups e L in let gr := right_groups e L R in
     (missing gl gr <> [] -> has_reduction (rt_framework r) op = true /\
        forall ix, within len ix (concat gr) -> exists vs v,
          elements x len gl (missing gl gr) ix = map Some vs /\ rt_red r op vs = Ok v)).
Proof. exact (fun A r x pattern op sizes Hok => reduce_acceptance r Hok x pattern op sizes). Qed.
Print Assumptions C08_reduce_accepts.

Example C08_case_accepted :
  call_ok ascii_unicode Repeating (lit "a (b c) ... -> c ... (a n) b 2") [(lit "b", 2%Z); (lit "n", 5%Z)] [2; 6; 2]
    [nm "a"; grp [lit "b"; lit "c"]; dots3] [nm "c"; dots3; grp [lit "a"; lit "n"]; nm "b"; Atom (ANum 2)] 1
    (fun a => match a with LDots _ => 2 | _ => lens [(lit "a", 2); (lit "b", 2); (lit "c", 3); (lit "n", 5)] a end).
Proof. solve_call (lit "a (b c) ... ") (lit " c ... (a n) b 2"). Qed.
Example C08_case_rejected :
  rearrange numpy_like (One (iota [2; 6])) (lit "a (b c) -> c b a") [] = Err EinopsError /\
  rearrange numpy_like (One (iota [2; 6])) (lit "a (b c) -> c b a") [(lit "b", 4%Z)] = Err EinopsError /\
  rearrange numpy_like (One (iota [2; 6])) (lit "a (b c) -> c b a") [(lit "b", 2%Z); (lit "q", 2%Z)] = Err EinopsError /\
  rearrange numpy_like (One (iota [2; 6])) (lit "a b c -> c b a") [] = Err EinopsError /\
  repeat_ numpy_like (One (iota [2; 6])) (lit "a b -> a b c") [] = Err EinopsError.
Proof. repeat split; vm_compute; reflexivity. Qed.

(** ** C09 *)
Theorem C09_rearrange_failures : forall (A : Type) (r : runtime A) (x : tensor A) (pattern : pystr) (sizes : list (pystr * Z)) ex,
  runtime_ok r -> NoDup (map fst sizes) -> wf x -> nonneg sizes ->
  rearrange r (One x) pattern sizes = Err ex ->
  (ex = TypeError /\ ~ no_reserved sizes) \/ listed_failure (rt_unicode r) pattern sizes ex.
Proof. exact (fun A r x pattern sizes ex Hok => rearrange_fails r Hok x pattern sizes ex). Qed.
Print Assumptions C09_rearrange_failures.

Theorem C09_repeat_failures : forall (A : Type) (r : runtime A) (x : tensor A) (pattern : pystr) (sizes : list (pystr * Z)) ex,
  runtime_ok r -> NoDup (map fst sizes) -> wf x -> nonneg sizes ->
  repeat_ r (One x) pattern sizes = Err ex ->
  (ex = TypeError /\ ~ no_reserved sizes) \/ listed_failure (rt_unicode r) pattern sizes ex.
Proof. exact (fun A r x pattern sizes ex Hok => repeat_fails r Hok x pattern sizes ex). Qed.
Print Assumptions C09_repeat_failures.

Theorem C09_reduce_failures : forall (A : Type) (r : runtime A) (x : tensor A) (pattern op : pystr) (sizes : list (pystr * Z)) ex,
  runtime_ok r -> NoDup (map fst sizes) -> wf x -> nonneg sizes -> builtin op -> reduction_fits r op ->
  reduce r (One x) pattern (RStr op) sizes = Err ex ->
  (ex = TypeError /\ ~ no_reserved sizes) \/ listed_failure (rt_unicode r) pattern sizes ex \/
  (ex = NotImplementedError /\ (has_reduction (rt_framework r) op = false \/ op = lit "mean" /\ exists t, rt_isf r t = false)) \/
  (exists vs, rt_red r op vs = Err ex).
Proof. exact (fun A r x pattern op sizes ex Hok => reduce_failures r Hok x pattern op sizes ex). Qed.
Print Assumptions C09_reduce_failures.

(** each of the listed failures other than EinopsError really occurs *)
Theorem C09_only_einops_error_refuted :
  rearrange numpy_like (One (iota [2; 6])) (lit "a b") [] = Err ValueError /\
  rearrange numpy_like (One (iota [2; 0])) (lit "a (b c) -> a b c") [(lit "b", 0%Z)] = Err ZeroDivisionError /\
  reduce numpy_like (One (iota [2; 6])) (lit "... -> " ++ [c_ell]) (RStr (lit "sum")) [] = Err BackendError /\
  rearrange numpy_like (One (iota [2; 6])) (lit "tensor b -> b tensor") [(lit "tensor", 2%Z)] = Err TypeError.
Proof. repeat split; vm_compute; reflexivity. Qed.
Print Assumptions C09_only_einops_error_refuted.

(** ** C10 *)
Theorem C10_set_order_irrelevant : forall (A : Type) (r : runtime A) (o' : orders) (sizes : list (pystr * Z)),
  runtime_ok r -> orders_ok o' -> NoDup (map fst sizes) ->
  forall (x : input (tensor A)) (pattern : pystr),
    rearrange r x pattern sizes = rearrange (with_orders r o') x pattern sizes /\
    repeat_ r x pattern sizes = repeat_ (with_orders r o') x pattern sizes /\
    (forall red, reduce r x pattern red sizes = reduce (with_orders r o') x pattern red sizes) /\
    xp_rearrange r x pattern sizes = xp_rearrange (with_orders r o') x pattern sizes /\
    xp_repeat r x pattern sizes = xp_repeat (with_orders r o') x pattern sizes /\
    (forall red, xp_reduce_ r x pattern red sizes = xp_reduce_ (with_orders r o') x pattern red sizes).
Proof. exact (fun A r o' sizes Hok => orders_irrelevant r Hok o' sizes). Qed.
Print Assumptions C10_set_order_irrelevant.

(** the recipes do differ *)
Example C10_case :
  orders_ok forward /\ orders_ok backward /\
  let recipe o := prepare_recipe ascii_unicode o (lit "(a b c) -> c b a") (OpStr (lit "rearrange")) [lit "a"; lit "b"] 1 in
  recipe forward <> recipe backward /\
  rearrange numpy_like (One (iota [12])) (lit "(a b c) -> c b a") [(lit "a", 2%Z); (lit "b", 3%Z)] =
  rearrange (with_orders numpy_like backward) (One (iota [12])) (lit "(a b c) -> c b a") [(lit "a", 2%Z); (lit "b", 3%Z)].
Proof.
  split; [apply forward_ok|]. split; [apply backward_ok|]. split; [vm_compute; discriminate|]. vm_compute. reflexivity.
Qed.

(** ** C12 *)
Theorem C12_sizes_order_irrelevant : forall (A : Type) (r : runtime A) (sizes sizes' : list (pystr * Z)),
  runtime_ok r -> NoDup (map fst sizes) -> Permutation sizes sizes' ->
  forall (x : input (tensor A)) (pattern : pystr),
    rearrange r x pattern sizes = rearrange r x pattern sizes' /\
    repeat_ r x pattern sizes = repeat_ r x pattern sizes' /\
    (forall red, reduce r x pattern red sizes = reduce r x pattern red sizes') /\
    xp_rearrange r x pattern sizes = xp_rearrange r x pattern sizes' /\
    xp_repeat r x pattern sizes = xp_repeat r x pattern sizes' /\
    (forall red, xp_reduce_ r x pattern red sizes = xp_reduce_ r x pattern red sizes').
Proof. exact (fun A r sizes sizes' Hok => sizes_order_irrelevant r Hok sizes sizes'). Qed.
Print Assumptions C12_sizes_order_irrelevant.

Example C12_case :
  Permutation [(lit "a", 2%Z); (lit "b", 3%Z)] [(lit "b", 3%Z); (lit "a", 2%Z)] /\
  rearrange numpy_like (One (iota [12])) (lit "(a b c) -> c b a") [(lit "b", 3%Z); (lit "a", 2%Z)] =
  Ok (mkT [2; 3; 2] [0; 6; 2; 8; 4; 10; 1; 7; 3; 9; 5; 11]%Z).
Proof. split; [apply perm_swap|]. vm_compute. reflexivity. Qed.
