(** * Element types *)
From Verif Require Import Py Tensor SpecSem SpecGrammar SpecPattern SpecOps SpecDtypes Parsing Recipe Ops Backends Api Packing Dtypes DtypeFacts Instances.

(** ** C69: types of elements play no role other than in the refusal of means *)
Theorem C69_values : forall (A : Type) (rules : type_rules) (r : runtime A) (x : input (typed A)) (pattern : pystr)
    (red : reduction (typed A)) (red' : reduction (tensor A)) (sizes : list (pystr * Z)) (d : dtype),
  forgets_to red red' -> type_of_input rules x d ->
  forget (ty_reduce rules r x pattern red sizes) =
  reduce (with_isf r (fun _ => is_float_type rules (rt_framework r) d)) (forget_input x) pattern red' sizes.
Proof. exact (fun A rules r x pattern red red' sizes d => reduce_forget rules r x pattern red red' sizes d). Qed.
Print Assumptions C69_values.

(** ** rearrange and repeat keep the type; for lists, it is the type after stacking *)
Theorem C69_rearrange : forall (A : Type) (rules : type_rules) (r : runtime A) (x : input (typed A)) (y : typed A) (pattern : pystr) (sizes : list (pystr * Z)),
  ty_rearrange rules r x pattern sizes = Ok y -> type_of_input rules x (ty_dtype y).
Proof. exact (fun A rules r x y pattern sizes => keeps_type rules r x pattern (lit "rearrange") sizes y eq_refl). Qed.
Print Assumptions C69_rearrange.

Theorem C69_repeat : forall (A : Type) (rules : type_rules) (r : runtime A) (x : input (typed A)) (y : typed A) (pattern : pystr) (sizes : list (pystr * Z)),
  ty_repeat rules r x pattern sizes = Ok y -> type_of_input rules x (ty_dtype y).
Proof. exact (fun A rules r x y pattern sizes => keeps_type rules r x pattern (lit "repeat") sizes y eq_refl). Qed.
Print Assumptions C69_repeat.

(** ** the type after reduce: that of the library's reduction, applied once, or
    once per reduced axis, or not at all if nothing is reduced *)
Theorem C69_reduce : forall (A : Type) (rules : type_rules) (r : runtime A) (x y : typed A) (pattern op : pystr) (sizes : list (pystr * Z)) L R e len,
  runtime_ok r -> NoDup (map fst sizes) -> builtin op ->
  call_ok (rt_unicode r) Reducing pattern sizes (shp (ty_val x)) L R e len ->
  ty_reduce rules r (One x) pattern (RStr op) sizes = Ok y ->
  ty_dtype y = match missing (left_groups e L) (right_groups e L R) with
               | [] => ty_dtype x
               | m => if one_by_one (rt_framework r) op then Nat.iter (length m) (tr_reduced rules op) (ty_dtype x)
                      else tr_reduced rules op (ty_dtype x)
               end.
Proof. exact (fun A rules r x y pattern op sizes L R e len Hok => reduced_call rules r Hok x pattern op sizes y L R e len). Qed.
Print Assumptions C69_reduce.

(** ** means: of a type that is not floating they are refused if and only if there
    is something to reduce *)
Theorem C69_mean : forall (A : Type) (rules : type_rules) (r : runtime A) (x : typed A) (pattern : pystr) (sizes : list (pystr * Z)) L R e len,
  runtime_ok r -> NoDup (map fst sizes) -> wf (ty_val x) -> no_reserved sizes ->
  call_ok (rt_unicode r) Reducing pattern sizes (shp (ty_val x)) L R e len ->
  let gl := left_groups e L in let gr := right_groups e L R in
  (missing gl gr = [] ->
     exists y, ty_reduce rules r (One x) pattern (RStr (lit "mean")) sizes = Ok y /\ ty_dtype y = ty_dtype x /\ moves gl gr len (ty_val x) (ty_val y)) /\
  (missing gl gr <> [] -> is_float_type rules (rt_framework r) (ty_dtype x) = false ->
     ty_reduce rules r (One x) pattern (RStr (lit "mean")) sizes = Err NotImplementedError) /\
  (is_float_type rules (rt_framework r) (ty_dtype x) = true ->
     forget (ty_reduce rules r (One x) pattern (RStr (lit "mean")) sizes) =
     reduce (with_isf r (fun _ => true)) (One (ty_val x)) pattern (RStr (lit "mean")) sizes).
Proof. exact (fun A rules r x pattern sizes L R e len Hok => mean_typed rules r Hok x pattern sizes L R e len). Qed.
Print Assumptions C69_mean.

(** which types are floating *)
Theorem C69_floats : forall (rules : type_rules) (d : dtype),
  (forall f, In f [Numpy; Jax; Cupy; Tensorflow] ->
     (is_float_type rules f d = true <-> In d [lit "float16"; lit "float32"; lit "float64"; lit "float128"; lit "bfloat16"])) /\
  (forall f, In f [Torch; TorchJit] -> (is_float_type rules f d = true <-> In d [lit "float16"; lit "float32"; lit "float64"; lit "bfloat16"])) /\
  (forall f, In f [Oneflow; Paddle] -> (is_float_type rules f d = true <-> In d [lit "float16"; lit "float32"; lit "float64"])) /\
  (is_float_type rules Keras d = true <-> exists a b, d = a ++ lit "float" ++ b) /\
  (forall f, In f [Tinygrad; Pytensor] -> is_float_type rules f d = tr_float rules d).
Proof. exact float_table. Qed.
Print Assumptions C69_floats.

(** ** pack returns the common type, unpack keeps the type *)
Theorem C69_pack : forall (A : Type) (rules : type_rules) (r : runtime A) (xs : list (typed A)) (pattern : pystr) (d : dtype),
  tr_common rules (map ty_dtype xs) = Ok d ->
  (let* (t, ps) := ty_pack rules r xs pattern in Ok (ty_val t, ps)) = pack r (map ty_val xs) pattern /\
  (forall t ps, ty_pack rules r xs pattern = Ok (t, ps) -> ty_dtype t = d).
Proof. exact (fun A rules r xs pattern d => pack_typed rules r xs pattern d). Qed.
Print Assumptions C69_pack.

Theorem C69_unpack : forall (A : Type) (rules : type_rules) (r : runtime A) (x : typed A) (packed : list (list Z)) (pattern : pystr),
  (let* ts := ty_unpack rules r x packed pattern in Ok (map ty_val ts)) = unpack r (ty_val x) packed pattern /\
  (forall ts, ty_unpack rules r x packed pattern = Ok ts -> Forall (fun t => ty_dtype t = ty_dtype x) ts).
Proof. exact (fun A rules r x packed pattern => unpack_typed rules r x packed pattern). Qed.
Print Assumptions C69_unpack.

(** rules such as numpy's, for three types *)
Definition some_rules : type_rules := {|
  tr_float d := str_eqb d (lit "float32");
  tr_reduced op d := if str_mem op [lit "any"; lit "all"] then lit "bool" else if str_eqb op (lit "sum") && str_eqb d (lit "bool") then lit "int64" else d;
  tr_common ds := match ds with [] => Err BackendError | d :: _ =>
    Ok (if forallb (str_eqb d) ds then d else if existsb (str_eqb (lit "float32")) ds then lit "float32" else lit "int64") end;
  tr_arange := lit "int64"
|}.

Example C69_case :
  let i := mkTy (lit "int64") (iota [2; 3]) in let x := mkTy (lit "float32") (iota [2; 3]) in
  ty_rearrange some_rules numpy_like (One i) (lit "a b -> b a") [] = Ok (mkTy (lit "int64") (mkT [3; 2] [0; 3; 1; 4; 2; 5]%Z)) /\
  ty_rearrange some_rules numpy_like (Many [i; x]) (lit "n a b -> n (a b)") [] = Ok (mkTy (lit "float32") (mkT [2; 6] [0; 1; 2; 3; 4; 5; 0; 1; 2; 3; 4; 5]%Z)) /\
  ty_reduce some_rules numpy_like (One i) (lit "a b -> b") (RStr (lit "mean")) [] = Err NotImplementedError /\
  ty_reduce some_rules numpy_like (One i) (lit "a b -> b a") (RStr (lit "mean")) [] = Ok (mkTy (lit "int64") (mkT [3; 2] [0; 3; 1; 4; 2; 5]%Z)) /\
  (exists y, ty_reduce some_rules numpy_like (One i) (lit "a b -> b") (RStr (lit "any")) [] = Ok y /\ ty_dtype y = lit "bool") /\
  (exists y, ty_reduce some_rules numpy_like (One x) (lit "a b -> b") (RStr (lit "mean")) [] = Ok y /\ ty_dtype y = lit "float32").
Proof.
  cbv zeta. repeat (split; [vm_compute; reflexivity|]). split; eexists; split; vm_compute; reflexivity.
Qed.

(** the types of packed tensors are not restored by unpack *)
Example C69_promoted :
  let i := mkTy (lit "int64") (iota [2]) in let x := mkTy (lit "float32") (iota [3]) in
  exists t ps, ty_pack some_rules numpy_like [i; x] (lit "*") = Ok (t, ps) /\
    ty_unpack some_rules numpy_like t ps (lit "*") = Ok [mkTy (lit "float32") (iota [2]); x].
Proof. cbv zeta. eexists. eexists. split; vm_compute; reflexivity. Qed.

(** bfloat16: torch computes means, oneflow and paddle refuse them *)
Example C69_bfloat16 :
  let x := mkTy (lit "bfloat16") (iota [2; 3]) in
  (exists y, ty_reduce some_rules (runtime_for Torch) (One x) (lit "a b -> a") (RStr (lit "mean")) [] = Ok y) /\
  ty_reduce some_rules (runtime_for Oneflow) (One x) (lit "a b -> a") (RStr (lit "mean")) [] = Err NotImplementedError /\
  ty_reduce some_rules (runtime_for Paddle) (One x) (lit "a b -> a") (RStr (lit "mean")) [] = Err NotImplementedError.
Proof. cbv zeta. split; [eexists; vm_compute; reflexivity|]. split; vm_compute; reflexivity. Qed.
