(** * Element types in layers, einsum and EinMix *)
From Verif Require Import Py Tensor SpecSem SpecGrammar SpecPattern SpecOps SpecElements SpecDtypes SpecLayerDtypes Parsing Recipe Ops Backends Api Layers Einsum EinMix Dtypes LayerDtypes LayerDtypeFacts Instances
  SpecEinsum EinsumFacts4 MixFacts9 PropDtypes.

(** ** C99: layers.  The type plays no role in whether a layer can be made, and in a call
    only for the refusal of means *)
Theorem C99_values : forall (A : Type) (rules : type_rules) (r : runtime A) (os : nat -> orders) (pattern : pystr)
    (red : reduction (typed A)) (red' : reduction (tensor A)) (sizes : list (pystr * Z)),
  forgets_to red red' ->
  both (fun L L' => forall x, forget (ty_call_layer rules r L x) =
                              call_layer (with_isf r (fun _ => is_float_type rules (rt_framework r) (ty_dtype x))) L' (ty_val x))
    (Reduce (rt_unicode r) os pattern red sizes) (Reduce (rt_unicode r) os pattern red' sizes).
Proof. exact (fun A rules r os pattern red red' sizes H => reduce_layer_forget rules r os pattern red red' sizes H). Qed.
Print Assumptions C99_values.

Theorem C99_rearrange : forall (A : Type) (rules : type_rules) (r : runtime A) (os : nat -> orders) (pattern : pystr) (sizes : list (pystr * Z)),
  both (fun L L' => forall x, forget (ty_call_layer rules r L x) = call_layer r L' (ty_val x) /\
                              forall y, ty_call_layer rules r L x = Ok y -> ty_dtype y = ty_dtype x)
    (Rearrange (rt_unicode r) os pattern sizes) (Rearrange (rt_unicode r) os pattern sizes).
Proof. exact (fun A rules r os pattern sizes => rearrange_layer_forget rules r os pattern sizes). Qed.
Print Assumptions C99_rearrange.

(** ** the type of the result of a Reduce layer is that of the function (C69_reduce) *)
Theorem C99_reduce : forall (A : Type) (rules : type_rules) (r : runtime A) (os : nat -> orders) (pattern op : pystr) (sizes : list (pystr * Z))
    (M : layer (typed A)) (x y : typed A) L R e len,
  runtime_ok r -> (forall n, orders_ok (os n)) -> NoDup (map fst sizes) -> builtin op ->
  Reduce (rt_unicode r) os pattern (RStr op) sizes = Ok M ->
  call_ok (rt_unicode r) Reducing pattern sizes (shp (ty_val x)) L R e len ->
  ty_call_layer rules r M x = Ok y ->
  ty_dtype y = match missing (left_groups e L) (right_groups e L R) with
               | [] => ty_dtype x
               | m => if one_by_one (rt_framework r) op then Nat.iter (length m) (tr_reduced rules op) (ty_dtype x)
                      else tr_reduced rules op (ty_dtype x)
               end.
Proof. exact (fun A rules r os pattern op sizes M x y L R e len Hok => layer_reduced rules r Hok os pattern op sizes M x y L R e len). Qed.
Print Assumptions C99_reduce.

(** ** means of types that are not floating: refused, except by the torch layer, which
    does not look at the type *)
Theorem C99_mean : forall (A : Type) (rules : type_rules) (r : runtime A) (os : nat -> orders) (pattern : pystr) (sizes : list (pystr * Z))
    (M : layer (typed A)) (x : typed A) L R e len,
  runtime_ok r -> (forall n, orders_ok (os n)) -> NoDup (map fst sizes) -> wf (ty_val x) -> no_reserved sizes ->
  Reduce (rt_unicode r) os pattern (RStr (lit "mean")) sizes = Ok M ->
  call_ok (rt_unicode r) Reducing pattern sizes (shp (ty_val x)) L R e len -> e < 8 ->
  missing (left_groups e L) (right_groups e L R) <> [] -> rt_framework r <> Torch -> is_float_type rules (rt_framework r) (ty_dtype x) = false ->
  ty_call_layer rules r M x = Err NotImplementedError.
Proof. exact (fun A rules r os pattern sizes M x L R e len Hok => layer_mean rules r Hok os pattern sizes M x L R e len). Qed.
Print Assumptions C99_mean.

Theorem C99_torch : forall (A : Type) (rules : type_rules) (r : runtime A) (os : nat -> orders) (pattern : pystr)
    (red : reduction (typed A)) (red' : reduction (tensor A)) (sizes : list (pystr * Z)),
  rt_framework r = Torch -> forgets_to red red' ->
  both (fun L L' => forall x, forget (ty_call_layer rules r L x) = call_layer r L' (ty_val x))
    (Reduce (rt_unicode r) os pattern red sizes) (Reduce (rt_unicode r) os pattern red' sizes).
Proof. exact (fun A rules r os pattern red red' sizes Ht H => torch_layer_forget rules r os pattern red red' sizes Ht H). Qed.
Print Assumptions C99_torch.

(** ** einsum: the values do not depend on the types, the type is the library's *)
Theorem C99_einsum : forall (A : Type) (r : runtime A) (lib : pystr -> list (tensor A) -> result (tensor A)) (einsum_type : list dtype -> result dtype)
    (args : list (typed A + pystr)),
  (forall d, einsum_type (types_in args) = Ok d -> forget (ty_einsum r lib einsum_type args) = einsum_with (rt_unicode r) lib (map value_of args)) /\
  (forall y, ty_einsum r lib einsum_type args = Ok y -> einsum_type (types_in args) = Ok (ty_dtype y)).
Proof. exact (fun A r lib einsum_type args => conj (einsum_forget r lib einsum_type args) (einsum_typed r lib einsum_type args)). Qed.
Print Assumptions C99_einsum.

(** ** EinMix: the type is that of einsum on the types of the input and the weight, then
    that of the sum with the bias; the rearrangements before and after keep it *)
Theorem C99_einmix : forall (A : Type) (rules : type_rules) (r : runtime A) (lib : pystr -> list (tensor A) -> result (tensor A))
    (iadd : tensor A -> tensor A -> result (tensor A)) (einsum_type : list dtype -> result dtype) (iadd_type : dtype -> dtype -> result dtype)
    (os os' : nat -> orders) (pattern wt : pystr) (bt : option pystr) (sizes : list (pystr * Z)),
  both (fun M M' => em_weight M = em_weight M' /\ em_bias M = em_bias M' /\ forall w b x,
          (forall d1 d, einsum_type [ty_dtype x; ty_dtype w] = Ok d1 -> bias_type iadd_type d1 b = Ok d ->
             forget (ty_call_einmix rules r lib iadd einsum_type iadd_type M w b x) = call_einmix r lib iadd M' (ty_val w) (option_map ty_val b) (ty_val x)) /\
          (forall y, ty_call_einmix rules r lib iadd einsum_type iadd_type M w b x = Ok y ->
             exists d1, einsum_type [ty_dtype x; ty_dtype w] = Ok d1 /\ bias_type iadd_type d1 b = Ok (ty_dtype y)))
    (EinMix (rt_unicode r) os os' pattern wt bt sizes) (EinMix (rt_unicode r) os os' pattern wt bt sizes).
Proof. exact (fun A rules r lib iadd et it os os' pattern wt bt sizes => einmix_types rules r lib iadd et it os os' pattern wt bt sizes). Qed.
Print Assumptions C99_einmix.

(** the layers exist; an int mean is refused by the numpy-like layer and computed by the torch layer *)
Example C99_case :
  let i := mkTy (lit "int64") (iota [2; 3]) in
  exists (M N P : layer (typed Z)),
  Reduce ascii_unicode (fun _ => forward) (lit "a b -> b") (RStr (lit "mean")) [] = Ok M /\
  Rearrange ascii_unicode (fun _ => forward) (lit "a b -> b a") [] = Ok N /\
  Reduce ascii_unicode (fun _ => forward) (lit "a b -> b") (RStr (lit "any")) [] = Ok P /\
  ty_call_layer some_rules (runtime_for Keras) M i = Err NotImplementedError /\
  (exists y, ty_call_layer some_rules (runtime_for Torch) M i = Ok y /\ ty_dtype y = lit "int64") /\
  ty_call_layer some_rules (runtime_for Torch) N i = Ok (mkTy (lit "int64") (mkT [3; 2] [0; 3; 1; 4; 2; 5]%Z)) /\
  (exists y, ty_call_layer some_rules (runtime_for Keras) P i = Ok y /\ ty_dtype y = lit "bool").
Proof.
  cbv zeta. eexists. eexists. eexists. split; [vm_compute; reflexivity|]. split; [vm_compute; reflexivity|]. split; [vm_compute; reflexivity|].
  split; [vm_compute; reflexivity|]. split; [eexists; split; vm_compute; reflexivity|]. split; [vm_compute; reflexivity|]. eexists; split; vm_compute; reflexivity.
Qed.

(** a weight of another type; a library in which an in-place sum keeps the type on the left *)
Example C99_einmix_case :
  let lib := ref_einsum Z.add Z.mul 0%Z 1%Z in let add := ref_iadd Z.add 0%Z in
  let left_type := fun (d _ : dtype) => Ok d in
  let i := mkTy (lit "int64") (iota [2; 3]) in let w := mkTy (lit "float32") (iota [3; 2]) in let b := mkTy (lit "int64") (iota [2]) in
  exists M : einmix (typed Z),
  EinMix ascii_unicode (fun _ => forward) (fun _ => forward) (lit "a c -> (a d)") (lit "c d") (Some (lit "d")) [(lit "c", 3%Z); (lit "d", 2%Z)] = Ok M /\
  ty_call_einmix some_rules numpy_like lib add (tr_common some_rules) left_type M w (Some b) i = Ok (mkTy (lit "float32") (mkT [4] [10; 14; 28; 41]%Z)) /\
  ty_einsum numpy_like lib (tr_common some_rules) [inl i; inl w; inr (lit "a c, c d -> a d")] = Ok (mkTy (lit "float32") (mkT [2; 2] [10; 13; 28; 40]%Z)).
Proof.
  cbv zeta. eexists. split; [vm_compute; reflexivity|]. split; vm_compute; reflexivity.
Qed.
