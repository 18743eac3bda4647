(** * Model of the element types: einops/_backends.py, is_float_type

    A tensor with the name of the type of its elements. What library functions do
    with types is a parameter: the type after a reduction, the common type of
    stacked or concatenated tensors (or the library's refusal). Simplified: the
    elements themselves are values; conversion, overflow and rounding are
    outside. *)
From Verif Require Import Py Tensor Parsing Recipe Ops Backends SpecGrammar SpecPattern Api Packing.

Definition dtype := pystr.

Record typed (A : Type) := mkTy { ty_dtype : dtype; ty_val : tensor A }.
Arguments mkTy {A} _ _.
Arguments ty_dtype {A} _.
Arguments ty_val {A} _.

Record type_rules := {
  tr_float : dtype -> bool;                   (* tinygrad.dtypes.is_float, pytensor's float_dtypes *)
  tr_reduced : pystr -> dtype -> dtype;       (* type after reducing one or several axes in one call *)
  tr_common : list dtype -> result dtype;     (* type after stack or concatenate *)
  tr_arange : dtype
}.

(** [x in s] for strings *)
Fixpoint str_contains (x s : pystr) : bool :=
  str_eqb x (firstn (length x) s) || match s with [] => false | _ :: s' => str_contains x s' end.

Section Typed.
  Context {A : Type} (rules : type_rules) (r : runtime A).

  (** numpy 186-187 (also jax), cupy 323-324, tensorflow 407-408; torch 279-280,
      _torch_specific.py:64-65; oneflow 534-535; paddle 600-601; keras 467-468;
      tinygrad 661-662; pytensor 679-680. Simplified: types are compared by name. *)
  Definition is_float_type (f : framework) (d : dtype) : bool :=
    match f with
    | Numpy | Jax | Cupy | Tensorflow =>
        str_mem d [lit "float16"; lit "float32"; lit "float64"; lit "float128"; lit "bfloat16"]
    | Torch | TorchJit => str_mem d [lit "float16"; lit "float32"; lit "float64"; lit "bfloat16"]
    | Oneflow | Paddle => str_mem d [lit "float16"; lit "float32"; lit "float64"]
    | Keras => str_contains (lit "float") d
    | Tinygrad | Pytensor => tr_float rules d
    end.

  (** functions that keep the type *)
  Definition same_type (d : dtype) (m : result (tensor A)) : result (typed A) :=
    let* t := m in Ok (mkTy d t).

  (** the type after [reduce]: one call of the library, or one per axis
      (_backends.py:240-255, 500-510, 643-646) *)
  Definition reduced_type (f : framework) (op : pystr) (axes : list nat) (d : dtype) : dtype :=
    if one_by_one f op then Nat.iter (length axes) (tr_reduced rules op) d else tr_reduced rules op d.

  Let B := rt_backend r.
  Definition typed_backend : backend (typed A) Z := {|
    b_shape x := b_shape B (ty_val x);
    b_reshape x s := same_type (ty_dtype x) (b_reshape B (ty_val x) s);
    b_transpose x p := same_type (ty_dtype x) (b_transpose B (ty_val x) p);
    b_reduce x op axes := same_type (reduced_type (rt_framework r) op axes (ty_dtype x)) (b_reduce B (ty_val x) op axes);
    b_add_axes x n added := same_type (ty_dtype x) (b_add_axes B (ty_val x) n added);
    b_stack xs := let* t := b_stack B (map ty_val xs) in let* d := tr_common rules (map ty_dtype xs) in Ok (mkTy d t);
    b_concat xs axis := let* t := b_concat B (map ty_val xs) axis in let* d := tr_common rules (map ty_dtype xs) in Ok (mkTy d t);
    b_slice x axis lo hi := same_type (ty_dtype x) (b_slice B (ty_val x) axis lo hi);
    b_arange n := same_type (tr_arange rules) (b_arange B n);
    b_is_float x := is_float_type (rt_framework r) (ty_dtype x)
  |}.

  Definition ty_rearrange (x : input (typed A)) (pattern : pystr) (sizes : list (pystr * Z)) : result (typed A) :=
    api_rearrange (rt_unicode r) (rt_orders r) int_ops typed_backend x pattern sizes.
  Definition ty_reduce (x : input (typed A)) (pattern : pystr) (red : reduction (typed A)) (sizes : list (pystr * Z)) : result (typed A) :=
    api_reduce (rt_unicode r) (rt_orders r) int_ops typed_backend x pattern red sizes.
  Definition ty_repeat (x : input (typed A)) (pattern : pystr) (sizes : list (pystr * Z)) : result (typed A) :=
    api_repeat (rt_unicode r) (rt_orders r) int_ops typed_backend x pattern sizes.
  Definition ty_pack (xs : list (typed A)) (pattern : pystr) : result (typed A * list (list Z)) :=
    pack_with (rt_unicode r) (b_shape typed_backend) (b_reshape typed_backend) (b_concat typed_backend) xs pattern.
  Definition ty_unpack (x : typed A) (packed_shapes : list (list Z)) (pattern : pystr) : result (list (typed A)) :=
    unpack_with (rt_unicode r) (b_shape typed_backend) (b_reshape typed_backend) (b_slice typed_backend) x packed_shapes pattern.
End Typed.

(** the same runtime, with another answer about floating types *)
Definition with_isf {A} (r : runtime A) (isf : tensor A -> bool) : runtime A :=
  mkR A (rt_unicode r) (rt_orders r) (rt_framework r) (rt_lib r) (rt_red r) isf (rt_num r).
