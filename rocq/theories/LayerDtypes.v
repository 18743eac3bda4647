(** * Model of the element types: layers, einsum and EinMix

    The same code as in Layers.v, Einsum.v and EinMix.v, on the typed tensors of
    Dtypes.v.  The type after the library's einsum and after [result += bias] (or their
    refusal) are parameters. *)
From Verif Require Import Py Tensor Parsing Recipe Ops Backends Api Layers Einsum EinMix Dtypes.

Section Layers.
  Context {A : Type} (rules : type_rules) (r : runtime A).

  (** self._multirecipe[len(x.shape)] *)
  Definition ty_recipe_for (L : layer (typed A)) (x : typed A) : result recipe :=
    of_option KeyError (dict_get Nat.eqb (length (shp (ty_val x))) (ly_recipes L)).
  (** layers/__init__.py:42-50, 92-100 *)
  Definition ty_mixin_apply (L : layer (typed A)) (x : typed A) : result (typed A) :=
    let* rec := ty_recipe_for L x in
    apply_recipe int_ops (typed_backend rules r) rec x (ly_red L) (ly_sizes L).
  (** _torch_specific.py:77-99: no look at the type *)
  Definition ty_scriptable_apply (rec : recipe) (x : typed A) (red : reduction (typed A)) (sizes : list (pystr * Z)) : result (typed A) :=
    let B := typed_backend rules (with_framework r TorchJit) in
    let* k := reconstruct int_ops rec (b_shape B x) sizes in
    let* t1 := match k_init k with Some s => b_reshape B x s | None => Ok x end in
    let* t2 := match k_reorder k with Some p => b_transpose B t1 p | None => Ok t1 end in
    let* t3 := match k_reduced k with
               | [] => Ok t2
               | axes => match red with
                         | RStr s => b_reduce B t2 s axes
                         | RCall _ => Err NotImplementedError
                         end
               end in
    let* t4 := match k_added k with [] => Ok t3 | added => b_add_axes B t3 (k_naxes k) added end in
    match k_final k with Some s => b_reshape B t4 s | None => Ok t4 end.
  (** torch.py:12-29 *)
  Definition ty_torch_apply (L : layer (typed A)) (x : typed A) : result (typed A) :=
    let* rec := ty_recipe_for L x in
    ty_scriptable_apply rec x (ly_red L) (ly_sizes L).
  Definition ty_call_layer (L : layer (typed A)) (x : typed A) : result (typed A) :=
    match rt_framework r with Torch => ty_torch_apply L x | _ => ty_mixin_apply L x end.
  Definition ty_call_option (L : option (layer (typed A))) (x : typed A) : result (typed A) :=
    match L with Some L => ty_call_layer L x | None => Ok x end.

  (** the library: values, and rules for the types *)
  Context (lib_einsum : pystr -> list (tensor A) -> result (tensor A)) (iadd : tensor A -> tensor A -> result (tensor A))
    (einsum_type : list dtype -> result dtype) (iadd_type : dtype -> dtype -> result dtype).

  (** _backends.py:192-193, 287-288, 326-327, 415-416, 542-543, 608-609, 664-665, 718-719 *)
  Definition ty_lib_einsum (text : pystr) (xs : list (typed A)) : result (typed A) :=
    let* t := lib_einsum text (map ty_val xs) in
    let* d := einsum_type (map ty_dtype xs) in
    Ok (mkTy d t).
  Definition ty_iadd (x b : typed A) : result (typed A) :=
    let* t := iadd (ty_val x) (ty_val b) in
    let* d := iadd_type (ty_dtype x) (ty_dtype b) in
    Ok (mkTy d t).

  (** einops.py:841-916 *)
  Definition ty_einsum (args : list (typed A + pystr)) : result (typed A) := einsum_with (rt_unicode r) ty_lib_einsum args.

  (** torch.py:59-67, tensorflow.py:87-95, flax.py:74-82, paddle.py:49-58, oneflow.py:46-54 *)
  Definition ty_call_einmix (M : einmix (typed A)) (weight : typed A) (bias : option (typed A)) (x : typed A) : result (typed A) :=
    let* input := ty_call_option (em_pre M) x in
    let* result := ty_lib_einsum (em_einsum M) [input; weight] in
    let* result := match bias with Some b => ty_iadd result b | None => Ok result end in
    ty_call_option (em_post M) result.
End Layers.
