(** * The tensors a call makes: layers, einsum and EinMix

    The same code as in Layers.v, Einsum.v and EinMix.v, on the tensors with a log of
    Footprint.v; the library's einsum and [result += bias] make one tensor each. *)
From Verif Require Import Py Tensor Parsing Recipe Ops Backends Api Layers Einsum EinMix Footprint.

Section Layers.
  Context {A : Type} (r : runtime A).

  (** self._multirecipe[len(x.shape)] *)
  Definition logged_recipe_for (L : layer (logged A)) (x : logged A) : result recipe :=
    of_option KeyError (dict_get Nat.eqb (length (shp (fst x))) (ly_recipes L)).
  (** layers/__init__.py:42-50, 92-100 *)
  Definition logged_mixin_apply (L : layer (logged A)) (x : logged A) : result (logged A) :=
    let* rec := logged_recipe_for L x in
    apply_recipe int_ops (logged_backend r) rec x (ly_red L) (ly_sizes L).
  (** _torch_specific.py:77-99 *)
  Definition logged_scriptable_apply (rec : recipe) (x : logged A) (red : reduction (logged A)) (sizes : list (pystr * Z)) : result (logged A) :=
    let B := logged_backend (with_framework r TorchJit) in
    let* k := reconstruct int_ops rec (b_shape B x) sizes in
    let* t1 := match k_init k with Some s => b_reshape B x s | None => Ok x end in
    let* t2 := match k_reorder k with Some p => b_transpose B t1 p | None => Ok t1 end in
    let* t3 := match k_reduced k with
               | [] => Ok t2
               | axes => match red with
                         | RStr s => b_reduce B t2 s axes
                         | RCall _ => Err NotImplementedError
                         end
               end in
    let* t4 := match k_added k with [] => Ok t3 | added => b_add_axes B t3 (k_naxes k) added end in
    match k_final k with Some s => b_reshape B t4 s | None => Ok t4 end.
  (** torch.py:12-29 *)
  Definition logged_torch_apply (L : layer (logged A)) (x : logged A) : result (logged A) :=
    let* rec := logged_recipe_for L x in
    logged_scriptable_apply rec x (ly_red L) (ly_sizes L).
  Definition logged_call_layer (L : layer (logged A)) (x : logged A) : result (logged A) :=
    match rt_framework r with Torch => logged_torch_apply L x | _ => logged_mixin_apply L x end.
  Definition logged_call_option (L : option (layer (logged A))) (x : logged A) : result (logged A) :=
    match L with Some L => logged_call_layer L x | None => Ok x end.

  Context (lib_einsum : pystr -> list (tensor A) -> result (tensor A)) (iadd : tensor A -> tensor A -> result (tensor A)).
  (** _backends.py:192-193, 287-288, 326-327, 415-416, 542-543, 608-609, 664-665, 718-719 *)
  Definition logged_lib_einsum (text : pystr) (xs : list (logged A)) : result (logged A) := note (logs xs) (lib_einsum text (map fst xs)).
  Definition logged_iadd (x b : logged A) : result (logged A) := note (snd x ++ snd b) (iadd (fst x) (fst b)).

  (** einops.py:841-916 *)
  Definition logged_einsum (args : list (logged A + pystr)) : result (logged A) := einsum_with (rt_unicode r) logged_lib_einsum args.

  (** torch.py:59-67, tensorflow.py:87-95, flax.py:74-82, paddle.py:49-58, oneflow.py:46-54 *)
  Definition logged_call_einmix (M : einmix (logged A)) (weight : logged A) (bias : option (logged A)) (x : logged A) : result (logged A) :=
    let* input := logged_call_option (em_pre M) x in
    let* result := logged_lib_einsum (em_einsum M) [input; weight] in
    let* result := match bias with Some b => logged_iadd result b | None => Ok result end in
    logged_call_option (em_post M) result.
End Layers.
