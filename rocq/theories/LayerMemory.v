(** * Model of the layers, with arrays that share memory

    The same code as in Layers.v and EinMix.v (einops/layers/__init__.py, torch.py,
    tensorflow.py, flax.py, paddle.py, oneflow.py, _torch_specific.py), on the arrays
    of Strides.v.  New is the memory: [result += bias] in EinMix writes into the array
    that the library's einsum has returned. *)
From Verif Require Import Py Tensor Parsing Recipe Ops Backends Api Layers EinMix Strides.

Section Layers.
  Context {A : Type} (mem : memory A) (nocopy : list nat -> list Z -> list nat -> option (list Z)) (r : runtime A).

  (** self._multirecipe[len(x.shape)] *)
  Definition v_recipe_for (L : layer (array A)) (x : array A) : result recipe :=
    of_option KeyError (dict_get Nat.eqb (length (a_shp x)) (ly_recipes L)).
  (** layers/__init__.py:42-50, 92-100 *)
  Definition v_mixin_apply (L : layer (array A)) (x : array A) : result (array A) :=
    let* rec := v_recipe_for L x in
    apply_recipe int_ops (array_backend mem nocopy r) rec x (ly_red L) (ly_sizes L).
  (** _torch_specific.py:77-99 *)
  Definition v_scriptable_apply (rec : recipe) (x : array A) (red : reduction (array A)) (sizes : list (pystr * Z)) : result (array A) :=
    let B := array_backend mem nocopy (with_framework r TorchJit) in
    let* k := reconstruct int_ops rec (b_shape B x) sizes in
    let* t1 := match k_init k with Some s => b_reshape B x s | None => Ok x end in
    let* t2 := match k_reorder k with Some p => b_transpose B t1 p | None => Ok t1 end in
    let* t3 := match k_reduced k with
               | [] => Ok t2
               | axes => match red with
                         | RStr s => b_reduce B t2 s axes
                         | RCall _ => Err NotImplementedError
                         end
               end in
    let* t4 := match k_added k with [] => Ok t3 | added => b_add_axes B t3 (k_naxes k) added end in
    match k_final k with Some s => b_reshape B t4 s | None => Ok t4 end.
  (** torch.py:12-29 *)
  Definition v_torch_apply (L : layer (array A)) (x : array A) : result (array A) :=
    let* rec := v_recipe_for L x in
    v_scriptable_apply rec x (ly_red L) (ly_sizes L).
  Definition v_call_layer (L : layer (array A)) (x : array A) : result (array A) :=
    match rt_framework r with Torch => v_torch_apply L x | _ => v_mixin_apply L x end.
  Definition v_call_option (L : option (layer (array A))) (x : array A) : result (array A) :=
    match L with Some L => v_call_layer L x | None => Ok x end.
End Layers.

(** ** writing a whole array *)
Definition store_list {A} (d : list A) (places : list Z) (vals : list A) : list A :=
  fold_left (fun d '(k, a) => replace_nth (Z.to_nat k) a d) (combine places vals) d.
(** the elements of [v] are replaced by those of [t], one after the other; a buffer
    that nobody else knows is a value *)
Definition store {A} (mem : memory A) (v : array A) (t : tensor A) : memory A * array A :=
  match a_buf v with
  | Old id => (fun i => if i =? id then store_list (mem i) (dat (places v)) (dat t) else mem i, v)
  | New d => (mem, mkArr (New (store_list d (dat (places v)) (dat t))) (a_off v) (a_shp v) (a_str v))
  end.

Section Mix.
  Context {A : Type} (mem : memory A) (nocopy : list nat -> list Z -> list nat -> option (list Z)) (r : runtime A).
  (** Whether [result += bias] writes into [result] depends on the library (torch.py:64,
      paddle.py:55, oneflow.py:51, flax.py:79: torch does, jax makes a new array);
      tensorflow.py:92 is [result = result + bias].  All cases are allowed. *)
  Context (in_place : bool).
  (** the library: einsum, and the values of the sum *)
  Context (lib_einsum : memory A -> pystr -> list (array A) -> result (array A)) (iadd : tensor A -> tensor A -> result (tensor A)).

  Definition v_iadd (v b : array A) : result (memory A * array A) :=
    let* t := read mem v in
    let* c := read mem b in
    let* t' := iadd t c in
    Ok (if in_place then store mem v t' else (mem, fresh t')).

  (** torch.py:59-67, tensorflow.py:87-95, flax.py:74-82, paddle.py:49-58, oneflow.py:46-54:
      the memory after the call, and its result *)
  Definition v_call_einmix (M : einmix (array A)) (weight : array A) (bias : option (array A)) (x : array A) : result (memory A * array A) :=
    let* input := v_call_option mem nocopy r (em_pre M) x in
    let* result := lib_einsum mem (em_einsum M) [input; weight] in
    let* (mem', result) := match bias with Some b => v_iadd result b | None => Ok (mem, result) end in
    let* result := v_call_option mem' nocopy r (em_post M) result in
    Ok (mem', result).
End Mix.
