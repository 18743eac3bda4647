(** * Model of the Rearrange and Reduce layers

    einops/layers/__init__.py and the classes built on it: tensorflow.py, keras.py,
    flax.py, paddle.py, oneflow.py (which call [_apply_recipe] of the mixin) and
    torch.py (which calls [apply_for_scriptable_torch] of _torch_specific.py).

    A layer is a value: what the constructor stores.  The base classes of the
    frameworks (torch.nn.Module, ...) are not modelled, except that saving uses
    [__getstate__] and [__setstate__] of the mixin (which come first in the order
    of method resolution), and, for tensorflow, [get_config]. *)
From Verif Require Import Py Tensor Parsing Recipe Ops Backends Api.

(** einops.py:445-457 [_prepare_recipes_for_all_dims].  [os n]: iteration orders
    of the sets while the recipe for [n] dimensions is made (if that recipe comes
    from the cache, at the time it was made) *)
Definition dims_of_left (lft : parsed) : list nat :=
  let n := length (p_composition lft) in
  if p_has_ellipsis lft then map (fun ellipsis_dims => n - 1 + ellipsis_dims) (seq 0 8) else [n].
Definition prepare_all_dims (U : unicode) (os : nat -> orders) (pattern : pystr) (op : operation) (names : list pystr)
    : result (list (nat * recipe)) :=
  match str_split s_arrow pattern with
  | [left_str; _] =>
      let* (lft, _) := parse_expression U false false 0 left_str in
      mapM (fun ndim => let* rec := prepare_recipe U (os ndim) pattern op names ndim in Ok (ndim, rec)) (dims_of_left lft)
  | _ => Err ValueError
  end.

Record layer (T : Type) := mkLayer {
  ly_pattern : pystr;                    (* self.pattern *)
  ly_red : reduction T;                  (* "rearrange", or self.reduction *)
  ly_sizes : list (pystr * Z);           (* self.axes_lengths, self._axes_lengths *)
  ly_recipes : list (nat * recipe)       (* self._multirecipe *)
}.
Arguments mkLayer {T}. Arguments ly_pattern {T}. Arguments ly_red {T}. Arguments ly_sizes {T}. Arguments ly_recipes {T}.

Section Make.
  Context {T : Type} (U : unicode) (os : nat -> orders).

  (** the part common to both constructors, once the arguments are bound *)
  Definition make_layer (pattern : pystr) (red : reduction T) (sizes : list (pystr * Z)) : result (layer T) :=
    let* recipes := prepare_all_dims U os pattern (op_of red) (map fst sizes) in
    Ok (mkLayer pattern red sizes recipes).

  (** layers/__init__.py:20-26, 34-40; Python binds the positional parameters
      (with [self]) first *)
  Definition Rearrange (pattern : pystr) (sizes : list (pystr * Z)) : result (layer T) :=
    let* _ := check_kwargs [lit "self"; lit "pattern"] sizes in
    make_layer pattern (RStr s_rearrange) sizes.
  (** layers/__init__.py:70-76, 84-90 *)
  Definition Reduce (pattern : pystr) (red : reduction T) (sizes : list (pystr * Z)) : result (layer T) :=
    let* _ := check_kwargs [lit "self"; lit "pattern"; lit "reduction"] sizes in
    make_layer pattern red sizes.

  (** layers/__init__.py:52-56: what is saved, and how a layer is restored *)
  Definition Rearrange_getstate (L : layer T) : pystr * list (pystr * Z) := (ly_pattern L, ly_sizes L).
  Definition Rearrange_setstate (state : pystr * list (pystr * Z)) : result (layer T) := Rearrange (fst state) (snd state).
  (** layers/__init__.py:102-106 *)
  Definition Reduce_getstate (L : layer T) : pystr * reduction T * list (pystr * Z) := (ly_pattern L, ly_red L, ly_sizes L).
  Definition Reduce_setstate (state : pystr * reduction T * list (pystr * Z)) : result (layer T) :=
    let '(pattern, red, sizes) := state in Reduce pattern red sizes.
End Make.

(** tensorflow.py:34-35, 45-46 [get_config]: one dictionary with everything; the
    library restores with [cls( **config)] *)
Inductive config_value (T : Type) := VStr (s : pystr) | VCall (f : T -> list nat -> result T) | VInt (z : Z) | VNone.
Arguments VStr {T}. Arguments VCall {T}. Arguments VInt {T}. Arguments VNone {T}.
Section Config.
  Context {T : Type} (U : unicode) (os : nat -> orders).
  Notation config := (list (pystr * config_value T)).
  Definition red_value (red : reduction T) : config_value T := match red with RStr s => VStr s | RCall f => VCall f end.
  (** {k: v, ..., **sizes} *)
  Definition merge (d : config) (sizes : list (pystr * Z)) : config :=
    fold_left (fun d '(k, z) => dict_set str_eqb k (VInt z) d) sizes d.
  Definition Rearrange_config (L : layer T) : config := merge [(lit "pattern", VStr (ly_pattern L))] (ly_sizes L).
  Definition Reduce_config (L : layer T) : config :=
    merge [(lit "pattern", VStr (ly_pattern L)); (lit "reduction", red_value (ly_red L))] (ly_sizes L).
  (** the keyword arguments that are not parameters of the constructor; values of
      any other type than int are refused here (the code would store them) *)
  Definition rest_of (c : config) (params : list pystr) : result (list (pystr * Z)) :=
    mapM (fun '(k, v) => match v with VInt z => Ok (k, z) | _ => Err TypeError end)
         (filter (fun '(k, _) => negb (str_mem k params)) c).
  Definition Rearrange_from_config (c : config) : result (layer T) :=
    match dict_get str_eqb (lit "pattern") c with
    | Some (VStr pattern) => let* sizes := rest_of c [lit "pattern"] in Rearrange U os pattern sizes
    | _ => Err TypeError
    end.
  Definition Reduce_from_config (c : config) : result (layer T) :=
    match dict_get str_eqb (lit "pattern") c, dict_get str_eqb (lit "reduction") c with
    | Some (VStr pattern), Some v =>
        let* red := match v with VStr s => Ok (RStr s) | VCall f => Ok (RCall f) | VInt _ | VNone => Err TypeError end in
        let* sizes := rest_of c [lit "pattern"; lit "reduction"] in Reduce U os pattern red sizes
    | _, _ => Err TypeError
    end.
End Config.

Section Call.
  Context {A : Type} (r : runtime A).

  (** self._multirecipe[len(x.shape)] *)
  Definition recipe_for (L : layer (tensor A)) (x : tensor A) : result recipe :=
    of_option KeyError (dict_get Nat.eqb (length (shp x)) (ly_recipes L)).

  (** layers/__init__.py:42-50, 92-100 [_apply_recipe] of the mixins *)
  Definition mixin_apply (L : layer (tensor A)) (x : tensor A) : result (tensor A) :=
    let* rec := recipe_for L x in
    apply_recipe int_ops (rt_backend r) rec x (ly_red L) (ly_sizes L).

  (** _torch_specific.py:77-99 [apply_for_scriptable_torch]: the reduction goes
      straight to the backend *)
  Definition scriptable_apply (rec : recipe) (x : tensor A) (red : reduction (tensor A)) (sizes : list (pystr * Z)) : result (tensor A) :=
    let B := rt_backend (with_framework r TorchJit) in
    let* k := reconstruct int_ops rec (b_shape B x) sizes in
    let* t1 := match k_init k with Some s => b_reshape B x s | None => Ok x end in
    let* t2 := match k_reorder k with Some p => b_transpose B t1 p | None => Ok t1 end in
    let* t3 := match k_reduced k with
               | [] => Ok t2
               | axes => match red with
                         | RStr s => b_reduce B t2 s axes
                         | RCall _ => Err NotImplementedError
                         end
               end in
    let* t4 := match k_added k with [] => Ok t3 | added => b_add_axes B t3 (k_naxes k) added end in
    match k_final k with Some s => b_reshape B t4 s | None => Ok t4 end.
  (** torch.py:12-29 [forward] *)
  Definition torch_apply (L : layer (tensor A)) (x : tensor A) : result (tensor A) :=
    let* rec := recipe_for L x in
    scriptable_apply rec x (ly_red L) (ly_sizes L).

  (** the layer of a framework, called with a tensor *)
  Definition call_layer (L : layer (tensor A)) (x : tensor A) : result (tensor A) :=
    match rt_framework r with Torch => torch_apply L x | _ => mixin_apply L x end.
End Call.
