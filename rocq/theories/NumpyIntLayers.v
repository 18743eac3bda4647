(** * Layers with lengths that are integers of numpy

    The constructors only look at the names of the lengths; the lengths are kept and go to
    [_reconstruct_from_shape] at each call. As in NumpyInts.v, arithmetic is exact. *)
From Verif Require Import Py Tensor Parsing Recipe Ops Backends Api Layers NumpyInts.

Record np_layer (T : Type) := mkNpLayer {
  nl_pattern : pystr;                    (* self.pattern *)
  nl_red : reduction T;                  (* "rearrange", or self.reduction *)
  nl_sizes : list (pystr * anyint);      (* self.axes_lengths, self._axes_lengths *)
  nl_recipes : list (nat * recipe)       (* self._multirecipe *)
}.
Arguments mkNpLayer {T}. Arguments nl_pattern {T}. Arguments nl_red {T}. Arguments nl_sizes {T}. Arguments nl_recipes {T}.

Section Make.
  Context {T : Type} (U : unicode) (os : nat -> orders).
  Definition np_make_layer (pattern : pystr) (red : reduction T) (sizes : list (pystr * anyint)) : result (np_layer T) :=
    let* recipes := prepare_all_dims U os pattern (op_of red) (map fst sizes) in
    Ok (mkNpLayer pattern red sizes recipes).
  (** layers/__init__.py:20-26, 34-40 *)
  Definition np_Rearrange (pattern : pystr) (sizes : list (pystr * anyint)) : result (np_layer T) :=
    let* _ := check_kwargs [lit "self"; lit "pattern"] sizes in
    np_make_layer pattern (RStr s_rearrange) sizes.
  (** layers/__init__.py:70-76, 84-90 *)
  Definition np_Reduce (pattern : pystr) (red : reduction T) (sizes : list (pystr * anyint)) : result (np_layer T) :=
    let* _ := check_kwargs [lit "self"; lit "pattern"; lit "reduction"] sizes in
    np_make_layer pattern red sizes.
End Make.

Section Call.
  Context {A : Type} (r : runtime A).
  Definition np_recipe_for (L : np_layer (tensor A)) (x : tensor A) : result recipe :=
    of_option KeyError (dict_get Nat.eqb (length (shp x)) (nl_recipes L)).
  (** layers/__init__.py:42-50, 92-100 *)
  Definition np_mixin_apply (L : np_layer (tensor A)) (x : tensor A) : result (tensor A) :=
    let* rec := np_recipe_for L x in
    apply_recipe anyint_ops (anyint_backend (rt_backend r)) rec x (nl_red L) (nl_sizes L).
  (** _torch_specific.py:77-99, not scripted *)
  Definition np_scriptable_apply (rec : recipe) (x : tensor A) (red : reduction (tensor A)) (sizes : list (pystr * anyint)) : result (tensor A) :=
    let B := anyint_backend (rt_backend (with_framework r TorchJit)) in
    let* k := reconstruct anyint_ops rec (b_shape B x) sizes in
    let* t1 := match k_init k with Some s => b_reshape B x s | None => Ok x end in
    let* t2 := match k_reorder k with Some p => b_transpose B t1 p | None => Ok t1 end in
    let* t3 := match k_reduced k with
               | [] => Ok t2
               | axes => match red with
                         | RStr s => b_reduce B t2 s axes
                         | RCall _ => Err NotImplementedError
                         end
               end in
    let* t4 := match k_added k with [] => Ok t3 | added => b_add_axes B t3 (k_naxes k) added end in
    match k_final k with Some s => b_reshape B t4 s | None => Ok t4 end.
  (** torch.py:12-29 [forward] *)
  Definition np_torch_apply (L : np_layer (tensor A)) (x : tensor A) : result (tensor A) :=
    let* rec := np_recipe_for L x in
    np_scriptable_apply rec x (nl_red L) (nl_sizes L).
  Definition np_call_layer (L : np_layer (tensor A)) (x : tensor A) : result (tensor A) :=
    match rt_framework r with Torch => np_torch_apply L x | _ => np_mixin_apply L x end.
End Call.
