(** * Model of einops/einops.py and einops/array_api.py: the operations *)
From Verif Require Import Py Tensor Parsing Recipe.

(** What einops needs from a framework (einops/_backends.py:62-135
    [AbstractBackend]).  [T] is the framework's tensor type and [D] the type of
    the dimensions it reports.  [b_slice x axis lo hi] is
    [x[:, ..., lo:hi]] with [axis] leading full slices (packing.py:175-180). *)
Record backend (T D : Type) := {
  b_shape : T -> list D;
  b_reshape : T -> list D -> result T;
  b_transpose : T -> list nat -> result T;
  b_reduce : T -> pystr -> list nat -> result T;
  b_add_axes : T -> nat -> list (nat * D) -> result T;
  b_stack : list T -> result T;
  b_concat : list T -> nat -> result T;
  b_slice : T -> nat -> D -> D -> result T;
  b_arange : D -> result T;
  b_is_float : T -> bool
}.
Arguments b_shape {T D} _ _.
Arguments b_reshape {T D} _ _ _.
Arguments b_transpose {T D} _ _ _.
Arguments b_reduce {T D} _ _ _ _.
Arguments b_add_axes {T D} _ _ _ _.
Arguments b_stack {T D} _ _.
Arguments b_concat {T D} _ _ _.
Arguments b_slice {T D} _ _ _ _ _.
Arguments b_arange {T D} _ _.
Arguments b_is_float {T D} _ _.

(** The [reduction] argument (einops.py:17-18): a string or a callable
    [f(tensor, axes) -> tensor]. *)
Inductive reduction (T : Type) :=
| RStr (s : pystr)
| RCall (f : T -> list nat -> result T).
Arguments RStr {T} s.
Arguments RCall {T} f.

Definition op_of {T} (r : reduction T) : operation :=
  match r with RStr s => OpStr s | RCall _ => OpCallable end.

(** First argument of an operation: a tensor or a list of tensors. *)
Inductive input (T : Type) := One (t : T) | Many (ts : list T).
Arguments One {T} t.
Arguments Many {T} ts.

(** Python binds the names of the positional parameters first
    (einops.py:460, 545, 600, 603, 650): a keyword size with one of these names
    is a [TypeError] ("got multiple values for argument"). *)
Definition reserved_kwargs : list pystr := [lit "tensor"; lit "pattern"; lit "reduction"].
Definition check_kwargs {D} (reserved : list pystr) (sizes : list (pystr * D)) : result unit :=
  raise_if (existsb (fun '(k, _) => str_mem k reserved) sizes) TypeError.

Section Ops.
  Context {T D : Type} (U : unicode) (o : orders) (O : dim_ops D) (B : backend T D).

  (** einops.py:37-47 [_reduce_axes] *)
  Definition reduce_axes (tensor : T) (red : reduction T) (reduced_axes : list nat) : result T :=
    match red with
    | RCall f => f tensor reduced_axes                                            (* 38-40 *)
    | RStr s =>
        let* _ := raise_if (negb (str_mem s reductions)) AssertionError in        (* 43 *)
        let* _ := raise_if (str_eqb s (lit "mean") && negb (b_is_float B tensor)) NotImplementedError in (* 44-46 *)
        b_reduce B tensor s reduced_axes                                          (* 47 *)
    end.

  (** einops.py:242-252: the five steps of [_apply_recipe] *)
  Definition apply_cooked (k : cooked D) (tensor : T) (red : reduction T) : result T :=
    let* t1 := match k_init k with Some s => b_reshape B tensor s | None => Ok tensor end in
    let* t2 := match k_reorder k with Some p => b_transpose B t1 p | None => Ok t1 end in
    let* t3 := match k_reduced k with [] => Ok t2 | _ => reduce_axes t2 red (k_reduced k) end in
    let* t4 := match k_added k with [] => Ok t3 | _ => b_add_axes B t3 (k_naxes k) (k_added k) end in
    match k_final k with Some s => b_reshape B t4 s | None => Ok t4 end.

  (** einops.py:230-252 [_apply_recipe].  The cache is dealt with in Cache.v; the
      fallback for unhashable shapes (238-241) computes the same thing. *)
  Definition apply_recipe (r : recipe) (tensor : T) (red : reduction T) (sizes : list (pystr * D)) : result T :=
    let* k := reconstruct O r (b_shape B tensor) sizes in
    apply_cooked k tensor red.

  (** einops.py:521-527: a list of tensors is stacked *)
  Definition stack_input (x : input T) : result T :=
    match x with
    | One t => Ok t
    | Many [] => Err TypeError
    | Many ts => b_stack B ts
    end.

  (** einops.py:460-542 [reduce].  Re-raising adds only a message. *)
  Definition api_reduce (x : input T) (pattern : pystr) (red : reduction T) (sizes : list (pystr * D))
      : result T :=
    let* _ := check_kwargs reserved_kwargs sizes in
    let* tensor := stack_input x in
    let* r := prepare_recipe U o pattern (op_of red) (map fst sizes) (length (b_shape B tensor)) in
    apply_recipe r tensor red sizes.

  (** einops.py:545-600 [rearrange] *)
  Definition api_rearrange (x : input T) (pattern : pystr) (sizes : list (pystr * D)) : result T :=
    api_reduce x pattern (RStr s_rearrange) sizes.

  (** einops.py:603-650 [repeat] *)
  Definition api_repeat (x : input T) (pattern : pystr) (sizes : list (pystr * D)) : result T :=
    api_reduce x pattern (RStr s_repeat) sizes.

  (** einops.py:716-735 [_enumerate_directions] *)
  Definition enumerate_directions (x : T) : result (list T) :=
    let shape := b_shape B x in
    mapM (fun '(axis_id, axis_length) =>
            let* s := list_upd (repeat (d_of_Z O 1) (length shape)) axis_id axis_length in
            let* a := b_arange B axis_length in
            b_reshape B a s) (enumerate shape).
End Ops.

(** einops.py:653-712 [parse_shape], for dimensions that are ints. Result: dict
    in insertion order. *)
Definition cell_axes (c : comp) : list axis := comp_axes c.   (* iterating "_" or "…" yields itself *)
Definition underscore : comp := CGrp [AxName [c_under]].
Fixpoint find_cell (l : list comp) : option nat :=             (* exp.composition.index(_ellipsis) *)
  match l with
  | [] => None
  | CEll :: _ => Some 0
  | CGrp _ :: l' => option_map S (find_cell l')
  end.
Definition parse_shape (U : unicode) (shape : list Z) (pattern : pystr) : result (list (pystr * Z)) :=
  let* (exp, _) := parse_expression U true false 0 pattern in                     (* 679 *)
  let* _ := raise_if (has_composed_axes exp) RuntimeError in                      (* 681-682 *)
  let ncomp := length (p_composition exp) in
  let* _ := if length shape =? ncomp then Ok tt                                   (* 683-688 *)
            else if p_has_ellipsis exp
                 then raise_if (length shape <? ncomp - 1) RuntimeError
                 else Err RuntimeError in
  let* composition :=                                                             (* 689-697 *)
    if p_has_ellipsis exp
    then let* k := of_option ValueError (find_cell (p_composition exp)) in
         Ok (firstn k (p_composition exp)
               ++ repeat underscore (length shape + 1 - ncomp)
               ++ skipn (S k) (p_composition exp))
    else Ok (p_composition exp) in
  foldM (fun result '(c, axis_length) =>                                          (* 698-711 *)
           match cell_axes c with
           | [] => if (axis_length =? 1)%Z then Ok result else Err RuntimeError
           | [AxName s] => if str_eqb s [c_under] then Ok result
                           else Ok (dict_set str_eqb s axis_length result)
           | [AxAnon _ v] => if (v =? axis_length)%Z then Ok result else Err RuntimeError
           | _ => Err ValueError                                                  (* [axis] = axes *)
           end) (combine composition shape) [].

(** ** einops/array_api.py *)

(** the functions of an array-API namespace that are used *)
Record array_ns (T : Type) := {
  xp_shape : T -> list Z;
  xp_reshape : T -> list Z -> result T;
  xp_permute_dims : T -> list nat -> result T;
  xp_reduce : T -> pystr -> list nat -> result T;
  xp_expand_dims : T -> nat -> result T;
  xp_broadcast_to : T -> list Z -> result T;
  xp_stack : list T -> result T;
  xp_concat : list T -> nat -> result T;
  xp_slice : T -> nat -> Z -> Z -> result T
}.
Arguments xp_shape {T} _ _.
Arguments xp_reshape {T} _ _ _.
Arguments xp_permute_dims {T} _ _ _.
Arguments xp_reduce {T} _ _ _ _.
Arguments xp_expand_dims {T} _ _ _.
Arguments xp_broadcast_to {T} _ _ _.
Arguments xp_stack {T} _ _.
Arguments xp_concat {T} _ _ _.
Arguments xp_slice {T} _ _ _ _ _.

Section ArrayAPI.
  Context {T : Type} (U : unicode) (o : orders) (X : array_ns T).

  (** einops.py:262-286: the steps of [_apply_recipe_array_api] *)
  Definition apply_cooked_array_api (k : cooked Z) (tensor : T) (red : reduction T) : result T :=
    let* t1 := match k_init k with Some s => xp_reshape X tensor s | None => Ok tensor end in
    let* t2 := match k_reorder k with Some p => xp_permute_dims X t1 p | None => Ok t1 end in
    let* t3 := match k_reduced k with
               | [] => Ok t2
               | _ => match red with
                      | RCall f => f t2 (k_reduced k)
                      | RStr s => let* _ := raise_if (negb (str_mem s reductions)) AssertionError in
                                  xp_reduce X t2 s (k_reduced k)
                      end
               end in
    let* t4 := match k_added k with
               | [] => Ok t3
               | added =>
                   let* t := foldM (fun t '(p, _) => xp_expand_dims X t p) added t3 in      (* 276-277 *)
                   let* s := foldM (fun s '(p, l) => list_upd s p l) added (xp_shape X t) in (* 279-281 *)
                   xp_broadcast_to X t s                                                    (* 283 *)
               end in
    match k_final k with Some s => xp_reshape X t4 s | None => Ok t4 end.

  (** einops.py:255-286 [_apply_recipe_array_api] *)
  Definition apply_recipe_array_api (r : recipe) (tensor : T) (red : reduction T)
      (sizes : list (pystr * Z)) : result T :=
    let* k := reconstruct int_ops r (xp_shape X tensor) sizes in
    apply_cooked_array_api k tensor red.
  Definition stack_input_array_api (x : input T) : result T :=                    (* array_api.py:7-13 *)
    match x with
    | One t => Ok t
    | Many [] => Err TypeError
    | Many ts => xp_stack X ts
    end.

  (** array_api.py:6-31 [reduce] *)
  Definition aa_reduce (x : input T) (pattern : pystr) (red : reduction T) (sizes : list (pystr * Z))
      : result T :=
    let* _ := check_kwargs reserved_kwargs sizes in
    let* tensor := stack_input_array_api x in
    let* r := prepare_recipe U o pattern (op_of red) (map fst sizes) (length (xp_shape X tensor)) in
    apply_recipe_array_api r tensor red sizes.

  (** array_api.py:34-39 *)
  Definition aa_rearrange x pattern sizes := aa_reduce x pattern (RStr s_rearrange) sizes.
  Definition aa_repeat x pattern sizes := aa_reduce x pattern (RStr s_repeat) sizes.
End ArrayAPI.
