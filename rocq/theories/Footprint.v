(** * The tensors a call makes

    The functions of Ops.v and Packing.v do not depend on what a tensor is. Here it is a
    tensor with a log: the shapes of all tensors the library has made on the way to it,
    the latest first. Only the backend classes are repeated, with a note after each call
    of the library (of calls that return views, too). *)
From Verif Require Import Py Tensor Parsing Recipe Ops Backends Api Packing.

Definition logged (A : Type) : Type := tensor A * list (list nat).

Section Logged.
  Context {A : Type} (r : runtime A).
  Implicit Types (x : logged A).
  Definition note (log : list (list nat)) (m : result (tensor A)) : result (logged A) := let* t := m in Ok (t, shp t :: log).

  (** [x.op(axis=axes)] *)
  Definition logged_joint x (op : pystr) (axes : list nat) : result (logged A) := note (snd x) (t_reduce (rt_red r op) (fst x) axes).
  (** one axis at a time: _backends.py:249-253, 643-646, _torch_specific.py:37-39 *)
  Definition logged_sequential x (op : pystr) (axes : list nat) : result (logged A) :=
    foldM (fun x i => note (snd x) (t_reduce (rt_red r op) (fst x) [i])) (sort_desc axes) x.
  (** _backends.py:240-255 *)
  Definition logged_torch x (op : pystr) (axes : list nat) : result (logged A) :=
    if str_mem op [lit "min"; lit "max"; lit "sum"; lit "mean"] then logged_joint x op axes
    else if str_mem op [lit "any"; lit "all"; lit "prod"] then logged_sequential x op axes
    else Err NotImplementedError.
  (** _torch_specific.py:27-41 *)
  Definition logged_torch_jit x (op : pystr) (axes : list nat) : result (logged A) :=
    if str_mem op [lit "min"; lit "max"; lit "sum"; lit "mean"] then logged_joint x op axes
    else if str_eqb op (lit "prod") then logged_sequential x op axes
    else Err NotImplementedError.
  (** _backends.py:500-510 *)
  Definition logged_oneflow x (op : pystr) (axes : list nat) : result (logged A) :=
    foldM (fun x i => if str_mem op reductions then note (snd x) (t_reduce (rt_red r op) (fst x) [i]) else Err NotImplementedError) (sort_desc axes) x.
  (** _backends.py:568-573 *)
  Definition logged_paddle x (op : pystr) (axes : list nat) : result (logged A) :=
    let* t := note (snd x) (paddle_own_reduce (rt_red r) (fst x) op axes) in
    if length axes =? length (shp (fst x)) then note (snd t) (squeeze0 (fst t)) else Ok t.
  (** _backends.py:107-112, 263-268, 518-523, 578-583, _torch_specific.py:56-61 *)
  Definition logged_add_axes (keep : Z) (spread : tensor A -> list Z -> result (tensor A)) x (n_axes : nat) (pos2len : list (nat * Z)) : result (logged A) :=
    let* (x, repeats) :=
      foldM (fun '(x, repeats) '(p, l) =>
               let* x := note (snd x) (t_expand_dims (fst x) p) in
               let* repeats := list_upd repeats p l in
               Ok (x, repeats)) pos2len (x, repeat keep n_axes) in
    note (snd x) (spread (fst x) repeats).

  (** the logs of several tensors are put together *)
  Definition logs (xs : list (logged A)) : list (list nat) := flat_map snd xs.
  Definition logged_with (reduce_ : logged A -> pystr -> list nat -> result (logged A))
      (add_axes_ : logged A -> nat -> list (nat * Z) -> result (logged A)) : backend (logged A) Z := {|
    b_shape x := int_shape (fst x);
    b_reshape x s := note (snd x) (t_reshape (rt_lib r) (fst x) s);
    b_transpose x p := note (snd x) (t_transpose (fst x) p);
    b_reduce := reduce_;
    b_add_axes := add_axes_;
    b_stack xs := note (logs xs) (t_stack (map fst xs));
    b_concat xs axis := note (logs xs) (t_concat (map fst xs) axis);
    b_slice x axis lo hi := note (snd x) (t_slice (fst x) axis lo hi);
    b_arange n := note [] (t_arange (rt_num r) n);
    b_is_float x := rt_isf r (fst x)
  |}.
  Definition logged_backend : backend (logged A) Z :=
    match rt_framework r with
    | Numpy | Jax | Cupy | Tensorflow | Keras | Pytensor => logged_with logged_joint (logged_add_axes 1 t_tile)
    | Torch => logged_with logged_torch (logged_add_axes (-1) t_expand)
    | Oneflow => logged_with logged_oneflow (logged_add_axes (-1) t_expand)
    | Paddle => logged_with logged_paddle (logged_add_axes (-1) t_expand)
    | Tinygrad => logged_with logged_sequential (logged_add_axes 1 t_tile)
    | TorchJit => logged_with logged_torch_jit (logged_add_axes (-1) t_expand)
    end.
  Definition logged_ns : array_ns (logged A) := {|
    xp_shape x := int_shape (fst x);
    xp_reshape x s := note (snd x) (t_reshape (rt_lib r) (fst x) s);
    xp_permute_dims x p := note (snd x) (t_transpose (fst x) p);
    xp_reduce := logged_joint;
    xp_expand_dims x p := note (snd x) (t_expand_dims (fst x) p);
    xp_broadcast_to x s := note (snd x) (t_broadcast_to (fst x) s);
    xp_stack xs := note (logs xs) (t_stack (map fst xs));
    xp_concat xs axis := note (logs xs) (t_concat (map fst xs) axis);
    xp_slice x axis lo hi := note (snd x) (t_slice (fst x) axis lo hi)
  |}.

  Definition logged_reduce (x : input (logged A)) (pattern : pystr) (red : reduction (logged A)) (sizes : list (pystr * Z)) : result (logged A) :=
    api_reduce (rt_unicode r) (rt_orders r) int_ops logged_backend x pattern red sizes.
  Definition logged_xp_reduce (x : input (logged A)) (pattern : pystr) (red : reduction (logged A)) (sizes : list (pystr * Z)) : result (logged A) :=
    aa_reduce (rt_unicode r) (rt_orders r) logged_ns x pattern red sizes.
  Definition logged_pack (xs : list (logged A)) (pattern : pystr) : result (logged A * list (list Z)) :=
    pack_with (rt_unicode r) (b_shape logged_backend) (b_reshape logged_backend) (b_concat logged_backend) xs pattern.
  Definition logged_unpack (x : logged A) (packed_shapes : list (list Z)) (pattern : pystr) : result (list (logged A)) :=
    unpack_with (rt_unicode r) (b_shape logged_backend) (b_reshape logged_backend) (b_slice logged_backend) x packed_shapes pattern.
End Logged.
