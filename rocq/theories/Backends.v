(** * Model of einops/_backends.py: the concrete backends

    Each class is modelled as a [backend] record over reference tensors.
    Parameters of a backend:
    - [lib]: which negative numbers its reshape accepts (Tensor.v);
    - [red s xs]: what the library computes when it reduces the list [xs] (in
      C order) with reduction [s];
    - [isf]: whether a tensor's dtype is a floating type;
    - [num k]: the number [k] as an element (for [arange]). *)
From Verif Require Import Py Tensor Parsing Recipe Ops.

Fixpoint insert_desc (x : nat) (l : list nat) : list nat :=
  match l with [] => [x] | y :: l' => if y <=? x then x :: l else y :: insert_desc x l' end.
(** [sorted(axes)[::-1]] / [sorted(axes, reverse=True)] *)
Definition sort_desc (l : list nat) : list nat := fold_right insert_desc [] l.

Section Backends.
  Context {A : Type} (lib : bool) (red : pystr -> list A -> result A)
          (isf : tensor A -> bool) (num : nat -> A).

  Definition int_shape (t : tensor A) : list Z := map Z.of_nat (shp t).

  (** [x.op(axis=axes)], a joint reduction over several axes *)
  Definition joint_reduce (x : tensor A) (op : pystr) (axes : list nat) : result (tensor A) :=
    t_reduce (red op) x axes.

  (** one axis at a time, from the last one *)
  Definition sequential_reduce (x : tensor A) (op : pystr) (axes : list nat) : result (tensor A) :=
    foldM (fun x i => t_reduce (red op) x [i]) (sort_desc axes) x.

  (** _backends.py:107-112 [AbstractBackend.add_axes] *)
  Definition tile_add_axes (x : tensor A) (n_axes : nat) (pos2len : list (nat * Z)) : result (tensor A) :=
    let* (x, repeats) :=
      foldM (fun '(x, repeats) '(p, l) =>
               let* x := t_expand_dims x p in
               let* repeats := list_upd repeats p l in
               Ok (x, repeats)) pos2len (x, repeat 1%Z n_axes) in
    t_tile x repeats.

  (** _backends.py:263-268 [TorchBackend.add_axes], 518-523 [OneFlowBackend.add_axes],
      578-583 [PaddleBackend.add_axes], _torch_specific.py:56-61 *)
  Definition expand_add_axes (x : tensor A) (n_axes : nat) (pos2len : list (nat * Z)) : result (tensor A) :=
    let* (x, repeats) :=
      foldM (fun '(x, repeats) '(p, l) =>
               let* x := t_expand_dims x p in
               let* repeats := list_upd repeats p l in
               Ok (x, repeats)) pos2len (x, repeat (-1)%Z n_axes) in
    t_expand x repeats.

  (** _backends.py:240-255 [TorchBackend.reduce] *)
  Definition torch_reduce (x : tensor A) (op : pystr) (axes : list nat) : result (tensor A) :=
    if str_mem op [lit "min"; lit "max"; lit "sum"; lit "mean"] then joint_reduce x op axes
    else if str_mem op [lit "any"; lit "all"; lit "prod"] then sequential_reduce x op axes
    else Err NotImplementedError.

  (** _torch_specific.py:27-41 [TorchJitBackend.reduce]: no "any", no "all" *)
  Definition torch_jit_reduce (x : tensor A) (op : pystr) (axes : list nat) : result (tensor A) :=
    if str_mem op [lit "min"; lit "max"; lit "sum"; lit "mean"] then joint_reduce x op axes
    else if str_eqb op (lit "prod") then sequential_reduce x op axes
    else Err NotImplementedError.

  (** _backends.py:500-510 [OneFlowBackend.reduce] (the check of the name happens
      inside the loop) *)
  Definition oneflow_reduce (x : tensor A) (op : pystr) (axes : list nat) : result (tensor A) :=
    foldM (fun x i => if str_mem op reductions then t_reduce (red op) x [i] else Err NotImplementedError)
      (sort_desc axes) x.

  (** _backends.py:568-573 [PaddleBackend.reduce]: paddle's own full reduction
      returns a 1-d tensor, which is then squeezed *)
  Definition paddle_own_reduce (x : tensor A) (op : pystr) (axes : list nat) : result (tensor A) :=
    let* t := joint_reduce x op axes in
    if length axes =? length (shp x) then Ok (mkT [1] (dat t)) else Ok t.
  Definition squeeze0 (t : tensor A) : result (tensor A) :=
    match shp t with 1 :: s => Ok (mkT s (dat t)) | _ => Err BackendError end.
  Definition paddle_reduce (x : tensor A) (op : pystr) (axes : list nat) : result (tensor A) :=
    if length axes =? length (shp x)
    then let* t := paddle_own_reduce x op axes in squeeze0 t
    else paddle_own_reduce x op axes.

  Definition t_arange (stop : Z) : result (tensor A) :=
    Ok (mkT [Z.to_nat stop] (map num (seq 0 (Z.to_nat stop)))).

  Definition make_backend
      (reduce_ : tensor A -> pystr -> list nat -> result (tensor A))
      (add_axes_ : tensor A -> nat -> list (nat * Z) -> result (tensor A)) : backend (tensor A) Z := {|
    b_shape := int_shape;
    b_reshape := t_reshape lib;
    b_transpose := t_transpose;
    b_reduce := reduce_;
    b_add_axes := add_axes_;
    b_stack := t_stack;
    b_concat := t_concat;
    b_slice := t_slice;
    b_arange := t_arange;
    b_is_float := isf
  |}.

  (** The frameworks with concrete (eager) shapes.
      numpy 157-193, jax 196-211 (inherits), cupy 291-327, tensorflow 349-416
      (eager), keras 419-473, pytensor 668-719: joint reduction + tile;
      torch 214-288; oneflow 476-543; paddle 546-612; tinygrad 615-665. *)
  Inductive framework :=
  | Numpy | Jax | Cupy | Tensorflow | Keras | Pytensor | Torch | Oneflow | Paddle | Tinygrad
  | TorchJit  (* _torch_specific.py:20-73, used by the torch layers *).

  Definition backend_of (f : framework) : backend (tensor A) Z :=
    match f with
    | Numpy | Jax | Cupy | Tensorflow | Keras | Pytensor => make_backend joint_reduce tile_add_axes
    | Torch => make_backend torch_reduce expand_add_axes
    | Oneflow => make_backend oneflow_reduce expand_add_axes
    | Paddle => make_backend paddle_reduce expand_add_axes
    | Tinygrad => make_backend sequential_reduce tile_add_axes
    | TorchJit => make_backend torch_jit_reduce expand_add_axes
    end.

  (** an array-API namespace over reference tensors *)
  Definition array_api_ns : array_ns (tensor A) := {|
    xp_shape := int_shape;
    xp_reshape := t_reshape lib;
    xp_permute_dims := t_transpose;
    xp_reduce := joint_reduce;
    xp_expand_dims := t_expand_dims;
    xp_broadcast_to := t_broadcast_to;
    xp_stack := t_stack;
    xp_concat := t_concat;
    xp_slice := t_slice
  |}.
End Backends.
