(** * Model of arrays in memory: buffers, strides, views and copies

    Tensor.v treats tensors as values.  In numpy, cupy, torch, oneflow and paddle a
    tensor is a view of a buffer, and the functions einops calls (_backends.py) either
    return another view of the same buffer or fill a new one.  This file models which:

    - transpose/permute, expand_dims/unsqueeze, expand and slicing return views;
    - reshape returns a view when it can, and copies otherwise; when it can is a
      parameter ([nocopy]), see SpecStrides.v;
    - tile, reductions, stack, concatenate and arange fill a new buffer.

    None of these functions writes into an existing buffer.  The only writing operation
    in einops is [+=] of EinMix (layers/torch.py:63-64 etc.). *)
From Verif Require Import Py Tensor Parsing Recipe Ops Backends Api Packing.

(** buffers that exist before the call have numbers; a new one is known by its contents *)
Inductive buffer (A : Type) := Old (id : nat) | New (data : list A).
Arguments Old {A} id.
Arguments New {A} data.
Definition memory (A : Type) := nat -> list A.

(** element [idx] is at place [a_off + sum of idx[k] * a_str[k]] of the buffer; strides
    count elements, not bytes *)
Record array (A : Type) := mkArr { a_buf : buffer A; a_off : Z; a_shp : list nat; a_str : list Z }.
Arguments mkArr {A} a_buf a_off a_shp a_str.
Arguments a_buf {A} a.
Arguments a_off {A} a.
Arguments a_shp {A} a.
Arguments a_str {A} a.

Fixpoint dot (strides : list Z) (idx : list nat) : Z :=
  match strides, idx with s :: strides', i :: idx' => (s * Z.of_nat i + dot strides' idx')%Z | _, _ => 0%Z end.
Definition places_of (off : Z) (shape : list nat) (strides : list Z) : list Z :=
  map (fun idx => (off + dot strides idx)%Z) (indices shape).
(** the places of the elements, as a tensor *)
Definition places {A} (v : array A) : tensor Z := mkT (a_shp v) (places_of (a_off v) (a_shp v) (a_str v)).

(** strides of a new array in C order *)
Fixpoint c_strides (s : list nat) : list Z :=
  match s with [] => [] | _ :: s' => Z.of_nat (prodn s') :: c_strides s' end.
Definition fresh {A} (t : tensor A) : array A := mkArr (New (dat t)) 0 (shp t) (c_strides (shp t)).

Section Arrays.
  Context {A : Type} (mem : memory A) (nocopy : list nat -> list Z -> list nat -> option (list Z)).

  Definition contents (b : buffer A) : list A := match b with Old id => mem id | New data => data end.
  (** the value at a place *)
  Definition lookup (b : buffer A) (k : Z) : result A :=
    if (k <? 0)%Z then Err BackendError else of_option BackendError (nth_error (contents b) (Z.to_nat k)).
  Definition read (v : array A) : result (tensor A) :=
    let* d := mapM (lookup (a_buf v)) (dat (places v)) in Ok (mkT (a_shp v) d).

  (** ** views *)
  Definition v_transpose (v : array A) (axes : list nat) : result (array A) :=
    if is_permutation axes (length (a_shp v))
    then Ok (mkArr (a_buf v) (a_off v) (map (fun a => nth a (a_shp v) 0) axes) (map (fun a => nth a (a_str v) 0%Z) axes))
    else Err BackendError.
  Definition v_expand_dims (v : array A) (pos : nat) : result (array A) :=
    if pos <=? length (a_shp v)
    then Ok (mkArr (a_buf v) (a_off v) (insert_at pos 1 (a_shp v)) (insert_at pos 0%Z (a_str v)))
    else Err BackendError.
  Definition v_expand (v : array A) (sizes : list Z) : result (array A) :=
    let* s' := expand_shape (a_shp v) sizes in
    Ok (mkArr (a_buf v) (a_off v) s' (map2 (fun d st => if d =? 1 then 0%Z else st) (a_shp v) (a_str v))).
  Definition v_slice (v : array A) (axis : nat) (lo hi : Z) : result (array A) :=
    if axis <? length (a_shp v)
    then let d := nth axis (a_shp v) 0 in
         let a := slice_bound d lo in
         let b := slice_bound d hi in
         Ok (mkArr (a_buf v) (a_off v + nth axis (a_str v) 0 * Z.of_nat a)%Z (replace_nth axis (b - a) (a_shp v)) (a_str v))
    else Err BackendError.

  (** ** a view or a copy *)
  Definition v_reshape (lib : bool) (v : array A) (s : list Z) : result (array A) :=
    let* s' := resolve_shape lib (prodn (a_shp v)) s in
    match nocopy (a_shp v) (a_str v) s' with
    | Some strides => Ok (mkArr (a_buf v) (a_off v) s' strides)
    | None => let* t := read v in Ok (fresh (mkT s' (dat t)))
    end.

  (** ** new buffers *)
  Definition compute (m : result (tensor A)) : result (array A) := let* t := m in Ok (fresh t).
  Definition v_tile (v : array A) (reps : list Z) : result (array A) := compute (let* t := read v in t_tile t reps).
  Definition v_stack (vs : list (array A)) : result (array A) := compute (let* ts := mapM read vs in t_stack ts).
  Definition v_concat (vs : list (array A)) (axis : nat) : result (array A) := compute (let* ts := mapM read vs in t_concat ts axis).

  (** ** the backends *)
  Definition v_add_loop (fill : Z) (v : array A) (n_axes : nat) (pos2len : list (nat * Z)) : result (array A * list Z) :=
    foldM (fun '(v, repeats) '(p, l) =>
             let* v := v_expand_dims v p in
             let* repeats := list_upd repeats p l in
             Ok (v, repeats)) pos2len (v, repeat fill n_axes).
  (** _backends.py:107-112 *)
  Definition v_tile_add_axes (v : array A) (n_axes : nat) (pos2len : list (nat * Z)) : result (array A) :=
    let* (v, repeats) := v_add_loop 1 v n_axes pos2len in v_tile v repeats.
  (** _backends.py:263-268, 518-523, 578-583, _torch_specific.py:56-61 *)
  Definition v_expand_add_axes (v : array A) (n_axes : nat) (pos2len : list (nat * Z)) : result (array A) :=
    let* (v, repeats) := v_add_loop (-1) v n_axes pos2len in v_expand v repeats.

  Context (r : runtime A).
  (** the backends of Backends.v, on arrays in memory *)
  Definition array_backend : backend (array A) Z := {|
    b_shape v := map Z.of_nat (a_shp v);
    b_reshape := v_reshape (rt_lib r);
    b_transpose := v_transpose;
    b_reduce v op axes := compute (let* t := read v in b_reduce (rt_backend r) t op axes);
    b_add_axes := if expands (rt_framework r) then v_expand_add_axes else v_tile_add_axes;
    b_stack := v_stack;
    b_concat := v_concat;
    b_slice := v_slice;
    b_arange n := compute (b_arange (rt_backend r) n);
    b_is_float v := match read v with Ok t => rt_isf r t | Err _ => false end
  |}.

  Definition v_rearrange (x : input (array A)) (pattern : pystr) (sizes : list (pystr * Z)) : result (array A) :=
    api_rearrange (rt_unicode r) (rt_orders r) int_ops array_backend x pattern sizes.
  Definition v_reduce (x : input (array A)) (pattern : pystr) (red : reduction (array A)) (sizes : list (pystr * Z)) : result (array A) :=
    api_reduce (rt_unicode r) (rt_orders r) int_ops array_backend x pattern red sizes.
  Definition v_repeat (x : input (array A)) (pattern : pystr) (sizes : list (pystr * Z)) : result (array A) :=
    api_repeat (rt_unicode r) (rt_orders r) int_ops array_backend x pattern sizes.
  Definition v_pack (xs : list (array A)) (pattern : pystr) : result (array A * list (list Z)) :=
    pack_with (rt_unicode r) (b_shape array_backend) (b_reshape array_backend) (b_concat array_backend) xs pattern.
  Definition v_unpack (x : array A) (packed_shapes : list (list Z)) (pattern : pystr) : result (list (array A)) :=
    unpack_with (rt_unicode r) (b_shape array_backend) (b_reshape array_backend) (b_slice array_backend) x packed_shapes pattern.
End Arrays.

(** [y[idx] = a], by the user: the element at that place is replaced *)
Definition write {A} (mem : memory A) (v : array A) (idx : list nat) (a : A) : memory A :=
  match a_buf v with
  | Old id => fun i => if i =? id then replace_nth (Z.to_nat (a_off v + dot (a_str v) idx)) a (mem i) else mem i
  | New _ => mem
  end.
