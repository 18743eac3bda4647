(** * Lengths that are integers of numpy

    Lengths are often computed with numpy ([np.prod(...)], [arr.max()], elements of an
    integer array) and are then instances of [np.int64], which is not a subclass of
    [int].  Both checks of einops.py:183 and 187 begin with [isinstance(_, int)], and
    are passed over if a length of the group is such a number.

    As elsewhere, arithmetic of lengths is exact: the wrap-around of [np.int64] at
    2^63 is not represented.  A floor division by the numpy zero gives zero and a
    RuntimeWarning (numpy's default), which is not represented either. *)
From Verif Require Import Py Tensor Parsing Recipe Ops Backends Api Packing Einsum Cache.

Inductive anyint := PyInt (z : Z) | NpInt (z : Z).
(** the number *)
Definition int_value (n : anyint) : Z := match n with PyInt z | NpInt z => z end.
(** [==] and [hash] do not tell them apart *)
Definition anyint_eqb (a b : anyint) : bool := (int_value a =? int_value b)%Z.
(** Python's operators: the result is an [int] if both operands are *)
Definition anyint_op (f : Z -> Z -> Z) (a b : anyint) : anyint :=
  match a, b with PyInt x, PyInt y => PyInt (f x y) | _, _ => NpInt (f (int_value a) (int_value b)) end.
Definition anyint_ops : dim_ops anyint := {|
  d_of_Z := PyInt;
  d_int := fun n => match n with PyInt z => Some z | NpInt _ => None end;
  d_mul := anyint_op Z.mul;
  d_floordiv := fun a b =>
    match a, b with
    | PyInt x, PyInt y => if (y =? 0)%Z then Err ZeroDivisionError else Ok (PyInt (x / y)%Z)
    | _, _ => Ok (NpInt (if (int_value b =? 0)%Z then 0%Z else (int_value a / int_value b)%Z))
    end
|}.

(** the libraries take both; the shapes they report consist of ints *)
Definition anyint_backend {T} (B : backend T Z) : backend T anyint := {|
  b_shape := fun t => map PyInt (b_shape B t);
  b_reshape := fun t s => b_reshape B t (map int_value s);
  b_transpose := b_transpose B;
  b_reduce := b_reduce B;
  b_add_axes := fun t n l => b_add_axes B t n (map (fun '(p, d) => (p, int_value d)) l);
  b_stack := b_stack B;
  b_concat := b_concat B;
  b_slice := fun t a i j => b_slice B t a (int_value i) (int_value j);
  b_arange := fun n => b_arange B (int_value n);
  b_is_float := b_is_float B
|}.

(** the same lengths as Python ints: what the caller means *)
Definition as_ints (sizes : list (pystr * anyint)) : list (pystr * Z) := map (fun '(s, n) => (s, int_value n)) sizes.

Section Calls.
  Context {A : Type} (r : runtime A).
  (** einops.py:460-542 [reduce], 545-600 [rearrange], 603-650 [repeat] *)
  Definition np_reduce (x : input (tensor A)) (pattern : pystr) (red : reduction (tensor A)) (sizes : list (pystr * anyint)) : result (tensor A) :=
    api_reduce (rt_unicode r) (rt_orders r) anyint_ops (anyint_backend (rt_backend r)) x pattern red sizes.
  Definition np_rearrange x pattern sizes := np_reduce x pattern (RStr s_rearrange) sizes.
  Definition np_repeat x pattern sizes := np_reduce x pattern (RStr s_repeat) sizes.
  (** with the caches *)
  Definition cached_np_reduce (lim : limits) (x : input (tensor A)) (pattern : pystr) (red : reduction (tensor A)) (id : option nat)
      (sizes : list (pystr * anyint)) (st : caches) : result (tensor A) * caches :=
    cached_api_reduce anyint_ops anyint_eqb (fun _ => true) lim (rt_unicode r) (rt_orders r) (anyint_backend (rt_backend r)) x pattern red id sizes st.
End Calls.
