(** * The tests of einops, run on the model

    The files Test*.v transcribe the cases of /repo/einops/tests (patterns, shapes,
    lengths, expected outcomes) and run them on the model, for each framework.
    They are no part of the proofs: they compare the model with what the authors
    of the library expect of it.  Random tensors become 0, 1, 2, ...; shapes are
    smaller where evaluation would take long; "raises" is [raises].

    Each test is a proposition, proved in the next line.  The kernel checks that proof
    and throws it away ([Succeed]): it is an evaluation by the virtual machine, which
    coqchk would repeat without it. *)
From Verif Require Import Py Tensor Parsing Recipe Ops Backends Api Instances.

Definition imperative : list framework := [Numpy; Jax; Cupy; Tensorflow; Keras; Pytensor; Torch; Oneflow; Paddle; Tinygrad].

Definition z_list_eqb (a b : list Z) : bool := if list_eq_dec Z.eq_dec a b then true else false.
Definition tensor_eqb (a b : tensor Z) : bool := shape_eqb (shp a) (shp b) && z_list_eqb (dat a) (dat b).
Definition works {X} (a : result X) : bool := match a with Ok _ => true | Err _ => false end.
Definition raises {X} (a : result X) : bool := negb (works a).
Definition same (a b : result (tensor Z)) : bool := match a, b with Ok x, Ok y => tensor_eqb x y | _, _ => false end.
Definition exn_eq_dec (a b : exn) : {a = b} + {a <> b}.
Proof. decide equality. Defined.
Definition raises_with {X} (e : exn) (a : result X) : bool := match a with Ok _ => false | Err e' => if exn_eq_dec e e' then true else false end.
Definition has_shape (a : result (tensor Z)) (s : list nat) : bool := match a with Ok x => shape_eqb (shp x) s | Err _ => false end.
Definition sizes_eqb (a b : list (pystr * Z)) : bool :=
  (length a =? length b) && forallb (fun '(k, v) => existsb (fun '(k', v') => str_eqb k k' && (v =? v')%Z) b) a.
Definition same_sizes_ (a : result (list (pystr * Z))) (b : list (pystr * Z)) : bool := match a with Ok x => sizes_eqb x b | Err _ => false end.
