(** * C64: assert statements *)
From Verif Require Import Py Tensor SpecGrammar Parsing Recipe Ops Backends Api Unasserted UnassertedFacts Instances.

(** with and without assert statements (python -O) calls do the same (rearrange and
    repeat call reduce: einops.py:600, 650) *)
Theorem C64_without_asserts : forall (A : Type) (r : runtime A) (x : input (tensor A)) (pattern : pystr) (red : reduction (tensor A)) (sizes : list (pystr * Z)),
  runtime_ok r -> NoDup (map fst sizes) ->
  reduce_O r x pattern red sizes = reduce r x pattern red sizes /\
  xp_reduce_O r x pattern red sizes = xp_reduce_ r x pattern red sizes.
Proof. exact (fun A r x p red sizes Hok Hn => conj (reduce_same r Hok x p red sizes Hn) (xp_same r Hok x p red sizes Hn)). Qed.
Print Assumptions C64_without_asserts.

(** the recipe, for any number of dimensions, whatever the framework *)
Theorem C64_recipe : forall (U : unicode) (o : orders) pattern op names ndim, unicode_ok U ->
  prepare_recipe_O U o pattern op names ndim = prepare_recipe U o pattern op names ndim.
Proof. exact (fun U o p op names n HU => prepare_same U HU o p op names n). Qed.
Print Assumptions C64_recipe.

(** the skipped statements are not vacuous: taken by itself, the function that
    reduces does depend on its assert *)
Example C64_case :
  runtime_ok numpy_like /\
  reduce_axes (rt_backend numpy_like) (iota [2; 3]) (RStr (lit "total")) [0] = Err AssertionError /\
  reduce_axes_O (rt_backend numpy_like) (iota [2; 3]) (RStr (lit "total")) [0] <> Err AssertionError /\
  known_unknown forward [(AxName (lit "a"), unknown_axis_length)] [(AxName (lit "a"), 0)] [AxName (lit "a"); AxName (lit "a")] = Err AssertionError /\
  known_unknown_O forward [(AxName (lit "a"), unknown_axis_length)] [(AxName (lit "a"), 0)] [AxName (lit "a"); AxName (lit "a")] = Ok ([], [0]) /\
  reduce_O numpy_like (One (iota [2; 3])) (lit "a b -> b") (RStr (lit "sum")) [] = Ok (mkT [3] [3; 5; 7]%Z) /\
  reduce_O numpy_like (One (iota [2; 3])) (lit "a b -> b") (RStr (lit "total")) [] = Err EinopsError.
Proof. split; [apply runtime_for_ok|]. repeat split; try (vm_compute; reflexivity). vm_compute. discriminate. Qed.
