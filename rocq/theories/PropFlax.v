(** * C58: the flax layers compute what the functions and the other layers compute *)
From Verif Require Import Py Tensor SpecGrammar SpecEinsum SpecPattern SpecOps Parsing Recipe Ops Backends Api Layers SpecLayers EinMix Flax FlaxFacts Instances MixFacts9 LayerFacts EinsumFacts4.

(** a call of the module does what the function does, errors included, as long as
    the ellipsis stands for fewer than 8 axes; beyond that it fails *)
Theorem C58_rearrange : forall (A : Type) (r : runtime A) (os : nat -> orders) (pattern : pystr) (sizes : list (pystr * Z)) (x : tensor A),
  runtime_ok r -> rt_framework r = Jax -> (forall n, orders_ok (os n)) ->
  NoDup (map fst sizes) -> no_reserved sizes -> ~ In (lit "self") (map fst sizes) ->
  (forall L R e, reads (rt_unicode r) pattern L R -> rank_fits L (length (shp x)) e -> e < 8 ->
     flax_rearrange r os pattern sizes x = rearrange r (One x) pattern sizes) /\
  ((forall L R, ~ reads (rt_unicode r) pattern L R) -> flax_rearrange r os pattern sizes x = rearrange r (One x) pattern sizes) /\
  (forall L R, reads (rt_unicode r) pattern L R -> (forall e, rank_fits L (length (shp x)) e -> 8 <= e) -> exists ex, flax_rearrange r os pattern sizes x = Err ex).
Proof. exact (fun A r os pattern sizes x Hok Hj Ho Hn Hres Hself => flax_rearrange_like r Hok Hj os Ho pattern sizes Hn Hres Hself x). Qed.
Print Assumptions C58_rearrange.

Theorem C58_reduce : forall (A : Type) (r : runtime A) (os : nat -> orders) (pattern : pystr) (red : reduction (tensor A)) (sizes : list (pystr * Z)) (x : tensor A),
  runtime_ok r -> rt_framework r = Jax -> (forall n, orders_ok (os n)) ->
  NoDup (map fst sizes) -> no_reserved sizes -> ~ In (lit "self") (map fst sizes) ->
  (forall L R e, reads (rt_unicode r) pattern L R -> rank_fits L (length (shp x)) e -> e < 8 ->
     flax_reduce r os pattern red sizes x = reduce r (One x) pattern red sizes) /\
  ((forall L R, ~ reads (rt_unicode r) pattern L R) -> flax_reduce r os pattern red sizes x = reduce r (One x) pattern red sizes) /\
  (forall L R, reads (rt_unicode r) pattern L R -> (forall e, rank_fits L (length (shp x)) e -> 8 <= e) -> exists ex, flax_reduce r os pattern red sizes x = Err ex).
Proof. exact (fun A r os pattern red sizes x Hok Hj Ho Hn Hres Hself => flax_reduce_like r Hok Hj os Ho pattern red sizes Hn Hres Hself x). Qed.
Print Assumptions C58_reduce.

(** EinMix with a dictionary of sizes succeeds where EinMix with keywords can be made
    and succeeds, with the same result *)
Theorem C58_einmix : forall (A : Type) (r : runtime A) (os os' : nat -> orders)
    (lib_einsum : pystr -> list (tensor A) -> result (tensor A)) (iadd : tensor A -> tensor A -> result (tensor A))
    (pattern weight_text : pystr) (bias_text : option pystr) (sizes : list (pystr * Z)) (w : tensor A) (b : option (tensor A)) (x y : tensor A),
  rt_framework r = Jax ->
  (forall s, In s (map fst sizes) -> ~ In s [lit "self"; lit "pattern"; lit "weight_shape"; lit "bias_shape"]) ->
  flax_einmix r os os' lib_einsum iadd pattern weight_text bias_text sizes w b x = Ok y <->
  exists M, EinMix (rt_unicode r) os os' pattern weight_text bias_text sizes = Ok M /\ call_einmix r lib_einsum iadd M w b x = Ok y.
Proof. exact (fun A r os os' lib iadd pattern wt bt sizes w b x y Hj => flax_einmix_iff r Hj os os' lib iadd pattern wt bt sizes w b x y). Qed.
Print Assumptions C58_einmix.

(** ** Cases *)
Definition jax_runtime : runtime Z := runtime_for Jax.
Example C58_case : flax_rearrange jax_runtime (fun _ => backward) (lit "(a b) ... -> ... b a") [(lit "a", 2%Z)] (iota [6]) = Ok (mkT [3; 2] [0; 3; 1; 4; 2; 5]%Z) /\
  flax_reduce jax_runtime (fun _ => backward) (lit "a b -> b") (RStr (lit "prod")) [] (iota [2; 3]) = Ok (mkT [3] [0; 4; 10]%Z) /\
  runtime_ok jax_runtime /\ NoDup (map fst [(lit "a", 2%Z)]) /\ no_reserved [(lit "a", 2%Z)] /\ ~ In (lit "self") (map fst [(lit "a", 2%Z)]).
Proof.
  split; [vm_compute; reflexivity|]. split; [vm_compute; reflexivity|]. split; [apply runtime_for_ok|]. split; [repeat constructor; intros []|]. split.
  - intros s [<-|[]] [X|[X|[X|[]]]]; discriminate.
  - intros [X|[]]. discriminate.
Qed.
(** a pattern that cannot be read, and too many axes *)
Example C58_error_case : flax_rearrange jax_runtime (fun _ => backward) (lit "a b -> b") [] (iota [2; 3]) = Err EinopsError /\
  flax_rearrange jax_runtime (fun _ => backward) (lit "... -> ...") [] (iota [1; 1; 1; 1; 1; 1; 1; 1; 1]) = Err KeyError /\
  rearrange jax_runtime (One (iota [1; 1; 1; 1; 1; 1; 1; 1; 1])) (lit "... -> ...") [] = Ok (iota [1; 1; 1; 1; 1; 1; 1; 1; 1]).
Proof. vm_compute. auto. Qed.
Example C58_einmix_case : flax_einmix jax_runtime (fun _ => forward) (fun _ => backward) (ref_einsum Z.add Z.mul 0%Z 1%Z) (ref_iadd Z.add 0%Z)
    (lit "b (h c) -> b (d h)") (lit "c d") None [(lit "c", 3%Z); (lit "d", 2%Z)] (iota [3; 2]) None (iota [1; 6]) = Ok (mkT [1; 4] [10; 28; 13; 40]%Z) /\
  (forall s, In s (map fst [(lit "c", 3%Z); (lit "d", 2%Z)]) -> ~ In s [lit "self"; lit "pattern"; lit "weight_shape"; lit "bias_shape"]).
Proof. split; [vm_compute; reflexivity|]. intros s [<-|[<-|[]]] [X|[X|[X|[X|[]]]]]; discriminate. Qed.
(** in a dictionary the names of the parameters are free *)
Example C58_names_case : flax_einmix jax_runtime (fun _ => forward) (fun _ => backward) (ref_einsum Z.add Z.mul 0%Z 1%Z) (ref_iadd Z.add 0%Z)
    (lit "b pattern -> b d") (lit "pattern d") None [(lit "pattern", 2%Z); (lit "d", 1%Z)] (iota [2; 1]) None (iota [2; 2]) = Ok (mkT [2; 1] [1; 3]%Z) /\
  @EinMix (tensor Z) ascii_unicode (fun _ => forward) (fun _ => backward) (lit "b pattern -> b d") (lit "pattern d") None [(lit "pattern", 2%Z); (lit "d", 1%Z)] = Err TypeError.
Proof. vm_compute. auto. Qed.
