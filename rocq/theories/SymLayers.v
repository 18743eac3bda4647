(** * Layers in graphs

    layers/tensorflow.py and keras.py (which re-exports it) called on nodes of a
    graph, as keras does when a model is built.  Rearrange and Reduce call
    [_apply_recipe] of the mixin (layers/__init__.py:42-50, 92-100) with the backend
    of Symbolic.v; the rank of a node is static. *)
From Verif Require Import Py Tensor Parsing Recipe Ops Backends Api Symbolic Layers EinMix.

Section GraphLayers.
  Context {E A : Type} (r : runtime A).
  Notation node := (node E A).

  Definition graph_sizes (sizes : list (pystr * Z)) : list (pystr * sdim E) := map (fun '(k, z) => (k, SInt z)) sizes.
  (** tensorflow.py:31-32, 42-43 [call] *)
  Definition graph_call_layer (L : layer node) (n : node) : result node :=
    let* rec := of_option KeyError (dict_get Nat.eqb (length (n_static n)) (ly_recipes L)) in
    apply_recipe sym_ops (the_graph_backend r) rec n (ly_red L) (graph_sizes (ly_sizes L)).

  (** tensorflow.py:87-95 [call] of EinMix.  [g_einsum], [g_add]: tf.einsum and +
      on nodes; the parameters are nodes as well *)
  Context (g_einsum : pystr -> list node -> result node) (g_add : node -> node -> result node).
  Definition graph_call_option (L : option (layer node)) (n : node) : result node :=
    match L with Some L => graph_call_layer L n | None => Ok n end.
  Definition graph_call_einmix (M : einmix node) (weight : node) (bias : option node) (n : node) : result node :=
    let* input := graph_call_option (em_pre M) n in
    let* result := g_einsum (em_einsum M) [input; weight] in
    let* result := match bias with Some b => g_add result b | None => Ok result end in
    graph_call_option (em_post M) result.
End GraphLayers.

(** the nodes of the library compute what the library computes eagerly *)
Definition graph_einsum_ok {E A} (g_einsum : pystr -> list (node E A) -> result (node E A)) (lib_einsum : pystr -> list (tensor A) -> result (tensor A)) : Prop :=
  forall s ns, forall e ts t, Forall2 (computes e) ns ts -> lib_einsum s ts = Ok t -> exists n, g_einsum s ns = Ok n /\ computes e n t.
Definition graph_add_ok {E A} (g_add : node E A -> node E A -> result (node E A)) (add : tensor A -> tensor A -> result (tensor A)) : Prop :=
  forall n b, forall e t u y, computes e n t -> computes e b u -> add t u = Ok y -> exists m, g_add n b = Ok m /\ computes e m y.
