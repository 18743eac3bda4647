(** * C57: layers in a graph compute what layers compute eagerly *)
From Verif Require Import Py Tensor SpecGrammar SpecEinsum SpecPattern Parsing Recipe Ops Backends Api Symbolic Layers EinMix SymLayers SymLayerFacts Instances SymFacts2 EinsumFacts4 MixFacts9.

(** a graph is built once and run on many inputs [e] *)
Theorem C57_rearrange : forall (E A : Type) (r : runtime A) (os os2 : nat -> orders) (pattern : pystr) (sizes : list (pystr * Z)) (L : layer (tensor A)),
  runtime_ok r -> has_graphs (rt_framework r) -> (forall n, orders_ok (os n)) -> (forall n, orders_ok (os2 n)) -> NoDup (map fst sizes) ->
  Rearrange (rt_unicode r) os pattern sizes = Ok L ->
  exists G : layer (node E A), Rearrange (rt_unicode r) os2 pattern sizes = Ok G /\
    forall e n t y, computes e n t -> call_layer r L t = Ok y -> exists m, graph_call_layer r G n = Ok m /\ computes e m y.
Proof. exact (fun E A r os os2 pattern sizes L Hok Hg Ho Ho2 Hn => rearrange_graph r Hok Hg os os2 Ho Ho2 sizes Hn pattern L). Qed.
Print Assumptions C57_rearrange.

Theorem C57_reduce : forall (E A : Type) (r : runtime A) (os os2 : nat -> orders) (pattern s : pystr) (sizes : list (pystr * Z)) (L : layer (tensor A)),
  runtime_ok r -> has_graphs (rt_framework r) -> (forall n, orders_ok (os n)) -> (forall n, orders_ok (os2 n)) -> NoDup (map fst sizes) ->
  Reduce (rt_unicode r) os pattern (RStr s) sizes = Ok L ->
  exists G : layer (node E A), Reduce (rt_unicode r) os2 pattern (RStr s) sizes = Ok G /\
    forall e n t y, (s = lit "mean" -> n_float n = true) -> computes e n t -> call_layer r L t = Ok y -> exists m, graph_call_layer r G n = Ok m /\ computes e m y.
Proof. exact (fun E A r os os2 pattern s sizes L Hok Hg Ho Ho2 Hn => reduce_graph r Hok Hg os os2 Ho Ho2 sizes Hn pattern s L). Qed.
Print Assumptions C57_reduce.

(** EinMix, given that tf.einsum and + compute in graphs what they compute eagerly *)
Theorem C57_einmix : forall (E A : Type) (r : runtime A) (os os' os2 os2' : nat -> orders) (pattern weight_text : pystr) (bias_text : option pystr) (sizes : list (pystr * Z))
    (g_einsum : pystr -> list (node E A) -> result (node E A)) (lib_einsum : pystr -> list (tensor A) -> result (tensor A))
    (g_add : node E A -> node E A -> result (node E A)) (iadd : tensor A -> tensor A -> result (tensor A)) (M : einmix (tensor A)),
  runtime_ok r -> has_graphs (rt_framework r) -> (forall n, orders_ok (os n)) -> (forall n, orders_ok (os' n)) -> (forall n, orders_ok (os2 n)) -> (forall n, orders_ok (os2' n)) ->
  NoDup (map fst sizes) -> graph_einsum_ok g_einsum lib_einsum -> graph_add_ok g_add iadd ->
  EinMix (rt_unicode r) os os' pattern weight_text bias_text sizes = Ok M ->
  exists G : einmix (node E A), EinMix (rt_unicode r) os2 os2' pattern weight_text bias_text sizes = Ok G /\
    em_weight G = em_weight M /\ em_bias G = em_bias M /\ em_fan_in G = em_fan_in M /\
    forall e n t wn w bn b y, computes e n t -> computes e wn w -> option_rel (computes e) bn b -> call_einmix r lib_einsum iadd M w b t = Ok y ->
      exists m, graph_call_einmix r g_einsum g_add G wn bn n = Ok m /\ computes e m y.
Proof.
  exact (fun E A r os os' os2 os2' pattern wt bt sizes ge lib ga iadd M Hok Hg Ho Ho' Ho2 Ho2' Hn He Ha =>
    einmix_graph r Hok Hg os os' os2 os2' Ho Ho' Ho2 Ho2' sizes Hn ge lib He ga iadd Ha pattern wt bt M).
Qed.
Print Assumptions C57_einmix.

(** ** Cases *)
(** a placeholder of shape (?, 6), run with two and with three rows *)
Definition rows : node (tensor Z) Z := mkN [None; Some 6%Z] true (fun e => Ok e).
Example C57_case : forall k, k = 2 \/ k = 3 -> computes (iota [k; 6]) rows (iota [k; 6]).
Proof. intros k Hk. split; [reflexivity|]. destruct Hk as [->| ->]; vm_compute; repeat constructor; intros z Hz; congruence. Qed.
Definition tf_runtime : runtime Z := runtime_for Tensorflow.
Example C57_case_rearrange : exists L G m, Rearrange ascii_unicode (fun _ => forward) (lit "b (h c) -> (b c) h") [(lit "h", 2%Z)] = Ok L /\
  Rearrange ascii_unicode (fun _ => backward) (lit "b (h c) -> (b c) h") [(lit "h", 2%Z)] = Ok G /\ graph_call_layer tf_runtime G rows = Ok m /\
  forall k, k = 2 \/ k = 3 -> n_run m (iota [k; 6]) = call_layer tf_runtime L (iota [k; 6]) /\ exists t, n_run m (iota [k; 6]) = Ok t /\ shp t = [k * 3; 2].
Proof.
  do 3 eexists. split; [vm_compute; reflexivity|]. split; [vm_compute; reflexivity|]. split; [vm_compute; reflexivity|].
  intros k [->| ->]; (split; [vm_compute; reflexivity|eexists; split; vm_compute; reflexivity]).
Qed.

(** einsum and addition in graphs that meet the assumptions: the rank of the
    result is read off the text *)
Definition out_rank (s : pystr) : nat := length (nth 1 (str_split (lit "->") s) []).
Definition ranked_einsum (s : pystr) (ts : list (tensor Z)) : result (tensor Z) :=
  let* t := ref_einsum Z.add Z.mul 0%Z 1%Z s ts in
  if length (shp t) =? out_rank s then Ok t else Err BackendError.
Definition node_einsum {E} (s : pystr) (ns : list (node E Z)) : result (node E Z) :=
  Ok (mkN (repeat None (out_rank s)) true (fun e => let* ts := mapM (fun n => n_run n e) ns in ranked_einsum s ts)).
Definition node_add {E} (n b : node E Z) : result (node E Z) :=
  Ok (mkN (n_static n) true (fun e => let* t := n_run n e in let* u := n_run b e in ref_iadd Z.add 0%Z t u)).
Example C57_case_einsum : forall E, graph_einsum_ok (node_einsum (E := E)) ranked_einsum.
Proof.
  intros E s ns e ts t H Ht. eexists. split; [reflexivity|]. split.
  - cbn [n_run]. assert (G : mapM (fun n => n_run n e) ns = Ok ts).
    { clear Ht. induction H as [|n u ns us [Hn _] _ IH]; [reflexivity|]. cbn [mapM]. rewrite Hn. cbn [bind]. rewrite IH. reflexivity. }
    rewrite G. exact Ht.
  - cbn [n_static]. unfold ranked_einsum in Ht. destruct (ref_einsum _ _ _ _ s ts) as [u|]; [|discriminate]. cbn [bind] in Ht.
    destruct (length (shp u) =? out_rank s) eqn:El; [|discriminate]. injection Ht as <-. apply Nat.eqb_eq in El. rewrite <- El. unfold int_shape.
    clear. induction (shp u) as [|d l IH]; [constructor|]. constructor; [discriminate|exact IH].
Qed.
Example C57_case_add : forall E, graph_add_ok (node_add (E := E)) (ref_iadd Z.add 0%Z).
Proof.
  intros E n b e t u y [Hn Hs] [Hb _] Hy. eexists. split; [reflexivity|]. split.
  - cbn [n_run]. rewrite Hn, Hb. exact Hy.
  - cbn [n_static]. unfold ref_iadd in Hy. injection Hy as <-. exact Hs.
Qed.
Definition constant (t : tensor Z) : node (tensor Z) Z := mkN (map Some (int_shape t)) true (fun _ => Ok t).
Example C57_case_einmix : exists M G m, EinMix ascii_unicode (fun _ => forward) (fun _ => forward) (lit "b (h c) -> b (d h)") (lit "c d") (Some (lit "d")) [(lit "c", 3%Z); (lit "d", 2%Z)] = Ok M /\
  EinMix ascii_unicode (fun _ => backward) (fun _ => backward) (lit "b (h c) -> b (d h)") (lit "c d") (Some (lit "d")) [(lit "c", 3%Z); (lit "d", 2%Z)] = Ok G /\
  graph_call_einmix tf_runtime node_einsum node_add G (constant (iota [3; 2])) (Some (constant (iota [2; 1]))) rows = Ok m /\
  forall k, k = 2 \/ k = 3 -> n_run m (iota [k; 6]) = call_einmix tf_runtime ranked_einsum (ref_iadd Z.add 0%Z) M (iota [3; 2]) (Some (iota [2; 1])) (iota [k; 6]) /\
    exists t, n_run m (iota [k; 6]) = Ok t /\ shp t = [k; 4].
Proof.
  do 3 eexists. split; [vm_compute; reflexivity|]. split; [vm_compute; reflexivity|]. split; [vm_compute; reflexivity|].
  intros k [->| ->]; (split; [vm_compute; reflexivity|eexists; split; vm_compute; reflexivity]).
Qed.
