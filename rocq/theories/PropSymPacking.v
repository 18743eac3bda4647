(** * pack, unpack, parse_shape, _enumerate_directions while a graph is built *)
From Verif Require Import Py Tensor Parsing Recipe Ops Backends Api Instances Symbolic Packing SymPacking SymPackFacts SymPackFacts2.
From Verif Require Import SpecGrammar SpecPattern SpecForms.

(** ** C51: for all inputs of the graph that are accepted eagerly, the graph is built
    and computes the same as eagerly *)
Theorem C51_pack : forall (E A : Type) (r : runtime A) (e : E) (ns : list (node E A)) (ts : list (tensor A)) (p : pystr)
    (t : tensor A) (ps : list (list Z)),
  has_graphs (rt_framework r) -> Forall2 (computes e) ns ts ->
  pack r ts p = Ok (t, ps) ->
  exists n ps', graph_pack r ns p = Ok (n, ps') /\ computes e n t /\ Forall2 (Forall2 (stands_for e)) ps' ps.
Proof. exact (fun E A r e ns ts p t ps Hf => graph_pack_agrees r Hf e ns ts p t ps). Qed.
Print Assumptions C51_pack.

(** unpack compares the lengths with -1, for which they have to be comparable *)
Theorem C51_unpack : forall (E A : Type) (r : runtime A) (e : E) (n : node E A) (t : tensor A) (ps' : list (list (sdim E)))
    (ps : list (list Z)) (p : pystr) (ts : list (tensor A)),
  has_graphs (rt_framework r) -> computes e n t ->
  Forall2 (Forall2 (stands_for e)) ps' ps -> Forall (Forall (comparable (rt_framework r) e)) ps' ->
  unpack r t ps p = Ok ts ->
  exists ns, graph_unpack r n ps' p = Ok ns /\ Forall2 (computes e) ns ts.
Proof. exact (fun E A r e n t ps' ps p ts Hf => graph_unpack_agrees r Hf e n t ps' ps p ts). Qed.
Print Assumptions C51_unpack.

(** unpack undoes pack: always with pytensor; with tensorflow and keras if the packed
    dimensions are reported as ints *)
Theorem C51_round_trip : forall (E A : Type) (r : runtime A) (e : E) (ns : list (node E A)) (ts : list (tensor A)) (p : pystr)
    (t : tensor A) (ps : list (list Z)),
  runtime_ok r -> has_graphs (rt_framework r) -> Forall wf ts -> Forall2 (computes e) ns ts ->
  pack r ts p = Ok (t, ps) ->
  exists n ps', graph_pack r ns p = Ok (n, ps') /\ computes e n t /\ Forall2 (Forall2 (stands_for e)) ps' ps /\
    (rt_framework r = Pytensor \/ Forall (Forall is_int) ps' ->
     exists ns', graph_unpack r n ps' p = Ok ns' /\ Forall2 (computes e) ns' ts).
Proof. exact (@graph_round_trip). Qed.
Print Assumptions C51_round_trip.

(** parse_shape reports symbols for names; dimensions that are compared with a number
    have to be ints *)
Theorem C51_parse_shape : forall (E A : Type) (r : runtime A) (e : E) (n : node E A) (t : tensor A) (p : pystr) (L : expr)
    (d : list (pystr * Z)),
  runtime_ok r -> computes e n t -> written_as (rt_unicode r) true false p L ->
  Forall2 (fun i d => unasked i \/ is_int d) (opened L (length (n_static n))) (node_shape (rt_framework r) n) ->
  parse_shape (rt_unicode r) (int_shape t) p = Ok d ->
  exists d', graph_parse_shape r n p = Ok d' /\ same_sizes e d' d.
Proof. exact (@graph_parse_agrees). Qed.
Print Assumptions C51_parse_shape.

Theorem C51_directions : forall (E A : Type) (r : runtime A) (e : E) (n : node E A) (t : tensor A) (ts : list (tensor A)),
  has_graphs (rt_framework r) -> computes e n t ->
  enumerate_directions int_ops (rt_backend r) t = Ok ts ->
  exists ns, graph_directions r n = Ok ns /\ Forall2 (computes e) ns ts.
Proof. exact (fun E A r e n t ts Hf => graph_directions_agrees r Hf e n t ts). Qed.
Print Assumptions C51_directions.

(** two placeholders: of shape (2, ?, 3) and (2, 3), of any length *)
Definition ex_first : node (tensor Z * tensor Z) Z := mkN [Some 2; None; Some 3]%Z false (fun e => Ok (fst e)).
Definition ex_second : node (tensor Z * tensor Z) Z := mkN [Some 2; Some 3]%Z false (fun e => Ok (snd e)).
Definition ex_inputs (k : nat) : tensor Z * tensor Z := (iota [2; k; 3], iota [2; 3]).
Definition pt_like : runtime Z := runtime_for Pytensor.
Definition tf_graphs : runtime Z := runtime_for Tensorflow.

Example C51_case :
  exists n ps ns d ds,
    graph_pack pt_like [ex_first; ex_second] (lit "a * c") = Ok (n, ps) /\
    graph_unpack pt_like n ps (lit "a * c") = Ok ns /\
    graph_parse_shape pt_like ex_first (lit "a b 3") = Ok d /\
    graph_directions pt_like ex_first = Ok ds /\
    forall e, e = ex_inputs 4 \/ e = ex_inputs 1 ->
      computes e ex_first (fst e) /\ computes e ex_second (snd e) /\
      Forall wf [fst e; snd e] /\
      n_run n e = (let* (t, _) := pack pt_like [fst e; snd e] (lit "a * c") in Ok t) /\
      mapM (fun n => n_run n e) ns = Ok [fst e; snd e] /\
      map (fun '(s, x) => (s, s_run x e)) d = [(lit "a", Ok 2%Z); (lit "b", Ok (Z.of_nat (nth 1 (shp (fst e)) 0)))] /\
      mapM (fun n => n_run n e) ds = enumerate_directions int_ops (rt_backend pt_like) (fst e).
Proof.
  do 5 eexists. do 4 (split; [vm_compute; reflexivity|]). intros e He.
  destruct He as [-> | ->].
  all: split; [split; [reflexivity|vm_compute; repeat (apply Forall2_cons; [intros z Hz; congruence|]); apply Forall2_nil]|].
  all: split; [split; [reflexivity|vm_compute; repeat (apply Forall2_cons; [intros z Hz; congruence|]); apply Forall2_nil]|].
  all: split; [repeat constructor|].
  all: repeat split.
Qed.

(** the premises on the lengths are needed.  tensorflow: unpack cannot be called on what
    pack returned if the length of a packed axis is not known (TypeError: the truth
    value of a symbol) *)
Theorem C51_unpack_tensorflow_refuted : exists (p : pystr) (n : node (tensor Z * tensor Z) Z) (ps : list (list (sdim (tensor Z * tensor Z)))),
  graph_pack tf_graphs [ex_first; ex_second] p = Ok (n, ps) /\
  graph_unpack tf_graphs n ps p = Err TypeError /\
  exists x ps', pack tf_graphs [fst (ex_inputs 4); snd (ex_inputs 4)] p = Ok (x, ps') /\
    unpack tf_graphs x ps' p = Ok [fst (ex_inputs 4); snd (ex_inputs 4)].
Proof.
  exists (lit "a * c"). do 2 eexists. split; [vm_compute; reflexivity|]. split; [vm_compute; reflexivity|].
  do 2 eexists. split; vm_compute; reflexivity.
Qed.
Print Assumptions C51_unpack_tensorflow_refuted.

(** a number in the pattern of parse_shape at a dimension that is a symbol: an error
    in all three frameworks, even for the right number; with keras, whose dimensions
    are all symbols, at every dimension *)
Theorem C51_parse_shape_number_refuted :
  computes (ex_inputs 4) ex_first (iota [2; 4; 3]) /\
  parse_shape ascii_unicode [2; 4; 3]%Z (lit "a 4 c") = Ok [(lit "a", 2); (lit "c", 3)]%Z /\
  graph_parse_shape pt_like ex_first (lit "a 4 c") = Err RuntimeError /\
  graph_parse_shape tf_graphs ex_first (lit "a 4 c") = Err TypeError /\
  parse_shape ascii_unicode [2; 3]%Z (lit "a 3") = Ok [(lit "a", 2)]%Z /\
  graph_parse_shape (runtime_for Keras : runtime Z) ex_second (lit "a 3") = Err TypeError.
Proof.
  split; [split; [reflexivity|vm_compute; repeat (apply Forall2_cons; [intros z Hz; congruence|]); apply Forall2_nil]|].
  repeat split; vm_compute; reflexivity.
Qed.
Print Assumptions C51_parse_shape_number_refuted.
