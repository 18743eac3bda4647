(** * Properties of symbolic shapes *)
From Verif Require Import Py Tensor Parsing Recipe Ops Backends Api Instances Symbolic SymFacts SymFacts2.

(** ** C33: the parameters computed with symbols, once the symbols have values, are
    those computed from the values *)
Theorem C33_recipe : forall (E : Type) (e : E) (rc : recipe) (shape : list (sdim E)) (shape' : list Z)
    (sizes : list (pystr * sdim E)) (sizes' : list (pystr * Z)) (k' : cooked Z),
  Forall2 (stands_for e) shape shape' -> same_sizes e sizes sizes' ->
  reconstruct int_ops rc shape' sizes' = Ok k' ->
  exists k, reconstruct sym_ops rc shape sizes = Ok k /\ cooked_stands_for e k k'.
Proof. exact (fun E e rc s s' z z' k' Hs Hz => reconstruct_sim sym_ops (stands_for e) (sym_dim_sim e) rc s s' z z' Hs Hz k'). Qed.
Print Assumptions C33_recipe.

(** in a graph, and run: what einops does while the graph is built computes, for all
    inputs of the graph that einops accepts when run eagerly, the same as eagerly *)
Theorem C33_reduce : forall (E A : Type) (r : runtime A) (e : E) (x : input (node E A)) (y : input (tensor A)) (p s : pystr)
    (sizes : list (pystr * sdim E)) (sizes' : list (pystr * Z)) (t : tensor A),
  has_graphs (rt_framework r) -> computes_input e x y -> same_sizes e sizes sizes' ->
  (s = lit "mean" -> forall n, In n (nodes x) -> n_float n = true) ->
  reduce r y p (RStr s) sizes' = Ok t ->
  exists n, graph_reduce_ r x p (RStr s) sizes = Ok n /\ computes e n t.
Proof. exact @graph_reduce_agrees. Qed.
Print Assumptions C33_reduce.

Theorem C33_rearrange : forall (E A : Type) (r : runtime A) (e : E) (x : input (node E A)) (y : input (tensor A)) (p : pystr)
    (sizes : list (pystr * sdim E)) (sizes' : list (pystr * Z)) (t : tensor A),
  has_graphs (rt_framework r) -> computes_input e x y -> same_sizes e sizes sizes' ->
  rearrange r y p sizes' = Ok t ->
  exists n, graph_rearrange r x p sizes = Ok n /\ computes e n t.
Proof.
  exact (fun E A r e x y p z z' t Hf Hx Hz => graph_reduce_agrees r e x y p s_rearrange z z' t Hf Hx Hz
           (fun H => False_ind _ (eq_ind s_rearrange (fun s => match s with c :: _ => if (c =? 114)%N then True else False | [] => False end) I _ H))).
Qed.
Print Assumptions C33_rearrange.

Theorem C33_repeat : forall (E A : Type) (r : runtime A) (e : E) (x : input (node E A)) (y : input (tensor A)) (p : pystr)
    (sizes : list (pystr * sdim E)) (sizes' : list (pystr * Z)) (t : tensor A),
  has_graphs (rt_framework r) -> computes_input e x y -> same_sizes e sizes sizes' ->
  repeat_ r y p sizes' = Ok t ->
  exists n, graph_repeat r x p sizes = Ok n /\ computes e n t.
Proof.
  exact (fun E A r e x y p z z' t Hf Hx Hz => graph_reduce_agrees r e x y p s_repeat z z' t Hf Hx Hz
           (fun H => False_ind _ (eq_ind s_repeat (fun s => match s with c :: _ => if (c =? 114)%N then True else False | [] => False end) I _ H))).
Qed.
Print Assumptions C33_repeat.

(** a placeholder of shape (?, 3); the size of axis [a] is an input of the graph, too *)
Definition ex_placeholder : node (tensor Z * Z) Z := mkN [None; Some 3%Z] false (fun e => Ok (fst e)).
Definition ex_size : sdim (tensor Z * Z) := SSym (fun e => Ok (snd e)).
Definition tf_like : runtime Z := runtime_for Tensorflow.

Example C33_case :
  let p := lit "(a b) c -> b (a c)" in
  exists n, graph_rearrange tf_like (One ex_placeholder) p [(lit "a", ex_size)] = Ok n /\
    forall e, e = (iota [4; 3], 2%Z) \/ e = (iota [6; 3], 3%Z) ->
      computes e ex_placeholder (fst e) /\ same_sizes e [(lit "a", ex_size)] [(lit "a", snd e)] /\
      n_run n e = rearrange tf_like (One (fst e)) p [(lit "a", snd e)] /\
      exists t, n_run n e = Ok t /\ shp t = [2; Z.to_nat (snd e) * 3].
Proof.
  cbn zeta. eexists. split; [vm_compute; reflexivity|].
  intros e He. destruct He as [-> | ->].
  all: split; [split; [reflexivity|vm_compute; apply Forall2_cons; [|apply Forall2_cons; [|apply Forall2_nil]]; intros z Hz; congruence]|].
  all: split; [apply Forall2_cons; [split; reflexivity|apply Forall2_nil]|].
  all: split; [vm_compute; reflexivity|].
  all: eexists; split; vm_compute; reflexivity.
Qed.

(** The converse does not hold: lengths that are symbols are not compared with the
    given sizes, so that a graph may accept what is rejected eagerly. *)
Theorem C33_unchecked_refuted :
  exists (e : tensor Z * Z) (n : node (tensor Z * Z) Z) (t : tensor Z),
    computes e ex_placeholder (fst e) /\
    graph_rearrange tf_like (One ex_placeholder) (lit "a b -> b a") [(lit "a", ex_size)] = Ok n /\ n_run n e = Ok t /\
    rearrange tf_like (One (fst e)) (lit "a b -> b a") [(lit "a", snd e)] = Err EinopsError.
Proof.
  exists (iota [4; 3], 2%Z). eexists _, _. split; [split; [reflexivity|vm_compute; apply Forall2_cons; [|apply Forall2_cons; [|apply Forall2_nil]]; intros z Hz; congruence]|].
  split; [vm_compute; reflexivity|]. split; vm_compute; reflexivity.
Qed.
Print Assumptions C33_unchecked_refuted.
