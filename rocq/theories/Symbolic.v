(** * Dimensions that are not known yet

    Backends for graphs report dimensions as symbols: einops/_backends.py:371-384
    ([TensorflowBackend.shape]), 442-444 ([TFKerasBackend.shape]), 699-704
    ([PyTensorBackend.shape]), 138-154 ([UnknownSize]).  A graph node is modelled
    as what it computes once the graph is run on concrete inputs [E]. *)
From Verif Require Import Py Tensor Parsing Recipe Ops Backends Api.

Section Symbolic.
  Context {E A : Type}.

  (** a dimension: a Python int, a symbol that gets its value when the graph is
      run, or [UnknownSize()] *)
  Inductive sdim := SInt (z : Z) | SSym (v : E -> result Z) | SUnknown.

  Definition s_run (d : sdim) (e : E) : result Z :=
    match d with SInt z => Ok z | SSym v => v e | SUnknown => Err TypeError end.

  (** arithmetic of dimensions: ints are computed at once, symbols become nodes of
      the graph; UnknownSize absorbs (_backends.py:141-151; an int divided by an
      UnknownSize is a TypeError: there is no [__rfloordiv__]) *)
  Definition sym_ops : dim_ops sdim := {|
    d_of_Z := SInt;
    d_int := fun d => match d with SInt z => Some z | _ => None end;
    d_mul := fun a b =>
      match a, b with
      | SInt x, SInt y => SInt (x * y)
      | SUnknown, _ => SUnknown
      | _, SUnknown => SUnknown
      | _, _ => SSym (fun e => let* x := s_run a e in let* y := s_run b e in Ok (x * y)%Z)
      end;
    d_floordiv := fun a b =>
      match a, b with
      | SInt x, SInt y => if (y =? 0)%Z then Err ZeroDivisionError else Ok (SInt (x / y))
      | SUnknown, _ => Ok SUnknown
      | _, SUnknown => Err TypeError
      | _, _ => Ok (SSym (fun e => let* x := s_run a e in let* y := s_run b e in
                                   if (y =? 0)%Z then Err BackendError else Ok (x / y)%Z))
      end
  |}.

  (** a node: the dimensions that are known when the graph is built ([None]: not
      known), whether the dtype is floating, and its value at run time *)
  Record node := mkN { n_static : list (option Z); n_float : bool; n_run : E -> result (tensor A) }.

  (** which known dimensions are reported as ints.  tensorflow: [s or tf_shape[dim]],
      where 0 counts as unknown (377); keras: none (443-444); pytensor: all (701-704) *)
  Definition reports (f : framework) (z : Z) : bool :=
    match f with
    | Keras => false
    | Pytensor => true
    | _ => negb (z =? 0)%Z
    end.
  Definition node_shape (f : framework) (n : node) : list sdim :=
    map (fun '(i, s) =>
           let dyn := SSym (fun e => let* t := n_run n e in list_get (int_shape t) i) in
           match s with
           | Some z => if reports f z then SInt z else dyn
           | None => dyn
           end) (enumerate (n_static n)).

  (** what a requested dimension tells about the shape of the result; negative
      numbers are requests to infer *)
  Definition static_of (d : sdim) : option Z :=
    match d with SInt z => if (z <? 0)%Z then None else Some z | _ => None end.

  Context (lib : bool) (red : pystr -> list A -> result A) (num : nat -> A).

  (** the operations build nodes; of the static shape of the result only the rank
      and what is evident are recorded.  [tf.tile] etc. as in Backends.v *)
  Definition run1 (n : node) (f : E -> tensor A -> result (tensor A)) : E -> result (tensor A) :=
    fun e => let* t := n_run n e in f e t.
  Definition graph_reshape (n : node) (s : list sdim) : result node :=
    Ok (mkN (map static_of s) (n_float n)
          (run1 n (fun e t => let* s := mapM (fun d => s_run d e) s in t_reshape lib t s))).
  Definition graph_transpose (n : node) (p : list nat) : result node :=
    Ok (mkN (map (fun i => nth i (n_static n) None) p) (n_float n) (run1 n (fun _ t => t_transpose t p))).
  Definition graph_reduce (n : node) (op : pystr) (axes : list nat) : result node :=
    Ok (mkN (map snd (filter (fun '(i, _) => negb (existsb (Nat.eqb i) axes)) (enumerate (n_static n)))) (n_float n)
          (run1 n (fun _ t => joint_reduce red t op axes))).
  Definition graph_expand_dims (n : node) (p : nat) : result node :=
    Ok (mkN (firstn p (n_static n) ++ Some 1%Z :: skipn p (n_static n)) (n_float n)
          (run1 n (fun _ t => t_expand_dims t p))).
  Definition graph_tile (n : node) (reps : list sdim) : result node :=
    Ok (mkN (map (fun _ => None) (n_static n)) (n_float n)
          (run1 n (fun e t => let* reps := mapM (fun d => s_run d e) reps in t_tile t reps))).
  (** _backends.py:107-112 *)
  Definition graph_add_axes (n : node) (n_axes : nat) (pos2len : list (nat * sdim)) : result node :=
    let* (n, repeats) :=
      foldM (fun '(n, repeats) '(p, l) =>
               let* n := graph_expand_dims n p in
               let* repeats := list_upd repeats p l in
               Ok (n, repeats)) pos2len (n, repeat (SInt 1) n_axes) in
    graph_tile n repeats.
  Definition graph_stack (ns : list node) : result node :=
    match ns with
    | [] => Err BackendError
    | n :: _ => Ok (mkN (Some (Z.of_nat (length ns)) :: n_static n) (n_float n)
                      (fun e => let* ts := mapM (fun n => n_run n e) ns in t_stack ts))
    end.
  Definition graph_concat (ns : list node) (axis : nat) : result node :=
    match ns with
    | [] => Err BackendError
    | n :: _ => Ok (mkN (map (fun _ => None) (n_static n)) (n_float n)
                      (fun e => let* ts := mapM (fun n => n_run n e) ns in t_concat ts axis))
    end.
  Definition graph_slice (n : node) (axis : nat) (lo hi : sdim) : result node :=
    Ok (mkN (map (fun _ => None) (n_static n)) (n_float n)
          (run1 n (fun e t => let* lo := s_run lo e in let* hi := s_run hi e in t_slice t axis lo hi))).
  Definition graph_arange (d : sdim) : result node :=
    Ok (mkN [None] false (fun e => let* stop := s_run d e in t_arange num stop)).

  (** _backends.py:349-416 [TensorflowBackend] while building a graph, 419-473
      [TFKerasBackend], 668-719 [PyTensorBackend] *)
  Definition graph_backend (f : framework) : backend node sdim := {|
    b_shape := node_shape f;
    b_reshape := graph_reshape;
    b_transpose := graph_transpose;
    b_reduce := graph_reduce;
    b_add_axes := graph_add_axes;
    b_stack := graph_stack;
    b_concat := graph_concat;
    b_slice := graph_slice;
    b_arange := graph_arange;
    b_is_float := n_float
  |}.
End Symbolic.

(** the frameworks with graphs *)
Definition has_graphs (f : framework) : Prop := f = Tensorflow \/ f = Keras \/ f = Pytensor.

(** einops.rearrange, reduce, repeat on graph tensors *)
Section GraphFunctions.
  Context {E A : Type} (r : runtime A).
  Implicit Types (x : input (@node E A)) (pattern : pystr) (sizes : list (pystr * @sdim E)).
  Definition the_graph_backend : backend (@node E A) (@sdim E) :=
    graph_backend (rt_lib r) (rt_red r) (rt_num r) (rt_framework r).
  Definition graph_rearrange x pattern sizes := api_rearrange (rt_unicode r) (rt_orders r) sym_ops the_graph_backend x pattern sizes.
  Definition graph_reduce_ x pattern red sizes := api_reduce (rt_unicode r) (rt_orders r) sym_ops the_graph_backend x pattern red sizes.
  Definition graph_repeat x pattern sizes := api_repeat (rt_unicode r) (rt_orders r) sym_ops the_graph_backend x pattern sizes.
End GraphFunctions.

(** [stands_for e d z]: when the graph is run on [e], dimension [d] is [z] *)
Definition stands_for {E} (e : E) (d : @sdim E) (z : Z) : Prop := s_run d e = Ok z.
(** [computes e n t]: when the graph is run on [e], node [n] gives [t]; the static
    shape of [n] is right *)
Definition computes {E A} (e : E) (n : @node E A) (t : tensor A) : Prop :=
  n_run n e = Ok t /\ Forall2 (fun s d => forall z, s = Some z -> z = d) (n_static n) (int_shape t).
Definition computes_input {E A} (e : E) (x : input (@node E A)) (y : input (tensor A)) : Prop :=
  match x, y with
  | One n, One t => computes e n t
  | Many ns, Many ts => Forall2 (computes e) ns ts
  | _, _ => False
  end.
(** sizes with the same names *)
Definition same_sizes {E} (e : E) (z1 : list (pystr * @sdim E)) (z2 : list (pystr * Z)) : Prop :=
  Forall2 (fun a b => fst a = fst b /\ stands_for e (snd a) (snd b)) z1 z2.
Definition option_rel {X Y} (R : X -> Y -> Prop) (a : option X) (b : option Y) : Prop :=
  match a, b with Some x, Some y => R x y | None, None => True | _, _ => False end.
(** the parameters of the five steps, with symbols and with numbers *)
Definition cooked_stands_for {E} (e : E) (k1 : cooked (@sdim E)) (k2 : cooked Z) : Prop :=
  option_rel (Forall2 (stands_for e)) (k_init k1) (k_init k2) /\
  k_reorder k1 = k_reorder k2 /\
  k_reduced k1 = k_reduced k2 /\
  Forall2 (fun a b => fst a = fst b /\ stands_for e (snd a) (snd b)) (k_added k1) (k_added k2) /\
  option_rel (Forall2 (stands_for e)) (k_final k1) (k_final k2) /\
  k_naxes k1 = k_naxes k2.
Definition nodes {E A} (x : input (@node E A)) : list (@node E A) := match x with One n => [n] | Many ns => ns end.

Arguments sdim : clear implicits.
Arguments node : clear implicits.
