(** * Programs that build a graph, and its evaluation

    einops/_backends.py:77-82, 432-437, 688-694 ([create_symbol], [eval_symbol]):
    symbols are made, einops is called on them and on what it returned (also with
    lengths read off other nodes), and the graph is run on values for the symbols. *)
From Verif Require Import Py Tensor Parsing Recipe Ops Backends Api Symbolic Packing SymPacking Einsum.

(** a length that is passed to einops: a number, [x.shape[i]] of an earlier tensor,
    or an entry of what parse_shape returned earlier.  Tensors, dictionaries and
    lists of shapes are numbered in the order in which they were made *)
Inductive length_from := Given (z : Z) | Shape_at (x i : nat) | Entry (d : nat) (name : pystr).

(** one call; its result gets the next free number *)
Inductive call_on :=
| On_rearrange (x : input nat) (pattern : pystr) (sizes : list (pystr * length_from))
| On_reduce (x : input nat) (pattern op : pystr) (sizes : list (pystr * length_from))
| On_repeat (x : input nat) (pattern : pystr) (sizes : list (pystr * length_from))
| On_einsum (xs : list nat) (pattern : pystr)
| On_pack (xs : list nat) (pattern : pystr)
| On_unpack (x : nat) (shapes : nat) (pattern : pystr)            (* the shapes are those returned by an earlier pack *)
| On_split (x : nat) (shapes : list (list Z)) (pattern : pystr)   (* unpack with shapes that are written down *)
| On_parse_shape (x : nat) (pattern : pystr)
| On_other (f : nat) (xs : list nat).                             (* a function of the library, or a layer *)

(** what the calls do to tensors [T] with dimensions [D] *)
Record calls (T D : Type) := mkCalls {
  do_shape : T -> list D;
  do_int : Z -> D;
  do_rearrange : input T -> pystr -> list (pystr * D) -> result T;
  do_reduce : input T -> pystr -> pystr -> list (pystr * D) -> result T;
  do_repeat : input T -> pystr -> list (pystr * D) -> result T;
  do_einsum : list T -> pystr -> result T;
  do_pack : list T -> pystr -> result (T * list (list D));
  do_unpack : T -> list (list D) -> pystr -> result (list T);
  do_parse_shape : T -> pystr -> result (list (pystr * D));
  do_other : nat -> list T -> result T
}.
Arguments mkCalls {T D}. Arguments do_shape {T D}. Arguments do_int {T D}. Arguments do_rearrange {T D}. Arguments do_reduce {T D}.
Arguments do_repeat {T D}. Arguments do_einsum {T D}. Arguments do_pack {T D}. Arguments do_unpack {T D}.
Arguments do_parse_shape {T D}. Arguments do_other {T D}.

Record made_so_far (T D : Type) := mkMade { m_tensors : list T; m_dicts : list (list (pystr * D)); m_shapes : list (list (list D)) }.
Arguments mkMade {T D}. Arguments m_tensors {T D}. Arguments m_dicts {T D}. Arguments m_shapes {T D}.

Section Run.
  Context {T D : Type} (C : calls T D).
  Implicit Types (m : made_so_far T D).

  Definition the_length m (l : length_from) : result D :=
    match l with
    | Given z => Ok (do_int C z)
    | Shape_at x i => let* t := list_get (m_tensors m) x in list_get (do_shape C t) i
    | Entry d name => let* s := list_get (m_dicts m) d in of_option KeyError (dict_get str_eqb name s)
    end.
  Definition the_sizes m (sizes : list (pystr * length_from)) : result (list (pystr * D)) :=
    mapM (fun a => let* d := the_length m (snd a) in Ok (fst a, d)) sizes.
  Definition the_tensors m (xs : list nat) : result (list T) := mapM (list_get (m_tensors m)) xs.
  Definition the_input m (x : input nat) : result (input T) :=
    match x with
    | One x => let* t := list_get (m_tensors m) x in Ok (One t)
    | Many xs => let* ts := the_tensors m xs in Ok (Many ts)
    end.
  Definition with_tensors m (ts : list T) : made_so_far T D := mkMade (m_tensors m ++ ts) (m_dicts m) (m_shapes m).

  Definition run_call m (c : call_on) : result (made_so_far T D) :=
    match c with
    | On_rearrange x p sizes => let* x := the_input m x in let* sizes := the_sizes m sizes in
        let* t := do_rearrange C x p sizes in Ok (with_tensors m [t])
    | On_reduce x p op sizes => let* x := the_input m x in let* sizes := the_sizes m sizes in
        let* t := do_reduce C x p op sizes in Ok (with_tensors m [t])
    | On_repeat x p sizes => let* x := the_input m x in let* sizes := the_sizes m sizes in
        let* t := do_repeat C x p sizes in Ok (with_tensors m [t])
    | On_einsum xs p => let* ts := the_tensors m xs in let* t := do_einsum C ts p in Ok (with_tensors m [t])
    | On_pack xs p => let* ts := the_tensors m xs in let* (t, ps) := do_pack C ts p in
        Ok (mkMade (m_tensors m ++ [t]) (m_dicts m) (m_shapes m ++ [ps]))
    | On_unpack x k p => let* t := list_get (m_tensors m) x in let* ps := list_get (m_shapes m) k in
        let* ts := do_unpack C t ps p in Ok (with_tensors m ts)
    | On_split x ps p => let* t := list_get (m_tensors m) x in
        let* ts := do_unpack C t (map (map (do_int C)) ps) p in Ok (with_tensors m ts)
    | On_parse_shape x p => let* t := list_get (m_tensors m) x in let* d := do_parse_shape C t p in
        Ok (mkMade (m_tensors m) (m_dicts m ++ [d]) (m_shapes m))
    | On_other f xs => let* ts := the_tensors m xs in let* t := do_other C f ts in Ok (with_tensors m [t])
    end.
  Definition run_calls (p : list call_on) (inputs : list T) : result (made_so_far T D) :=
    foldM run_call p (mkMade inputs [] []).
End Run.

(** the values the graph is run on: a dictionary from symbols (numbered) to tensors *)
Definition values (A : Type) : Type := list (nat * tensor A).

Section Graphs.
  Context {A : Type} (r : runtime A).

  (** the calls eagerly *)
  Definition eager_calls (lib_einsum : pystr -> list (tensor A) -> result (tensor A)) (others : nat -> list (tensor A) -> result (tensor A)) : calls (tensor A) Z :=
    mkCalls int_shape (fun z => z) (rearrange r) (fun x p op sizes => reduce r x p (RStr op) sizes) (repeat_ r)
      (fun ts p => einsum_with (rt_unicode r) lib_einsum (map inl ts ++ [inr p]))
      (pack r) (unpack r) (fun t p => parse_shape (rt_unicode r) (int_shape t) p) others.
  (** the calls on nodes of a graph *)
  Definition graph_calls {E} (g_einsum : pystr -> list (node E A) -> result (node E A)) (others : nat -> list (node E A) -> result (node E A)) : calls (node E A) (sdim E) :=
    mkCalls (node_shape (rt_framework r)) SInt (graph_rearrange r) (fun x p op sizes => graph_reduce_ r x p (RStr op) sizes) (graph_repeat r)
      (fun ns p => einsum_with (rt_unicode r) g_einsum (map inl ns ++ [inr p]))
      (graph_pack r) (graph_unpack r) (graph_parse_shape r) others.

  (** does a value have the declared shape; [None] in it allows any length *)
  Definition has_shape (declared : list (option Z)) (t : tensor A) : bool :=
    (length declared =? length (shp t)) &&
    forallb (fun '(s, d) => match s with Some z => (z =? d)%Z | None => true end) (combine declared (int_shape t)).

  (** _backends.py:432-433, 688-691: symbol number [k].  [keras.Input] and
      [pt.tensor] make symbols of a floating type.  When the graph is run, the
      library refuses values of another shape, and a symbol without a value *)
  Definition create_symbol (k : nat) (shape : list (option Z)) : node (values A) A :=
    mkN shape true (fun e => let* t := of_option BackendError (dict_get Nat.eqb k e) in
                             if has_shape shape t then Ok t else Err BackendError).
  Definition create_symbols (shapes : list (list (option Z))) : list (node (values A) A) :=
    map (fun '(k, s) => create_symbol k s) (enumerate shapes).

  (** _backends.py:435-437, 693-694; [dict(symbol_value_pairs)].  That a library may
      refuse pairs which the symbol does not depend on is left out *)
  Definition eval_symbol (symbol : node (values A) A) (symbol_value_pairs : list (nat * tensor A)) : result (tensor A) :=
    n_run symbol (fold_left (fun d '(k, v) => dict_set Nat.eqb k v d) symbol_value_pairs []).
End Graphs.
