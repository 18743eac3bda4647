(** * The caches: functools.lru_cache around four functions

    einops.py:227 ([_reconstruct_from_shape], 1024 entries), einops.py:289
    ([_prepare_transformation_recipe], 256), packing.py:14 ([analyze_pattern], 128)
    and einops.py:771 ([_compactify_pattern_for_einsum], 256). *)
From Verif Require Import Py Tensor Parsing Recipe Ops Backends Api Packing Einsum.

(** functools.lru_cache(maxsize), typed=False.  The most recently used entry is
    first.  A hit returns what was stored under a key that is equal; a call that
    raises is not stored. *)
Fixpoint take_key {K V} (eqb : K -> K -> bool) (k : K) (c : list (K * V)) : option ((K * V) * list (K * V)) :=
  match c with
  | [] => None
  | (k', v) :: c =>
      if eqb k k' then Some ((k', v), c)
      else match take_key eqb k c with Some (e, rest) => Some (e, (k', v) :: rest) | None => None end
  end.
Definition lru {K V} (eqb : K -> K -> bool) (maxsize : nat) (compute : unit -> result V) (k : K) (c : list (K * V))
    : result V * list (K * V) :=
  match take_key eqb k c with
  | Some (e, rest) => (Ok (snd e), e :: rest)
  | None => match compute tt with
            | Ok v => (Ok v, firstn maxsize ((k, v) :: c))
            | Err e => (Err e, c)
            end
  end.

(** the operation in a key: callables are compared by identity *)
Inductive opkey := KStr (s : pystr) | KCall (id : nat).
Definition opkey_eqb (a b : opkey) : bool :=
  match a, b with KStr s, KStr t => str_eqb s t | KCall i, KCall j => i =? j | _, _ => false end.
Definition op_of_key (k : opkey) : operation := match k with KStr s => OpStr s | KCall _ => OpCallable end.
(** key of [_prepare_transformation_recipe]: pattern, operation, axes_names, ndim *)
Definition rkey : Type := pystr * opkey * list pystr * nat.
Fixpoint list_eqb {A} (eqb : A -> A -> bool) (l m : list A) : bool :=
  match l, m with [], [] => true | x :: l, y :: m => eqb x y && list_eqb eqb l m | _, _ => false end.
Definition rkey_eqb (a b : rkey) : bool :=
  let '(p, op, ns, n) := a in let '(p', op', ns', n') := b in
  str_eqb p p' && opkey_eqb op op' && list_eqb str_eqb ns ns' && (n =? n').

(** the sizes of the caches *)
Record limits := { l_recipes : nat; l_cooked : nat; l_analyzed : nat; l_compact : nat }.
Definition einops_limits : limits := {| l_recipes := N.to_nat 256; l_cooked := N.to_nat 1024; l_analyzed := N.to_nat 128; l_compact := N.to_nat 256 |}.

Section Cache.
  Context {D : Type} (O : dim_ops D).
  Context (deqb : D -> D -> bool).          (* == between lengths, as used to compare keys *)
  Context (hashable : D -> bool).           (* whether a length can be part of a key *)
  Context (lim : limits) (U : unicode).

  (** A recipe has no [__eq__]: it is compared by identity, here its position in
      the list of all recipes ever made.  (A recipe that is part of a key is kept
      alive by the cache, its identity cannot be given to another one.) *)
  Record caches := {
    c_recipes : list (rkey * (nat * recipe));
    c_cooked : list ((nat * list D * list (pystr * D)) * cooked D);
    c_analyzed : list ((pystr * pystr) * (nat * nat * nat));
    c_compact : list (pystr * pystr);
    c_made : list recipe }.
  Definition no_caches : caches := {| c_recipes := []; c_cooked := []; c_analyzed := []; c_compact := []; c_made := [] |}.

  Definition size_eqb (a b : pystr * D) : bool := str_eqb (fst a) (fst b) && deqb (snd a) (snd b).
  Definition ckey_eqb (a b : nat * list D * list (pystr * D)) : bool :=
    let '(i, sh, sz) := a in let '(i', sh', sz') := b in (i =? i') && list_eqb deqb sh sh' && list_eqb size_eqb sz sz'.

  (** [_prepare_transformation_recipe] through its cache.  [o]: iteration orders
      of the sets used if it has to be computed *)
  Definition cached_prepare (o : orders) (k : rkey) (st : caches) : result (nat * recipe) * caches :=
    let compute _ := let '(p, op, ns, n) := k in
                     let* r := prepare_recipe U o p (op_of_key op) ns n in Ok (length (c_made st), r) in
    let '(r, c) := lru rkey_eqb (l_recipes lim) compute k (c_recipes st) in
    let made := match take_key rkey_eqb k (c_recipes st), r with None, Ok (_, rec) => c_made st ++ [rec] | _, _ => c_made st end in
    (r, {| c_recipes := c; c_cooked := c_cooked st; c_analyzed := c_analyzed st; c_compact := c_compact st; c_made := made |}).

  (** [_reconstruct_from_shape] *)
  Definition cached_reconstruct (rec : nat * recipe) (shape : list D) (sizes : list (pystr * D)) (st : caches) : result (cooked D) * caches :=
    let '(r, c) := lru ckey_eqb (l_cooked lim) (fun _ => reconstruct O (snd rec) shape sizes) (fst rec, shape, sizes) (c_cooked st) in
    (r, {| c_recipes := c_recipes st; c_cooked := c; c_analyzed := c_analyzed st; c_compact := c_compact st; c_made := c_made st |}).
  Definition key_hashable (shape : list D) (sizes : list (pystr * D)) : bool :=
    forallb hashable shape && forallb (fun s => hashable (snd s)) sizes.

  (** [analyze_pattern] *)
  Definition cached_analyze (pattern opname : pystr) (st : caches) : result (nat * nat * nat) * caches :=
    let '(r, c) := lru (fun a b => str_eqb (fst a) (fst b) && str_eqb (snd a) (snd b)) (l_analyzed lim)
                       (fun _ => analyze_pattern U pattern) (pattern, opname) (c_analyzed st) in
    (r, {| c_recipes := c_recipes st; c_cooked := c_cooked st; c_analyzed := c; c_compact := c_compact st; c_made := c_made st |}).

  (** [_compactify_pattern_for_einsum] *)
  Definition cached_compactify (pattern : pystr) (st : caches) : result pystr * caches :=
    let '(r, c) := lru str_eqb (l_compact lim) (fun _ => compactify U pattern) pattern (c_compact st) in
    (r, {| c_recipes := c_recipes st; c_cooked := c_cooked st; c_analyzed := c_analyzed st; c_compact := c; c_made := c_made st |}).

  (** ** The functions users call, with the caches *)
  Section Functions.
    Context {T : Type} (o : orders).

    (** the operation as part of a key; [None]: a callable that cannot be hashed *)
    Definition opkey_of (red : reduction T) (id : option nat) : option opkey :=
      match red with RStr s => Some (KStr s) | RCall _ => option_map KCall id end.

    (** einops.py:234-241: TypeError means that the key cannot be hashed, or was
        raised by the computation itself *)
    Definition cooked_for (B : backend T D) (rec : nat * recipe) (tensor : T) (sizes : list (pystr * D)) (st : caches) : result (cooked D) * caches :=
      if key_hashable (b_shape B tensor) sizes
      then match cached_reconstruct rec (b_shape B tensor) sizes st with
           | (Err TypeError, st) => (reconstruct O (snd rec) (b_shape B tensor) sizes, st)
           | other => other
           end
      else (reconstruct O (snd rec) (b_shape B tensor) sizes, st).

    (** einops.py:460-542 [reduce]; [id] identifies a callable *)
    Definition cached_api_reduce (B : backend T D) (x : input T) (pattern : pystr) (red : reduction T) (id : option nat)
        (sizes : list (pystr * D)) (st : caches) : result T * caches :=
      match (let* _ := check_kwargs reserved_kwargs sizes in stack_input B x) with
      | Err e => (Err e, st)
      | Ok tensor =>
          match opkey_of red id with
          | None => (Err TypeError, st)                       (* unhashable type *)
          | Some op =>
              match cached_prepare o (pattern, op, map fst sizes, length (b_shape B tensor)) st with
              | (Err e, st) => (Err e, st)
              | (Ok rec, st) =>
                  let '(k, st) := cooked_for B rec tensor sizes st in
                  ((let* k := k in apply_cooked B k tensor red), st)
              end
          end
      end.
  End Functions.
End Cache.
Arguments c_recipes {D}. Arguments c_cooked {D}. Arguments c_analyzed {D}. Arguments c_compact {D}. Arguments c_made {D}.
Arguments no_caches {D}.

(** ** Lengths that are ints *)
Section Ints.
  Context (lim : limits) {A : Type} (r : runtime A).
  Notation U := (rt_unicode r).
  Notation any_int := (fun _ : Z => true).
  Implicit Types (pattern : pystr) (sizes : list (pystr * Z)) (st : @caches Z).

  (** einops.reduce, rearrange, repeat *)
  Definition cached_reduce (x : input (tensor A)) pattern red id sizes st :=
    cached_api_reduce int_ops Z.eqb any_int lim U (rt_orders r) (rt_backend r) x pattern red id sizes st.
  Definition cached_rearrange (x : input (tensor A)) pattern sizes st := cached_reduce x pattern (RStr s_rearrange) None sizes st.
  Definition cached_repeat (x : input (tensor A)) pattern sizes st := cached_reduce x pattern (RStr s_repeat) None sizes st.

  (** array_api.py:6-31 *)
  Definition cached_xp_reduce (x : input (tensor A)) pattern red id sizes st : result (tensor A) * caches :=
    match (let* _ := check_kwargs reserved_kwargs sizes in stack_input_array_api (rt_ns r) x) with
    | Err e => (Err e, st)
    | Ok tensor =>
        match opkey_of red id with
        | None => (Err TypeError, st)
        | Some op =>
            match cached_prepare lim U (rt_orders r) (pattern, op, map fst sizes, length (xp_shape (rt_ns r) tensor)) st with
            | (Err e, st) => (Err e, st)
            | (Ok rec, st) =>
                let '(k, st) := cached_reconstruct int_ops Z.eqb lim rec (xp_shape (rt_ns r) tensor) sizes st in
                ((let* k := k in apply_cooked_array_api (rt_ns r) k tensor red), st)
            end
        end
    end.

  (** packing.py:70, 139; array_api.py:52, 73 *)
  Definition cached_pack (tensors : list (tensor A)) pattern st :=
    let '(a, st) := cached_analyze lim U pattern (lit "pack") st in
    (pack_given (b_shape (rt_backend r)) (b_reshape (rt_backend r)) (b_concat (rt_backend r)) a tensors, st).
  Definition cached_unpack (x : tensor A) (packed_shapes : list (list Z)) pattern st :=
    let '(a, st) := cached_analyze lim U pattern (lit "unpack") st in
    (unpack_given (b_shape (rt_backend r)) (b_reshape (rt_backend r)) (b_slice (rt_backend r)) a x packed_shapes, st).
  Definition cached_xp_pack (tensors : list (tensor A)) pattern st :=
    let '(a, st) := cached_analyze lim U pattern (lit "pack") st in
    (pack_given (xp_shape (rt_ns r)) (xp_reshape (rt_ns r)) (xp_concat (rt_ns r)) a tensors, st).
  Definition cached_xp_unpack (x : tensor A) (packed_shapes : list (list Z)) pattern st :=
    let '(a, st) := cached_analyze lim U pattern (lit "unpack") st in
    (unpack_given (xp_shape (rt_ns r)) (xp_reshape (rt_ns r)) (xp_slice (rt_ns r)) a x packed_shapes, st).

  (** einops.py:909-913: the pattern is looked at only if there are arguments and
      the last one is a string *)
  Definition cached_einsum {T} (lib_einsum : pystr -> list T -> result T) (args : list (T + pystr)) st : result T * caches :=
    match last args (inr []) with
    | inr pattern =>
        if length args <=? 1 then (einsum_given lib_einsum (fun _ => Err ValueError) args, st)
        else let '(c, st) := cached_compactify lim U pattern st in (einsum_given lib_einsum (fun _ => c) args, st)
    | inl _ => (einsum_given lib_einsum (fun _ => Err ValueError) args, st)
    end.
End Ints.

(** ** Histories

    What may happen to the caches in a process: calls of the cached functions, in
    any order, each with its own iteration orders of sets, successful or not;
    [_reconstruct_from_shape] gets a recipe made earlier (layers keep theirs); any
    cache may be cleared. *)
Section Histories.
  Context {D : Type} (O : dim_ops D) (deqb : D -> D -> bool) (lim : limits) (U : unicode).
  Inductive reachable_caches : @caches D -> Prop :=
  | RC_none : reachable_caches no_caches
  | RC_prepare o k st : reachable_caches st -> orders_ok o -> reachable_caches (snd (cached_prepare lim U o k st))
  | RC_reconstruct id rec shape sizes st : reachable_caches st -> nth_error (c_made st) id = Some rec ->
      reachable_caches (snd (cached_reconstruct O deqb lim (id, rec) shape sizes st))
  | RC_analyze pattern opname st : reachable_caches st -> reachable_caches (snd (cached_analyze lim U pattern opname st))
  | RC_compactify pattern st : reachable_caches st -> reachable_caches (snd (cached_compactify lim U pattern st))
  | RC_clear b1 b2 b3 b4 st : reachable_caches st ->
      reachable_caches {| c_recipes := if b1 : bool then [] else c_recipes st; c_cooked := if b2 : bool then [] else c_cooked st;
                          c_analyzed := if b3 : bool then [] else c_analyzed st; c_compact := if b4 : bool then [] else c_compact st;
                          c_made := c_made st |}.
End Histories.

(** ** A sequence of calls *)
Section Calls.
  Context (lim : limits) {A : Type}.
  (** a call of one of the functions; [id] identifies a callable *)
  Inductive call :=
  | CallReduce (x : input (tensor A)) (pattern : pystr) (red : reduction (tensor A)) (id : option nat) (sizes : list (pystr * Z))
  | CallXpReduce (x : input (tensor A)) (pattern : pystr) (red : reduction (tensor A)) (id : option nat) (sizes : list (pystr * Z))
  | CallPack (tensors : list (tensor A)) (pattern : pystr)
  | CallUnpack (x : tensor A) (packed_shapes : list (list Z)) (pattern : pystr)
  | CallXpPack (tensors : list (tensor A)) (pattern : pystr)
  | CallXpUnpack (x : tensor A) (packed_shapes : list (list Z)) (pattern : pystr)
  | CallEinsum (lib_einsum : pystr -> list (tensor A) -> result (tensor A)) (args : list (tensor A + pystr)).
  (** what a call returns *)
  Inductive outcome :=
  | OutTensor (t : result (tensor A)) | OutPacked (p : result (tensor A * list (list Z))) | OutTensors (l : result (list (tensor A))).

  Definition serve (r : runtime A) (c : call) (st : @caches Z) : outcome * caches :=
    match c with
    | CallReduce x p red id sizes => let '(v, st) := cached_reduce lim r x p red id sizes st in (OutTensor v, st)
    | CallXpReduce x p red id sizes => let '(v, st) := cached_xp_reduce lim r x p red id sizes st in (OutTensor v, st)
    | CallPack ts p => let '(v, st) := cached_pack lim r ts p st in (OutPacked v, st)
    | CallUnpack x ps p => let '(v, st) := cached_unpack lim r x ps p st in (OutTensors v, st)
    | CallXpPack ts p => let '(v, st) := cached_xp_pack lim r ts p st in (OutPacked v, st)
    | CallXpUnpack x ps p => let '(v, st) := cached_xp_unpack lim r x ps p st in (OutTensors v, st)
    | CallEinsum lib args => let '(v, st) := cached_einsum lim r lib args st in (OutTensor v, st)
    end.
  (** the same without caches *)
  Definition compute (r : runtime A) (c : call) : outcome :=
    match c with
    | CallReduce x p red id sizes => OutTensor (reduce r x p red sizes)
    | CallXpReduce x p red id sizes => OutTensor (xp_reduce_ r x p red sizes)
    | CallPack ts p => OutPacked (pack r ts p)
    | CallUnpack x ps p => OutTensors (unpack r x ps p)
    | CallXpPack ts p => OutPacked (xp_pack r ts p)
    | CallXpUnpack x ps p => OutTensors (xp_unpack r x ps p)
    | CallEinsum lib args => OutTensor (einsum_with (rt_unicode r) lib args)
    end.
  (** one call after another, the runtime (framework, iteration orders of sets)
      may be another one each time *)
  Fixpoint serve_all (cs : list (runtime A * call)) (st : caches) : list outcome :=
    match cs with
    | [] => []
    | (r, c) :: cs => let '(v, st) := serve r c st in v :: serve_all cs st
    end.

  (** sizes come from keyword arguments (no repetitions); callables have a hash *)
  Definition call_ok (c : call) : Prop :=
    match c with
    | CallReduce _ _ red id sizes | CallXpReduce _ _ red id sizes => NoDup (map fst sizes) /\ opkey_of red id <> None
    | _ => True
    end.
End Calls.
Arguments call : clear implicits. Arguments outcome : clear implicits.

(** ** Python numbers that are whole: 2 and 2.0 are different but equal *)
Inductive pynum := PInt (z : Z) | PFloat (z : Z).
Definition pynum_value (n : pynum) : Z := match n with PInt z | PFloat z => z end.
Definition pynum_eqb (a b : pynum) : bool := (pynum_value a =? pynum_value b)%Z.
Definition pynum_op (f : Z -> Z -> Z) (a b : pynum) : pynum :=
  match a, b with PInt x, PInt y => PInt (f x y) | _, _ => PFloat (f (pynum_value a) (pynum_value b)) end.
Definition pynum_ops : dim_ops pynum := {|
  d_of_Z := PInt;
  d_int := fun n => match n with PInt z => Some z | PFloat _ => None end;
  d_mul := pynum_op Z.mul;
  d_floordiv := fun a b => if (pynum_value b =? 0)%Z then Err ZeroDivisionError else Ok (pynum_op Z.div a b)
|}.
(** libraries take ints only: 'float' object cannot be interpreted as an integer *)
Definition need_int (n : pynum) : result Z := match n with PInt z => Ok z | PFloat _ => Err TypeError end.
Definition pynum_backend {T} (B : backend T Z) : backend T pynum := {|
  b_shape := fun t => map PInt (b_shape B t);
  b_reshape := fun t s => let* s := mapM need_int s in b_reshape B t s;
  b_transpose := b_transpose B;
  b_reduce := b_reduce B;
  b_add_axes := fun t n l => let* l := mapM (fun '(p, d) => let* z := need_int d in Ok (p, z)) l in b_add_axes B t n l;
  b_stack := b_stack B;
  b_concat := b_concat B;
  b_slice := fun t a i j => let* i := need_int i in let* j := need_int j in b_slice B t a i j;
  b_arange := fun n => let* n := need_int n in b_arange B n;
  b_is_float := b_is_float B
|}.
(** [reduce] with caches, lengths being such numbers *)
Definition cached_reduce_num (lim : limits) {A} (r : runtime A) (x : input (tensor A)) (pattern : pystr) (red : reduction (tensor A))
    (id : option nat) (sizes : list (pystr * pynum)) (st : caches) : result (tensor A) * caches :=
  cached_api_reduce pynum_ops pynum_eqb (fun _ => true) lim (rt_unicode r) (rt_orders r) (pynum_backend (rt_backend r)) x pattern red id sizes st.
