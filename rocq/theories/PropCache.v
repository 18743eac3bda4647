(** * The caches cannot be noticed *)
From Verif Require Import Py Tensor Parsing Recipe Ops Backends Api Packing Einsum ParseFacts Cache CacheFacts Instances.

(** ** C11: a process makes any calls, one after another, successful or not, with
    any tensors, frameworks and iteration orders of sets: each returns what it
    returns without caches.  For every size of the caches. *)
Theorem C11_history : forall (lim : limits) {A} (U : unicode) (calls : list (runtime A * call A)),
  (forall r c, In (r, c) calls -> runtime_ok r /\ rt_unicode r = U /\ call_ok c) ->
  serve_all lim calls no_caches = map (fun '(r, c) => compute r c) calls.
Proof. exact (fun lim A U calls H => history lim U calls no_caches H (RC_none _ _ _ _)). Qed.
Print Assumptions C11_history.

(** The same for each function, in every state the caches may be in: after any
    calls of the cached functions (by layers too) and after clearing any cache.
    The state stays one of these. *)
Theorem C11_rearrange : forall lim {A} (r : runtime A) x pattern sizes st v st',
  runtime_ok r -> NoDup (map fst sizes) -> reachable_caches int_ops Z.eqb lim (rt_unicode r) st ->
  cached_rearrange lim r x pattern sizes st = (v, st') ->
  v = rearrange r x pattern sizes /\ reachable_caches int_ops Z.eqb lim (rt_unicode r) st'.
Proof. exact (fun lim A r x p sizes st v st' Hok Hn Hr E => let (a, b) := rearrange_cached lim r Hok x p sizes st v st' Hr Hn E in conj b a). Qed.
Print Assumptions C11_rearrange.

Theorem C11_reduce : forall lim {A} (r : runtime A) x pattern red id sizes st v st',
  runtime_ok r -> NoDup (map fst sizes) -> opkey_of red id <> None -> reachable_caches int_ops Z.eqb lim (rt_unicode r) st ->
  cached_reduce lim r x pattern red id sizes st = (v, st') ->
  v = reduce r x pattern red sizes /\ reachable_caches int_ops Z.eqb lim (rt_unicode r) st'.
Proof. exact (fun lim A r x p red id sizes st v st' Hok Hn Hk Hr E => let (a, b) := reduce_cached lim r Hok x p red id sizes st v st' Hr Hn Hk E in conj b a). Qed.
Print Assumptions C11_reduce.

Theorem C11_repeat : forall lim {A} (r : runtime A) x pattern sizes st v st',
  runtime_ok r -> NoDup (map fst sizes) -> reachable_caches int_ops Z.eqb lim (rt_unicode r) st ->
  cached_repeat lim r x pattern sizes st = (v, st') ->
  v = repeat_ r x pattern sizes /\ reachable_caches int_ops Z.eqb lim (rt_unicode r) st'.
Proof. exact (fun lim A r x p sizes st v st' Hok Hn Hr E => let (a, b) := repeat_cached lim r Hok x p sizes st v st' Hr Hn E in conj b a). Qed.
Print Assumptions C11_repeat.

Theorem C11_array_api : forall lim {A} (r : runtime A) x pattern red id sizes st v st',
  runtime_ok r -> NoDup (map fst sizes) -> opkey_of red id <> None -> reachable_caches int_ops Z.eqb lim (rt_unicode r) st ->
  cached_xp_reduce lim r x pattern red id sizes st = (v, st') ->
  v = xp_reduce_ r x pattern red sizes /\ reachable_caches int_ops Z.eqb lim (rt_unicode r) st'.
Proof. exact (fun lim A r x p red id sizes st v st' Hok Hn Hk Hr E => let (a, b) := xp_reduce_cached lim r Hok x p red id sizes st v st' Hr Hn Hk E in conj b a). Qed.
Print Assumptions C11_array_api.

Theorem C11_packing : forall lim {A} (r : runtime A) st, reachable_caches int_ops Z.eqb lim (rt_unicode r) st ->
  (forall ts p v st', cached_pack lim r ts p st = (v, st') -> reachable_caches int_ops Z.eqb lim (rt_unicode r) st' /\ v = pack r ts p) /\
  (forall x ps p v st', cached_unpack lim r x ps p st = (v, st') -> reachable_caches int_ops Z.eqb lim (rt_unicode r) st' /\ v = unpack r x ps p) /\
  (forall ts p v st', cached_xp_pack lim r ts p st = (v, st') -> reachable_caches int_ops Z.eqb lim (rt_unicode r) st' /\ v = xp_pack r ts p) /\
  (forall x ps p v st', cached_xp_unpack lim r x ps p st = (v, st') -> reachable_caches int_ops Z.eqb lim (rt_unicode r) st' /\ v = xp_unpack r x ps p).
Proof. exact @packing_cached. Qed.
Print Assumptions C11_packing.

Theorem C11_einsum : forall lim {A} (r : runtime A) {T} (lib : pystr -> list T -> result T) args st v st',
  reachable_caches int_ops Z.eqb lim (rt_unicode r) st -> cached_einsum lim r lib args st = (v, st') ->
  reachable_caches int_ops Z.eqb lim (rt_unicode r) st' /\ v = einsum_with (rt_unicode r) lib args.
Proof. exact @einsum_cached. Qed.
Print Assumptions C11_einsum.

(** any other kind of lengths (symbols of a graph, with or without a hash), as
    long as lengths that compare equal are the same *)
Theorem C11_symbols : forall {D} (O : dim_ops D) deqb hashable lim (U : unicode) {T} (B : backend T D) o x pattern red id sizes st v st',
  (forall a b, deqb a b = true -> a = b) ->
  reachable_caches O deqb lim U st -> orders_ok o -> opkey_of red id <> None ->
  cached_api_reduce O deqb hashable lim U o B x pattern red id sizes st = (v, st') ->
  reachable_caches O deqb lim U st' /\ exists o', orders_ok o' /\ v = api_reduce U o' O B x pattern red sizes.
Proof. exact (fun D O deqb hashable lim U T B o x p red id sizes st v st' H => cached_api_reduce_spec O deqb H hashable lim U B o x p red id sizes st v st'). Qed.
Print Assumptions C11_symbols.

(** Ints and floats compare equal without being the same: after a call with the
    length 2.0, which fails, the same call with 2 fails too. *)
Theorem C11_equal_numbers_refuted :
  exists (r : runtime Z) x pattern sizes sizes' st,
    runtime_ok r /\ NoDup (map fst sizes) /\ NoDup (map fst sizes') /\
    snd (cached_reduce_num einops_limits r x pattern (RStr s_rearrange) None sizes' no_caches) = st /\
    fst (cached_reduce_num einops_limits r x pattern (RStr s_rearrange) None sizes st) = Err TypeError /\
    fst (cached_reduce_num einops_limits r x pattern (RStr s_rearrange) None sizes no_caches) = Ok (iota [2; 3]).
Proof.
  exists numpy_like, (One (iota [6])), (lit "(a b) -> a b"), [(lit "a", PInt 2)], [(lit "a", PFloat 2)], 
    (snd (cached_reduce_num einops_limits numpy_like (One (iota [6])) (lit "(a b) -> a b") (RStr s_rearrange) None [(lit "a", PFloat 2)] no_caches)).
  split; [apply runtime_for_ok|]. split; [repeat constructor; intros []|]. split; [repeat constructor; intros []|].
  split; [reflexivity|]. split; vm_compute; reflexivity.
Qed.
Print Assumptions C11_equal_numbers_refuted.

(** ** Concrete cases *)
Definition tiny : limits := {| l_recipes := 1; l_cooked := 1; l_analyzed := 1; l_compact := 1 |}.
Definition cr p sizes : runtime Z * call Z := (numpy_like, CallReduce (One (iota [6])) p (RStr s_rearrange) None sizes).
(** caches of one entry each: repeated calls, an eviction, a failing call *)
Example C11_history_case :
  let calls := [cr (lit "(a b) -> a b") [(lit "a", 2%Z)]; cr (lit "(a b) -> a b") [(lit "a", 2%Z)]; cr (lit "(a b) -> a b") [(lit "a", 3%Z)];
                cr (lit "(a b) -> b a") [(lit "a", 2%Z)]; cr (lit "(a b) -> a b") [(lit "a", 4%Z)]; cr (lit "(a b) -> a b") [(lit "a", 2%Z)];
                (numpy_like, CallPack [iota [2; 3]; iota [2]] (lit "i *"))] in
  serve_all tiny calls no_caches =
    [OutTensor (Ok (iota [2; 3])); OutTensor (Ok (iota [2; 3])); OutTensor (Ok (iota [3; 2]));
     OutTensor (Ok (mkT [3; 2] [0; 3; 1; 4; 2; 5]%Z)); OutTensor (Err EinopsError); OutTensor (Ok (iota [2; 3]));
     OutPacked (Ok (mkT [2; 4] [0; 1; 2; 0; 3; 4; 5; 1]%Z, [[3]; []]%Z))] /\
  (forall r c, In (r, c) calls -> runtime_ok r /\ rt_unicode r = ascii_unicode /\ call_ok c).
Proof.
  split; [vm_compute; reflexivity|]. intros r c H. cbn in H.
  repeat destruct H as [H|H]; try contradiction; injection H as <- <-; (split; [apply runtime_for_ok|split; [reflexivity|]]); cbn;
    try exact I; (split; [repeat constructor; intros []|discriminate]).
Qed.
(** the second of two equal calls is answered from the caches *)
Example C11_hit : let st := snd (cached_rearrange einops_limits numpy_like (One (iota [6])) (lit "(a b) -> a b") [(lit "a", 2%Z)] no_caches) in
  length (c_made st) = 1 /\ length (c_cooked st) = 1 /\
  snd (cached_rearrange einops_limits numpy_like (One (iota [6])) (lit "(a b) -> a b") [(lit "a", 2%Z)] st) = st.
Proof. vm_compute. auto. Qed.
(** a callable without a hash is refused *)
Example C11_unhashable : forall f, fst (cached_reduce einops_limits numpy_like (One (iota [6])) (lit "(a b) -> a") (RCall f) None [(lit "a", 2%Z)] no_caches) = Err TypeError.
Proof. reflexivity. Qed.
