(** * The caches used by several threads at once

    functools.lru_cache (CPython's bounded_lru_cache_wrapper) is atomic in two
    pieces: it looks the key up; if the key is not there it calls the function,
    while other threads may run; then it looks again, and if the key is there now,
    returns what it computed and leaves the cache alone, otherwise adds an entry and
    drops the oldest.  Keys are strings, ints, tuples and objects compared by
    identity, so other threads do not run during a comparison of keys. *)
From Verif Require Import Py Tensor Parsing Recipe Ops Backends Api Packing Einsum Cache.

Section Threads.
  Context (lim : limits) {A : Type}.
  Notation ckey := (nat * list Z * list (pystr * Z))%type.
  Notation caches := (@caches Z).

  (** what is left of a call *)
  Inductive rest :=
  | Return (v : outcome A)
  | FindRecipe (k : rkey) (go : option (nat * recipe) -> rest)
  | StoreRecipe (k : rkey) (rec : recipe) (go : nat -> rest)          (* go: with the identity of the new object *)
  | FindCooked (k : ckey) (go : option (cooked Z) -> rest)
  | StoreCooked (k : ckey) (v : cooked Z) (go : rest)
  | FindAnalyzed (k : pystr * pystr) (go : option (nat * nat * nat) -> rest)
  | StoreAnalyzed (k : pystr * pystr) (v : nat * nat * nat) (go : rest)
  | FindCompact (k : pystr) (go : option pystr -> rest)
  | StoreCompact (k : pystr) (v : pystr) (go : rest).

  (** the first look: an entry that is found becomes the most recent one *)
  Definition look {K V} (eqb : K -> K -> bool) (k : K) (c : list (K * V)) : option V * list (K * V) :=
    match take_key eqb k c with Some (e, others) => (Some (snd e), e :: others) | None => (None, c) end.
  (** the second *)
  Definition put {K V} (eqb : K -> K -> bool) (maxsize : nat) (k : K) (v : V) (c : list (K * V)) : list (K * V) :=
    match take_key eqb k c with Some _ => c | None => firstn maxsize ((k, v) :: c) end.
  Definition akey_eqb (a b : pystr * pystr) : bool := str_eqb (fst a) (fst b) && str_eqb (snd a) (snd b).

  Definition with_recipes c made (st : caches) : caches := {| c_recipes := c; c_cooked := c_cooked st; c_analyzed := c_analyzed st; c_compact := c_compact st; c_made := made |}.
  Definition with_cooked c (st : caches) : caches := {| c_recipes := c_recipes st; c_cooked := c; c_analyzed := c_analyzed st; c_compact := c_compact st; c_made := c_made st |}.
  Definition with_analyzed c (st : caches) : caches := {| c_recipes := c_recipes st; c_cooked := c_cooked st; c_analyzed := c; c_compact := c_compact st; c_made := c_made st |}.
  Definition with_compact c (st : caches) : caches := {| c_recipes := c_recipes st; c_cooked := c_cooked st; c_analyzed := c_analyzed st; c_compact := c; c_made := c_made st |}.

  Definition proceed (p : rest) (st : caches) : rest * caches :=
    match p with
    | Return _ => (p, st)
    | FindRecipe k go => let '(v, c) := look rkey_eqb k (c_recipes st) in (go v, with_recipes c (c_made st) st)
    | StoreRecipe k rec go =>
        let id := length (c_made st) in
        (go id, with_recipes (put rkey_eqb (l_recipes lim) k (id, rec) (c_recipes st)) (c_made st ++ [rec]) st)
    | FindCooked k go => let '(v, c) := look (ckey_eqb Z.eqb) k (c_cooked st) in (go v, with_cooked c st)
    | StoreCooked k v go => (go, with_cooked (put (ckey_eqb Z.eqb) (l_cooked lim) k v (c_cooked st)) st)
    | FindAnalyzed k go => let '(v, c) := look akey_eqb k (c_analyzed st) in (go v, with_analyzed c st)
    | StoreAnalyzed k v go => (go, with_analyzed (put akey_eqb (l_analyzed lim) k v (c_analyzed st)) st)
    | FindCompact k go => let '(v, c) := look str_eqb k (c_compact st) in (go v, with_compact c st)
    | StoreCompact k v go => (go, with_compact (put str_eqb (l_compact lim) k v (c_compact st)) st)
    end.

  (** ** The calls *)
  Section Call.
    Context (r : runtime A).
    Notation U := (rt_unicode r).
    (** einops.py:289 *)
    Definition get_recipe (k : rkey) (go : result (nat * recipe) -> rest) : rest :=
      FindRecipe k (fun found => match found with
        | Some v => go (Ok v)
        | None => let '(p, op, ns, n) := k in
                  match prepare_recipe U (rt_orders r) p (op_of_key op) ns n with
                  | Ok rec => StoreRecipe k rec (fun id => go (Ok (id, rec)))
                  | Err e => go (Err e)
                  end
        end).
    (** einops.py:227 *)
    Definition get_cooked (rec : nat * recipe) (shape : list Z) (sizes : list (pystr * Z)) (go : result (cooked Z) -> rest) : rest :=
      FindCooked (fst rec, shape, sizes) (fun found => match found with
        | Some v => go (Ok v)
        | None => match reconstruct int_ops (snd rec) shape sizes with
                  | Ok v => StoreCooked (fst rec, shape, sizes) v (go (Ok v))
                  | Err e => go (Err e)
                  end
        end).
    (** packing.py:14 *)
    Definition get_analyzed (pattern opname : pystr) (go : result (nat * nat * nat) -> rest) : rest :=
      FindAnalyzed (pattern, opname) (fun found => match found with
        | Some v => go (Ok v)
        | None => match analyze_pattern U pattern with
                  | Ok v => StoreAnalyzed (pattern, opname) v (go (Ok v))
                  | Err e => go (Err e)
                  end
        end).
    (** einops.py:771 *)
    Definition get_compact (pattern : pystr) (go : result pystr -> rest) : rest :=
      FindCompact pattern (fun found => match found with
        | Some v => go (Ok v)
        | None => match compactify U pattern with
                  | Ok v => StoreCompact pattern v (go (Ok v))
                  | Err e => go (Err e)
                  end
        end).

    (** [finish] does not touch caches; [retry]: einops.py:234-241 computes again after a TypeError *)
    Definition reduction_call (input : result (tensor A)) (shape : tensor A -> list Z) (retry : bool)
        (finish : cooked Z -> tensor A -> result (tensor A)) (pattern : pystr) (op : option opkey) (sizes : list (pystr * Z)) : rest :=
      match input with
      | Err e => Return (OutTensor (Err e))
      | Ok x =>
          match op with
          | None => Return (OutTensor (Err TypeError))
          | Some op =>
              get_recipe (pattern, op, map fst sizes, length (shape x)) (fun rec =>
                match rec with
                | Err e => Return (OutTensor (Err e))
                | Ok rec => get_cooked rec (shape x) sizes (fun k =>
                    let k := match k with
                             | Err TypeError => if retry then reconstruct int_ops (snd rec) (shape x) sizes else k
                             | _ => k
                             end in
                    Return (OutTensor (let* k := k in finish k x)))
                end)
          end
      end.

    Definition begin (c : call A) : rest :=
      match c with
      | CallReduce x p red id sizes =>
          reduction_call (let* _ := check_kwargs reserved_kwargs sizes in stack_input (rt_backend r) x) (b_shape (rt_backend r)) true
            (fun k t => apply_cooked (rt_backend r) k t red) p (opkey_of red id) sizes
      | CallXpReduce x p red id sizes =>
          reduction_call (let* _ := check_kwargs reserved_kwargs sizes in stack_input_array_api (rt_ns r) x) (xp_shape (rt_ns r)) false
            (fun k t => apply_cooked_array_api (rt_ns r) k t red) p (opkey_of red id) sizes
      | CallPack ts p => get_analyzed p (lit "pack") (fun a =>
          Return (OutPacked (pack_given (b_shape (rt_backend r)) (b_reshape (rt_backend r)) (b_concat (rt_backend r)) a ts)))
      | CallUnpack x ps p => get_analyzed p (lit "unpack") (fun a =>
          Return (OutTensors (unpack_given (b_shape (rt_backend r)) (b_reshape (rt_backend r)) (b_slice (rt_backend r)) a x ps)))
      | CallXpPack ts p => get_analyzed p (lit "pack") (fun a =>
          Return (OutPacked (pack_given (xp_shape (rt_ns r)) (xp_reshape (rt_ns r)) (xp_concat (rt_ns r)) a ts)))
      | CallXpUnpack x ps p => get_analyzed p (lit "unpack") (fun a =>
          Return (OutTensors (unpack_given (xp_shape (rt_ns r)) (xp_reshape (rt_ns r)) (xp_slice (rt_ns r)) a x ps)))
      | CallEinsum lib args =>
          match last args (inr []) with
          | inr pattern =>
              if length args <=? 1 then Return (OutTensor (einsum_given lib (fun _ => Err ValueError) args))
              else get_compact pattern (fun c => Return (OutTensor (einsum_given lib (fun _ => c) args)))
          | inl _ => Return (OutTensor (einsum_given lib (fun _ => Err ValueError) args))
          end
      end.
  End Call.

  (** ** A process *)
  Record workers := { memory : caches; running : list (runtime A * call A * rest) }.
  Definition idle : workers := {| memory := no_caches; running := [] |}.
  Inductive occurrence :=
  | Begin (r : runtime A) (c : call A)
  | Go (i : nat)
  | Clear (b1 b2 b3 b4 : bool).                    (* cache_clear() of any of them *)
  Definition occur (s : workers) (e : occurrence) : workers :=
    match e with
    | Begin r c => {| memory := memory s; running := running s ++ [(r, c, begin r c)] |}
    | Go i => match nth_error (running s) i with
              | Some (rc, p) => let '(p, st) := proceed p (memory s) in
                                {| memory := st; running := firstn i (running s) ++ (rc, p) :: skipn (S i) (running s) |}
              | None => s
              end
    | Clear b1 b2 b3 b4 =>
        let st := memory s in
        {| memory := {| c_recipes := if b1 then [] else c_recipes st; c_cooked := if b2 then [] else c_cooked st;
                        c_analyzed := if b3 then [] else c_analyzed st; c_compact := if b4 then [] else c_compact st; c_made := c_made st |};
           running := running s |}
    end.
  Definition occurred (es : list occurrence) (s : workers) : workers := fold_left occur es s.
End Threads.
Arguments rest : clear implicits. Arguments workers : clear implicits. Arguments occurrence : clear implicits.
Arguments idle {A}. Arguments Begin {A}. Arguments Go {A}. Arguments Clear {A}. Arguments Return {A}.
