(** * Which of the cached functions are really run by a call

    The calls of Cache.v, with a record of the bodies of the four cached functions that
    are executed: functools.lru_cache runs the body only if it does not find the key. *)
From Verif Require Import Py Tensor Parsing Recipe Ops Backends Api Packing Einsum Cache.

Inductive body :=
| Prepares (k : rkey)                                                       (* einops.py:290 *)
| Cooks (id : nat) (shape : list Z) (sizes : list (pystr * Z))              (* einops.py:155 *)
| Analyzes (k : pystr * pystr)                                              (* packing.py:15 *)
| Compacts (p : pystr).                                                     (* einops.py:772 *)

(** functools.lru_cache: the body is run if the key is not found *)
Definition lru_runs {K V} (eqb : K -> K -> bool) (k : K) (c : list (K * V)) (b : body) : list body :=
  match take_key eqb k c with Some _ => [] | None => [b] end.

Section Runs.
  Context (lim : limits) {A : Type}.
  Implicit Types (st : @caches Z) (r : runtime A).

  Definition prepare_runs (k : rkey) st : list body := lru_runs rkey_eqb k (c_recipes st) (Prepares k).
  Definition cook_runs (rec : nat * recipe) (shape : list Z) (sizes : list (pystr * Z)) st : list body :=
    lru_runs (ckey_eqb Z.eqb) (fst rec, shape, sizes) (c_cooked st) (Cooks (fst rec) shape sizes).
  Definition analyze_runs (k : pystr * pystr) st : list body :=
    lru_runs (fun a b => str_eqb (fst a) (fst b) && str_eqb (snd a) (snd b)) k (c_analyzed st) (Analyzes k).
  Definition compact_runs (p : pystr) st : list body := lru_runs str_eqb p (c_compact st) (Compacts p).

  (** einops.py:234-241: after a TypeError the body is run (again) without the cache *)
  Definition cooked_runs (rec : nat * recipe) (shape : list Z) (sizes : list (pystr * Z)) st : list body :=
    cook_runs rec shape sizes st ++
    match cached_reconstruct int_ops Z.eqb lim rec shape sizes st with
    | (Err TypeError, _) => [Cooks (fst rec) shape sizes]
    | _ => []
    end.
  (** einops.py:460-542 *)
  Definition reduce_runs r (x : input (tensor A)) pattern (red : reduction (tensor A)) (id : option nat) (sizes : list (pystr * Z)) st : list body :=
    match (let* _ := check_kwargs reserved_kwargs sizes in stack_input (rt_backend r) x) with
    | Err _ => []
    | Ok tensor =>
        match opkey_of red id with
        | None => []
        | Some op =>
            let k := (pattern, op, map fst sizes, length (b_shape (rt_backend r) tensor)) in
            prepare_runs k st ++
            match cached_prepare lim (rt_unicode r) (rt_orders r) k st with
            | (Err _, _) => []
            | (Ok rec, st) => cooked_runs rec (b_shape (rt_backend r) tensor) sizes st
            end
        end
    end.
  (** array_api.py:6-31 *)
  Definition xp_reduce_runs r (x : input (tensor A)) pattern (red : reduction (tensor A)) (id : option nat) (sizes : list (pystr * Z)) st : list body :=
    match (let* _ := check_kwargs reserved_kwargs sizes in stack_input_array_api (rt_ns r) x) with
    | Err _ => []
    | Ok tensor =>
        match opkey_of red id with
        | None => []
        | Some op =>
            let k := (pattern, op, map fst sizes, length (xp_shape (rt_ns r) tensor)) in
            prepare_runs k st ++
            match cached_prepare lim (rt_unicode r) (rt_orders r) k st with
            | (Err _, _) => []
            | (Ok rec, st) => cook_runs rec (xp_shape (rt_ns r) tensor) sizes st
            end
        end
    end.
  (** einops.py:909-913 *)
  Definition einsum_runs {T} (args : list (T + pystr)) st : list body :=
    match last args (inr []) with
    | inr pattern => if length args <=? 1 then [] else compact_runs pattern st
    | inl _ => []
    end.
  Definition runs r (c : call A) st : list body :=
    match c with
    | CallReduce x p red id sizes => reduce_runs r x p red id sizes st
    | CallXpReduce x p red id sizes => xp_reduce_runs r x p red id sizes st
    | CallPack _ p | CallXpPack _ p => analyze_runs (p, lit "pack") st                (* packing.py:70, array_api.py:52 *)
    | CallUnpack _ _ p | CallXpUnpack _ _ p => analyze_runs (p, lit "unpack") st      (* packing.py:139, array_api.py:73 *)
    | CallEinsum _ args => einsum_runs args st
    end.
End Runs.

(** ** Histories

    What happens to the caches: calls; layers, whose constructors ask for recipes
    (einops.py:445-457) and whose calls use recipes made before (layers/__init__.py:42-50,
    _torch_specific.py:93-99 does without the cache); a cache that is cleared. *)
Inductive event (A : Type) :=
| Called (r : runtime A) (c : call A)
| LayerMade (o : orders) (k : rkey)
| LayerUsed (rec : nat * recipe) (shape : list Z) (sizes : list (pystr * Z))
| Cleared (recipes cooked analyzed compact : bool).
Arguments Called {A}. Arguments LayerMade {A}. Arguments LayerUsed {A}. Arguments Cleared {A}.
Definition event_step {A} (lim : limits) (U : unicode) (e : event A) (st : @caches Z) : caches :=
  match e with
  | Called r c => snd (serve lim r c st)
  | LayerMade o k => snd (cached_prepare lim U o k st)
  | LayerUsed rec shape sizes => snd (cached_reconstruct int_ops Z.eqb lim rec shape sizes st)
  | Cleared b1 b2 b3 b4 =>
      {| c_recipes := if b1 then [] else c_recipes st; c_cooked := if b2 then [] else c_cooked st;
         c_analyzed := if b3 then [] else c_analyzed st; c_compact := if b4 then [] else c_compact st; c_made := c_made st |}
  end.
(** the caches after a history, the latest event first *)
Fixpoint caches_after {A} (lim : limits) (U : unicode) (h : list (event A)) : @caches Z :=
  match h with [] => no_caches | e :: h => event_step lim U e (caches_after lim U h) end.

(** ** All that is run in a history, the latest first *)
Definition event_runs {A} (lim : limits) (e : event A) (st : @caches Z) : list body :=
  match e with
  | Called r c => runs lim r c st
  | LayerMade _ k => prepare_runs k st
  | LayerUsed rec shape sizes => cooked_runs lim rec shape sizes st
  | Cleared _ _ _ _ => []
  end.
Fixpoint work {A} (lim : limits) (U : unicode) (h : list (event A)) : list body :=
  match h with [] => [] | e :: h => event_runs lim e (caches_after lim U h) ++ work lim U h end.
