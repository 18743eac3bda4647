(** * Objects that are shared: recipes and cooked recipes in the caches

    The rest of the model has values.  Here lists and dicts are objects with an
    identity, as in Python, so that it can be said which of them change: recipes and
    what is computed from them are kept in caches, and returned again by later calls.
    einops.py:114-252, 289-290, 430-442. *)
From Verif Require Import Py Tensor Parsing Recipe Ops Backends Api Packing Einsum Cache.

Definition loc := nat.
(** the kinds of objects.  Tuples and strings cannot be changed and are values. *)
Inductive obj (D : Type) :=
| OLens (l : list D)                      (* a list of lengths *)
| ONats (l : list nat)                    (* a list of positions *)
| OPairs (l : list (loc * loc))           (* a list of pairs of lists *)
| OLists (l : list loc)                   (* a list of lists *)
| ONames (d : list (pystr * nat))         (* a dict from names to positions *)
| OPositions (d : list (nat * nat))       (* a dict from positions to positions *)
| OLengths (d : list (nat * D)).          (* a dict from positions to lengths *)
Arguments OLens {D}. Arguments ONats {D}. Arguments OPairs {D}. Arguments OLists {D}.
Arguments ONames {D}. Arguments OPositions {D}. Arguments OLengths {D}.
Definition heap (D : Type) := list (obj D).

(** a computation: changes made before an exception is raised remain *)
Definition HM (D X : Type) := heap D -> result X * heap D.
Definition hret {D X} (x : X) : HM D X := fun h => (Ok x, h).
Definition hbind {D X Y} (m : HM D X) (k : X -> HM D Y) : HM D Y :=
  fun h => match m h with (Ok x, h') => k x h' | (Err e, h') => (Err e, h') end.
Definition lift {D X} (m : result X) : HM D X := fun h => (m, h).
Notation "'let!' x ':=' m 'in' k" := (hbind m (fun x => k))
  (at level 200, x pattern, m at level 100, k at level 200, right associativity).
Fixpoint hmapM {D X Y} (f : X -> HM D Y) (l : list X) : HM D (list Y) :=
  match l with [] => hret [] | x :: l' => let! y := f x in let! ys := hmapM f l' in hret (y :: ys) end.
Fixpoint hfoldM {D X Y} (f : X -> Y -> HM D X) (l : list Y) (acc : X) : HM D X :=
  match l with [] => hret acc | y :: l' => let! acc := f acc y in hfoldM f l' acc end.

(** a new object; its contents; new contents *)
Definition alloc {D} (o : obj D) : HM D loc := fun h => (Ok (length h), h ++ [o]).
Definition load {D X} (sort : obj D -> option X) (l : loc) : HM D X :=
  fun h => (match nth_error h l with Some o => of_option TypeError (sort o) | None => Err TypeError end, h).
Definition store {D} (l : loc) (o : obj D) : HM D unit :=
  fun h => match list_upd h l o with Ok h' => (Ok tt, h') | Err e => (Err e, h) end.
Definition load_lens {D} : loc -> HM D (list D) := load (fun o => match o with OLens l => Some l | _ => None end).
Definition load_nats {D} : loc -> HM D (list nat) := load (fun o => match o with ONats l => Some l | _ => None end).
Definition load_pairs {D} : loc -> HM D (list (loc * loc)) := load (fun o => match o with OPairs l => Some l | _ => None end).
Definition load_lists {D} : loc -> HM D (list loc) := load (fun o => match o with OLists l => Some l | _ => None end).
Definition load_names {D} : loc -> HM D (list (pystr * nat)) := load (fun o => match o with ONames d => Some d | _ => None end).
Definition load_positions {D} : loc -> HM D (list (nat * nat)) := load (fun o => match o with OPositions d => Some d | _ => None end).
Definition load_lengths {D} : loc -> HM D (list (nat * D)) := load (fun o => match o with OLengths d => Some d | _ => None end).

(** [l[i] = d], [l[i]], [l.append(d)], [list(l)] for lists of lengths *)
Definition setitem {D} (l : loc) (i : nat) (d : D) : HM D unit :=
  let! x := load_lens l in let! x := lift (list_upd x i d) in store l (OLens x).
Definition getitem {D} (l : loc) (i : nat) : HM D D := let! x := load_lens l in lift (list_get x i).
Definition append {D} (l : loc) (d : D) : HM D unit := let! x := load_lens l in store l (OLens (x ++ [d])).
Definition copy_list {D} (l : loc) : HM D loc := let! x := load_lens l in alloc (OLens x).

(** einops.py:114-152 [TransformRecipe] *)
Record hrecipe := mkHR {
  h_elementary : loc; h_name2elem : loc; h_input : loc; h_perm : loc; h_first_reduced : nat; h_added : loc; h_output : loc }.
(** einops.py:105 [CookedRecipe], a tuple *)
Record hcooked := mkHK {
  hk_init : option loc; hk_reorder : option loc; hk_reduced : loc; hk_added : loc; hk_final : option loc; hk_naxes : nat }.

Section Programs.
  Context {D : Type} (O : dim_ops D).

  (** einops.py:430-442: the recipe that [_prepare_transformation_recipe] returns is
      made of new objects (all are results of [list(...)] or of comprehensions) *)
  Definition hp_recipe (rc : recipe) : HM D hrecipe :=
    let! e := alloc (OLens (map (d_of_Z O) (r_elementary rc))) in
    let! n := alloc (ONames (r_name2elem rc)) in
    let! ps := hmapM (fun '(k, u) => let! k := alloc (ONats k) in let! u := alloc (ONats u) in hret (k, u)) (r_input rc) in
    let! i := alloc (OPairs ps) in
    let! p := alloc (ONats (r_perm rc)) in
    let! a := alloc (OPositions (r_added rc)) in
    let! gs := hmapM (fun g => alloc (ONats g)) (r_output rc) in
    let! o := alloc (OLists gs) in
    hret (mkHR e n i p (r_first_reduced rc) a o).

  (** einops.py:171-195, the body of the loop; the state is need_init_reshape *)
  Definition hp_infer_step (shape : list D) (axes_lengths : loc) (need_init : bool) (x : nat * (loc * loc)) : HM D bool :=
    let '(input_axis, (known_axes, unknown_axes)) := x in
    let! length_ := lift (list_get shape input_axis) in                             (* 172 *)
    let! known := load_nats known_axes in
    let! unknown := load_nats unknown_axes in
    match known, unknown with
    | [], [u] => let! _ := setitem axes_lengths u length_ in hret need_init         (* 173-176 *)
    | _, _ =>
        let! ks := hmapM (getitem axes_lengths) known in                            (* 178-180 *)
        let known_product := fold_left (d_mul O) ks (d_of_Z O 1) in
        let! _ :=
          match unknown with
          | [] => match both_ints O length_ known_product with                      (* 182-184 *)
                  | Some (l, k) => if (l =? k)%Z then hret tt else lift (Err EinopsError)
                  | None => hret tt
                  end
          | u :: _ =>                                                               (* 185-192 *)
              let! _ := match both_ints O length_ known_product with
                        | Some (l, k) => if (k =? 0)%Z then lift (Err ZeroDivisionError)
                                         else lift (raise_if (negb (l mod k =? 0)%Z) EinopsError)
                        | None => hret tt
                        end in
              let! q := lift (d_floordiv O length_ known_product) in
              setitem axes_lengths u q
          end in
        hret (if length known + length unknown =? 1 then need_init else true)       (* 194-195 *)
    end.

  (** einops.py:155-224 [_reconstruct_from_shape_uncached].  The lists over which the
      loops run are not changed by their bodies. *)
  Definition hp_reconstruct (self : hrecipe) (shape : list D) (axes_dims : list (pystr * D)) : HM D hcooked :=
    let! axes_lengths := copy_list (h_elementary self) in                           (* 167 *)
    let! _ := hfoldM (fun _ '(axis, dim) =>                                         (* 168-169 *)
                        let! names := load_names (h_name2elem self) in
                        let! p := lift (of_option KeyError (dict_get str_eqb axis names)) in
                        setitem axes_lengths p dim) axes_dims tt in
    let! input := load_pairs (h_input self) in
    let! need_init_reshape := hfoldM (hp_infer_step shape axes_lengths) (enumerate input) false in (* 171-195 *)
    let! perm := load_nats (h_perm self) in
    let! init_shapes :=                                                             (* 200 *)
      if need_init_reshape
      then let! l := load_lens axes_lengths in let! s := alloc (OLens (firstn (length perm) l)) in hret (Some s)
      else hret None in
    let! final_shapes := alloc (OLens []) in                                        (* 202-208 *)
    let! output := load_lists (h_output self) in
    let! need_final_reshape :=
      hfoldM (fun need grouping =>
                let! axes := load_nats grouping in
                let! lengths := hmapM (getitem axes_lengths) axes in
                let! _ := append final_shapes (product O lengths) in
                hret (if length lengths =? 1 then need else true)) output false in
    let! positions := load_positions (h_added self) in                              (* 210-212 *)
    let! added := hmapM (fun '(pos, e) => let! l := getitem axes_lengths e in hret (pos, l)) positions in
    let! added_axes := alloc (OLengths added) in
    let! reduced_axes := alloc (ONats (seq (h_first_reduced self) (length perm - h_first_reduced self))) in (* 215 *)
    let axes_reordering := if list_eq_dec Nat.eq_dec perm (seq 0 (length perm)) then None else Some (h_perm self) in (* 219-221 *)
    hret (mkHK init_shapes axes_reordering reduced_axes added_axes
            (if need_final_reshape then Some final_shapes else None) (length added + length perm)).

  (** what a callable gets as reduced axes: a tuple or an object that it may change *)
  Inductive harg := HTuple (l : list nat) | HRef (l : loc).
  Inductive hreduction (T : Type) := HStr (s : pystr) | HCall (f : T -> harg -> HM D T).
  Arguments HStr {T}. Arguments HCall {T}.
  Definition hop_of {T} (r : hreduction T) : operation := match r with HStr s => OpStr s | HCall _ => OpCallable end.

  Definition opt_load {X Y} (f : X -> HM D Y) (l : option X) : HM D (option Y) :=
    match l with Some l => let! x := f l in hret (Some x) | None => hret None end.

  Section Apply.
    Context {T : Type} (B : backend T D).
    (** einops.py:37-47 [_reduce_axes]: [tuple(reduced_axes)] (40, 47) *)
    Definition hp_reduce_axes (tensor : T) (red : hreduction T) (reduced_axes : loc) : HM D T :=
      let! l := load_nats reduced_axes in
      match red with
      | HCall f => f tensor (HTuple l)
      | HStr s => lift (reduce_axes B tensor (RStr s) l)
      end.
    (** einops.py:242-252.  The functions of the libraries do not change the lists
        and dicts they are given. *)
    Definition hp_apply (k : hcooked) (tensor : T) (red : hreduction T) : HM D T :=
      let! init := opt_load load_lens (hk_init k) in
      let! t1 := lift (match init with Some s => b_reshape B tensor s | None => Ok tensor end) in
      let! reorder := opt_load load_nats (hk_reorder k) in
      let! t2 := lift (match reorder with Some p => b_transpose B t1 p | None => Ok t1 end) in
      let! reduced := load_nats (hk_reduced k) in
      let! t3 := match reduced with [] => hret t2 | _ => hp_reduce_axes t2 red (hk_reduced k) end in
      let! added := load_lengths (hk_added k) in
      let! t4 := lift (match added with [] => Ok t3 | _ => b_add_axes B t3 (hk_naxes k) added end) in
      let! final := opt_load load_lens (hk_final k) in
      lift (match final with Some s => b_reshape B t4 s | None => Ok t4 end).
  End Apply.
End Programs.
Arguments hreduction D T : clear implicits. Arguments HStr {D T}. Arguments HCall {D T}. Arguments hop_of {D T}. Arguments hp_reduce_axes {D T}. Arguments hp_apply {D T}.

(** ** The caches *)
Section HeapCache.
  Context {D : Type} (O : dim_ops D) (deqb : D -> D -> bool) (hashable : D -> bool) (lim : limits) (U : unicode).

  (** as in Cache.v, but with references to objects *)
  Record hstate := mkHS {
    hs_heap : heap D;
    hs_recipes : list (rkey * (nat * hrecipe));
    hs_cooked : list ((nat * list D * list (pystr * D)) * hcooked);
    hs_made : list hrecipe }.
  Definition fresh_process : hstate := mkHS [] [] [] [].

  (** functools.lru_cache around a computation that makes objects *)
  Definition hlru {K V} (eqb : K -> K -> bool) (maxsize : nat) (compute : HM D V) (k : K) (c : list (K * V)) (h : heap D)
      : result V * list (K * V) * heap D :=
    match take_key eqb k c with
    | Some (e, rest) => (Ok (snd e), e :: rest, h)
    | None => match compute h with
              | (Ok v, h) => (Ok v, firstn maxsize ((k, v) :: c), h)
              | (Err e, h) => (Err e, c, h)
              end
    end.

  Definition hcached_prepare (o : orders) (k : rkey) (st : hstate) : result (nat * hrecipe) * hstate :=
    let compute := let '(p, op, ns, n) := k in
                   let! rc := lift (prepare_recipe U o p (op_of_key op) ns n) in
                   let! r := hp_recipe O rc in hret (length (hs_made st), r) in
    let '(r, c, h) := hlru rkey_eqb (l_recipes lim) compute k (hs_recipes st) (hs_heap st) in
    let made := match take_key rkey_eqb k (hs_recipes st), r with None, Ok (_, rec) => hs_made st ++ [rec] | _, _ => hs_made st end in
    (r, mkHS h c (hs_cooked st) made).
  Definition hcached_reconstruct (rec : nat * hrecipe) (shape : list D) (sizes : list (pystr * D)) (st : hstate) : result hcooked * hstate :=
    let '(r, c, h) := hlru (ckey_eqb deqb) (l_cooked lim) (hp_reconstruct O (snd rec) shape sizes) (fst rec, shape, sizes) (hs_cooked st) (hs_heap st) in
    (r, mkHS h (hs_recipes st) c (hs_made st)).
  Definition on_heap {X} (m : HM D X) (st : hstate) : result X * hstate :=
    let '(r, h) := m (hs_heap st) in (r, mkHS h (hs_recipes st) (hs_cooked st) (hs_made st)).

  Section Functions.
    Context {T : Type} (o : orders) (B : backend T D).
    Definition hopkey_of (red : hreduction D T) (id : option nat) : option opkey :=
      match red with HStr s => Some (KStr s) | HCall _ => option_map KCall id end.
    (** einops.py:234-241 *)
    Definition hcooked_for (rec : nat * hrecipe) (tensor : T) (sizes : list (pystr * D)) (st : hstate) : result hcooked * hstate :=
      if key_hashable hashable (b_shape B tensor) sizes
      then match hcached_reconstruct rec (b_shape B tensor) sizes st with
           | (Err TypeError, st) => on_heap (hp_reconstruct O (snd rec) (b_shape B tensor) sizes) st
           | other => other
           end
      else on_heap (hp_reconstruct O (snd rec) (b_shape B tensor) sizes) st.
    (** einops.py:460-542 [reduce] *)
    Definition hcached_reduce (x : input T) (pattern : pystr) (red : hreduction D T) (id : option nat)
        (sizes : list (pystr * D)) (st : hstate) : result T * hstate :=
      match (let* _ := check_kwargs reserved_kwargs sizes in stack_input B x) with
      | Err e => (Err e, st)
      | Ok tensor =>
          match hopkey_of red id with
          | None => (Err TypeError, st)
          | Some op =>
              match hcached_prepare o (pattern, op, map fst sizes, length (b_shape B tensor)) st with
              | (Err e, st) => (Err e, st)
              | (Ok rec, st) =>
                  match hcooked_for rec tensor sizes st with
                  | (Err e, st) => (Err e, st)
                  | (Ok k, st) => on_heap (hp_apply B k tensor red) st
                  end
              end
          end
      end.
  End Functions.

  (** what may happen to the objects of a process: calls of [reduce] (rearrange,
      repeat) with any tensors, library, iteration order of sets, successful or not;
      layers, which keep the recipes they were made with and use them with
      ([_apply_recipe]) or without ([apply_for_scriptable_torch]) the cache; clearing
      of the caches *)
  Inductive hstep : hstate -> hstate -> Prop :=
  | HS_prepare o k st : orders_ok o -> hstep st (snd (hcached_prepare o k st))
  | HS_cached id rec shape sizes st : nth_error (hs_made st) id = Some rec ->
      hstep st (snd (hcached_reconstruct (id, rec) shape sizes st))
  | HS_uncached id rec shape sizes st : nth_error (hs_made st) id = Some rec ->
      hstep st (snd (on_heap (hp_reconstruct O rec shape sizes) st))
  | HS_clear b1 b2 st :
      hstep st (mkHS (hs_heap st) (if b1 : bool then [] else hs_recipes st) (if b2 : bool then [] else hs_cooked st) (hs_made st)).
  Inductive later (st : hstate) : hstate -> Prop :=
  | L_now : later st st
  | L_step st' st'' : later st st' -> hstep st' st'' -> later st st''.
End HeapCache.
Arguments hs_heap {D}. Arguments hs_recipes {D}. Arguments hs_cooked {D}. Arguments hs_made {D}. Arguments fresh_process {D}.

(** ** Lengths that are ints *)
Section HeapInts.
  Context (lim : limits) {A : Type} (r : runtime A).
  Implicit Types (pattern : pystr) (sizes : list (pystr * Z)).
  Notation any_int := (fun _ : Z => true).
  (** einops.reduce; rearrange and repeat call it with their names *)
  Definition h_reduce (x : input (tensor A)) pattern (red : hreduction Z (tensor A)) id sizes (st : @hstate Z) :=
    hcached_reduce int_ops Z.eqb any_int lim (rt_unicode r) (rt_orders r) (rt_backend r) x pattern red id sizes st.
  (** einops.py:262-286, the steps of [_apply_recipe_array_api] *)
  Definition hp_apply_array_api (k : hcooked) (tensor : tensor A) (red : hreduction Z (Tensor.tensor A)) : HM Z (Tensor.tensor A) :=
    let X := rt_ns r in
    let! init := opt_load load_lens (hk_init k) in
    let! t1 := lift (match init with Some s => xp_reshape X tensor s | None => Ok tensor end) in
    let! reorder := opt_load load_nats (hk_reorder k) in
    let! t2 := lift (match reorder with Some p => xp_permute_dims X t1 p | None => Ok t1 end) in
    let! reduced := load_nats (hk_reduced k) in
    let! t3 := match reduced with
               | [] => hret t2
               | _ => match red with
                      | HCall f => f t2 (HTuple reduced)                                    (* 270 *)
                      | HStr s => lift (let* _ := raise_if (negb (str_mem s reductions)) AssertionError in
                                        xp_reduce X t2 s reduced)
                      end
               end in
    let! added := load_lengths (hk_added k) in
    let! t4 := lift (match added with
               | [] => Ok t3
               | added =>
                   let* t := foldM (fun t '(p, _) => xp_expand_dims X t p) added t3 in
                   let* s := foldM (fun s '(p, l) => list_upd s p l) added (xp_shape X t) in (* 279: a new list *)
                   xp_broadcast_to X t s
               end) in
    let! final := opt_load load_lens (hk_final k) in
    lift (match final with Some s => xp_reshape X t4 s | None => Ok t4 end).
  (** array_api.py:6-31 *)
  Definition h_xp_reduce (x : input (tensor A)) pattern (red : hreduction Z (tensor A)) id sizes (st : @hstate Z) : result (tensor A) * hstate :=
    match (let* _ := check_kwargs reserved_kwargs sizes in stack_input_array_api (rt_ns r) x) with
    | Err e => (Err e, st)
    | Ok tensor =>
        match hopkey_of red id with
        | None => (Err TypeError, st)
        | Some op =>
            match hcached_prepare int_ops lim (rt_unicode r) (rt_orders r) (pattern, op, map fst sizes, length (xp_shape (rt_ns r) tensor)) st with
            | (Err e, st) => (Err e, st)
            | (Ok rec, st) =>
                match hcached_reconstruct int_ops Z.eqb lim rec (xp_shape (rt_ns r) tensor) sizes st with
                | (Err e, st) => (Err e, st)
                | (Ok k, st) => on_heap (hp_apply_array_api k tensor red) st
                end
            end
        end
    end.
End HeapInts.

(** ** What is stored at a reference *)
Definition recipe_at {D} (O : dim_ops D) (h : heap D) (r : hrecipe) (rc : recipe) : Prop :=
  nth_error h (h_elementary r) = Some (OLens (map (d_of_Z O) (r_elementary rc))) /\
  nth_error h (h_name2elem r) = Some (ONames (r_name2elem rc)) /\
  (exists ps, nth_error h (h_input r) = Some (OPairs ps) /\
     Forall2 (fun p x => nth_error h (fst p) = Some (ONats (fst x)) /\ nth_error h (snd p) = Some (ONats (snd x))) ps (r_input rc)) /\
  nth_error h (h_perm r) = Some (ONats (r_perm rc)) /\
  h_first_reduced r = r_first_reduced rc /\
  nth_error h (h_added r) = Some (OPositions (r_added rc)) /\
  (exists gs, nth_error h (h_output r) = Some (OLists gs) /\ Forall2 (fun g x => nth_error h g = Some (ONats x)) gs (r_output rc)).
Definition opt_at {D X} (h : heap D) (sort : X -> obj D) (l : option loc) (x : option X) : Prop :=
  match l, x with Some l, Some x => nth_error h l = Some (sort x) | None, None => True | _, _ => False end.
Definition cooked_at {D} (h : heap D) (k : hcooked) (c : cooked D) : Prop :=
  opt_at h OLens (hk_init k) (k_init c) /\ opt_at h ONats (hk_reorder k) (k_reorder c) /\
  nth_error h (hk_reduced k) = Some (ONats (k_reduced c)) /\ nth_error h (hk_added k) = Some (OLengths (k_added c)) /\
  opt_at h OLens (hk_final k) (k_final c) /\ hk_naxes k = k_naxes c.
(** no object changed; there may be new ones *)
Definition only_new {D} (h h' : heap D) : Prop := exists new, h' = h ++ new.
(** a callable that is given a tuple returns what [g] returns; it has no access to the
    objects of einops, and thus does not change them.  (Nothing is said about what it
    does if it is given an object that can be changed.) *)
Definition calls {D T} (f : hreduction D T) (g : reduction T) : Prop :=
  match f, g with
  | HStr s, RStr s' => s = s'
  | HCall f, RCall g => forall t l (h : heap D), f t (HTuple l) h = (g t l, h)
  | _, _ => False
  end.
