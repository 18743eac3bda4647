(** * A Python process that uses einops from several threads

    Session.v with the steps of Threads.v (get_backend) and CacheThreads.v (the
    caches): the calls run in any number of threads, and between any two accesses to
    something shared the interpreter may switch to another one.  Layers are objects
    that a call returns; they are not changed by being called (LayerMemory.v). *)
From Verif Require Import Py Tensor Parsing Recipe Ops Backends Api Packing Einsum Registry Cache Layers Session Threads CacheThreads.

(** one access to a cache; its index: what the call gets *)
Inductive access : Type -> Type :=
| LookRecipe (k : rkey) : access (option (nat * recipe))
| KeepRecipe (k : rkey) (rec : recipe) : access nat                        (* the identity of the new object *)
| LookCooked (k : nat * list Z * list (pystr * Z)) : access (option (cooked Z))
| KeepCooked (k : nat * list Z * list (pystr * Z)) (v : cooked Z) : access unit
| LookAnalyzed (k : pystr * pystr) : access (option (nat * nat * nat))
| KeepAnalyzed (k : pystr * pystr) (v : nat * nat * nat) : access unit
| LookCompact (k : pystr) : access (option pystr)
| KeepCompact (k : pystr) (v : pystr) : access unit.

(** what is left of a call *)
Inductive task (A : Type) :=
| Done (a : answer A) (L : option (stored_layer A))                         (* the answer; the layer that was made *)
| Access {X : Type} (a : access X) (go : X -> task A)
| Ask (p : point (object A)) (go : result framework -> task A).             (* in get_backend *)
Arguments Done {A}. Arguments Access {A X}. Arguments Ask {A}.

Section Crowd.
  Context {A : Type} (lim : limits) (U : unicode) (fw_of : nat -> option framework).
  Context (build : nat -> bclass -> list pystr -> option exn * list pystr) (library : framework -> runtime A).
  Context (lib_einsum : framework -> pystr -> list (tensor A) -> result (tensor A)).
  Implicit Types (x : object A) (o : orders) (f : framework) (pattern : pystr) (sizes : list (pystr * Z)) (st : @caches Z).
  Notation rt := (rt library).

  (** as CacheThreads.proceed *)
  Definition perform {X} (a : access X) st : X * @caches Z :=
    match a with
    | LookRecipe k => let '(v, c) := look rkey_eqb k (c_recipes st) in (v, with_recipes c (c_made st) st)
    | KeepRecipe k rec =>
        let id := length (c_made st) in
        (id, with_recipes (put rkey_eqb (l_recipes lim) k (id, rec) (c_recipes st)) (c_made st ++ [rec]) st)
    | LookCooked k => let '(v, c) := look (ckey_eqb Z.eqb) k (c_cooked st) in (v, with_cooked c st)
    | KeepCooked k v => (tt, with_cooked (put (ckey_eqb Z.eqb) (l_cooked lim) k v (c_cooked st)) st)
    | LookAnalyzed k => let '(v, c) := look akey_eqb k (c_analyzed st) in (v, with_analyzed c st)
    | KeepAnalyzed k v => (tt, with_analyzed (put akey_eqb (l_analyzed lim) k v (c_analyzed st)) st)
    | LookCompact k => let '(v, c) := look str_eqb k (c_compact st) in (v, with_compact c st)
    | KeepCompact k v => (tt, with_compact (put str_eqb (l_compact lim) k v (c_compact st)) st)
    end.
  (** the framework of the backend that get_backend returned *)
  Definition found (r : result instance) : result framework := let* b := r in of_option RuntimeError (framework_of (snd b)).
  Definition proceed (t : task A) (reg : registry) st : task A * registry * @caches Z :=
    match t with
    | Done _ _ => (t, reg, st)
    | Access a go => let '(v, st) := perform a st in (go v, reg, st)
    | Ask (Finished _ r) go => (go (found r), reg, st)
    | Ask p go => let '(p, reg) := advance o_type (accepts fw_of) build p reg in (Ask p go, reg, st)
    end.

  (** ** The calls, as in Session.v *)
  Definition finish (a : answer A) : task A := Done a None.
  Definition ask {V} x (wrap : result V -> answer A) (go : framework -> task A) : task A :=
    Ask (AtStart einops_backends x) (fun r => match r with Ok f => go f | Err e => finish (wrap (Err e)) end).
  Definition tensor_answer (v : result (tensor A)) : answer A := GotOutcome (OutTensor v).
  Definition tensors_answer (v : result (list (tensor A))) : answer A := GotOutcome (OutTensors v).
  Definition packed_answer (v : result (tensor A * list (list Z))) : answer A := GotOutcome (OutPacked v).

  Definition memo {V} (look : access (option V)) (v : result V) (keep : V -> access unit) (go : result V -> task A) : task A :=
    Access look (fun found => match found with
      | Some v => go (Ok v)
      | None => match v with Ok v => Access (keep v) (fun _ => go (Ok v)) | Err e => go (Err e) end
      end).
  (** packing.py:14 *)
  Definition analyzed pattern opname : (result (nat * nat * nat) -> task A) -> task A :=
    memo (LookAnalyzed (pattern, opname)) (analyze_pattern U pattern) (KeepAnalyzed (pattern, opname)).
  (** einops.py:771 *)
  Definition compacted pattern : (result pystr -> task A) -> task A := memo (LookCompact pattern) (compactify U pattern) (KeepCompact pattern).
  (** einops.py:227 *)
  Definition cooking (rec : nat * recipe) (shape : list Z) sizes : (result (cooked Z) -> task A) -> task A :=
    memo (LookCooked (fst rec, shape, sizes)) (reconstruct int_ops (snd rec) shape sizes) (KeepCooked (fst rec, shape, sizes)).
  (** einops.py:289 *)
  Definition prepared o (k : rkey) (go : result (nat * recipe) -> task A) : task A :=
    Access (LookRecipe k) (fun found => match found with
      | Some v => go (Ok v)
      | None => let '(p, op, ns, n) := k in
                match prepare_recipe U o p (op_of_key op) ns n with
                | Ok rec => Access (KeepRecipe k rec) (fun id => go (Ok (id, rec)))
                | Err e => go (Err e)
                end
      end).

  (** a call that has its backend: what CacheThreads.v does with it *)
  Fixpoint of_rest (p : rest A) : task A :=
    match p with
    | Return v => finish (GotOutcome v)
    | FindRecipe k go => Access (LookRecipe k) (fun v => of_rest (go v))
    | StoreRecipe k rec go => Access (KeepRecipe k rec) (fun v => of_rest (go v))
    | FindCooked k go => Access (LookCooked k) (fun v => of_rest (go v))
    | StoreCooked k v go => Access (KeepCooked k v) (fun _ => of_rest go)
    | FindAnalyzed k go => Access (LookAnalyzed k) (fun v => of_rest (go v))
    | StoreAnalyzed k v go => Access (KeepAnalyzed k v) (fun _ => of_rest go)
    | FindCompact k go => Access (LookCompact k) (fun v => of_rest (go v))
    | StoreCompact k v go => Access (KeepCompact k v) (fun _ => of_rest go)
    end.

  (** einops.py:903-914 *)
  Definition start_einsum (args : list (object A + pystr)) : task A :=
    if length args <=? 1 then finish (tensor_answer (Err ValueError))
    else match last args (inr []) with
         | inl _ => finish (tensor_answer (Err ValueError))
         | inr pattern => compacted pattern (fun c =>
             match c with
             | Err e => finish (tensor_answer (Err e))
             | Ok compact =>
                 match removelast args with
                 | inl x :: _ => ask x tensor_answer (fun f =>
                     finish (tensor_answer (let* ts := mapM as_tensor (map arg_data (removelast args)) in backend_einsum lib_einsum f compact ts)))
                 | _ => finish (tensor_answer (Err RuntimeError))
                 end
             end)
         end.
  (** packing.py:70-73 *)
  Definition start_pack (tensors : list (object A)) pattern : task A :=
    analyzed pattern (lit "pack") (fun a =>
      match a with
      | Err e => finish (packed_answer (Err e))
      | Ok _ =>
          match tensors with
          | [] => finish (packed_answer (Err IndexError))
          | x :: _ => ask x packed_answer (fun f =>
              let B := rt_backend (library f) in finish (packed_answer (pack_given (b_shape B) (b_reshape B) (b_concat B) a (map o_data tensors))))
          end
      end).
  (** packing.py:139-141 *)
  Definition start_unpack x (packed_shapes : list (list Z)) pattern : task A :=
    analyzed pattern (lit "unpack") (fun a =>
      match a with
      | Err e => finish (tensors_answer (Err e))
      | Ok _ => ask x tensors_answer (fun f =>
          let B := rt_backend (library f) in finish (tensors_answer (unpack_given (b_shape B) (b_reshape B) (b_slice B) a (o_data x) packed_shapes)))
      end).
  (** einops.py:445-457 *)
  Fixpoint prepared_dims o pattern (op : opkey) (names : list pystr) (dims : list nat) (go : result (list (nat * (nat * recipe))) -> task A) : task A :=
    match dims with
    | [] => go (Ok [])
    | ndim :: dims => prepared o (pattern, op, names, ndim) (fun r =>
        match r with
        | Err e => go (Err e)
        | Ok rec => prepared_dims o pattern op names dims (fun recs => go (let* recs := recs in Ok ((ndim, rec) :: recs)))
        end)
    end.
  Definition prepared_all_dims o pattern (op : opkey) (names : list pystr) (go : result (list (nat * (nat * recipe))) -> task A) : task A :=
    match str_split s_arrow pattern with
    | [left_str; _] =>
        match parse_expression U false false 0 left_str with
        | Err e => go (Err e)
        | Ok (lft, _) => prepared_dims o pattern op names (dims_of_left lft) go
        end
    | _ => go (Err ValueError)
    end.
  (** layers/__init__.py:20-26, 70-76 *)
  Definition start_make o (torch : bool) (reserved : list pystr) pattern red id sizes : task A :=
    match check_kwargs reserved sizes, opkey_of red id with
    | Err e, _ => finish (GotLayer (Err e))
    | _, None => finish (GotLayer (Err TypeError))
    | Ok _, Some op => prepared_all_dims o pattern op (map fst sizes) (fun recs =>
        match recs with
        | Err e => finish (GotLayer (Err e))
        | Ok recs => Done (GotLayer (Ok tt)) (Some {| sl_torch := torch; sl_red := red; sl_sizes := sizes; sl_recipes := recs |})
        end)
    end.
  (** layers/__init__.py:42-50, 92-100; layers/torch.py:12-29.  einops.py:234-241
      computes again after a TypeError *)
  Definition start_use o (L : stored_layer A) x : task A :=
    let stored := of_option KeyError (dict_get Nat.eqb (length (shp (o_data x))) (sl_recipes L)) in
    if sl_torch L
    then finish (tensor_answer (let* rec := stored in scriptable_apply (rt Torch o) (snd rec) (o_data x) (sl_red L) (sl_sizes L)))
    else ask x tensor_answer (fun f =>
      match stored with
      | Err e => finish (tensor_answer (Err e))
      | Ok rec =>
          let B := rt_backend (library f) in
          let shape := b_shape B (o_data x) in
          cooking rec shape (sl_sizes L) (fun c =>
            let c := match c with Err TypeError => reconstruct int_ops (snd rec) shape (sl_sizes L) | _ => c end in
            finish (tensor_answer (let* c := c in apply_cooked B c (o_data x) (sl_red L))))
      end).

  (** [UseLayer k x]: the layer that call number [k] returned; [None]: there is none,
      so it cannot be called *)
  Definition start o (q : request A) (made : nat -> option (stored_layer A)) : option (task A) :=
    match q with
    | DoReduce x p red id sizes => Some (
        match check_kwargs reserved_kwargs sizes with
        | Err e => finish (tensor_answer (Err e))
        | Ok _ => match first_of x with
                  | None => finish (tensor_answer (Err TypeError))
                  | Some t => ask t tensor_answer (fun f => of_rest (begin (rt f o) (CallReduce (input_data x) p red id sizes)))
                  end
        end)
    | DoParseShape x p => Some (
        match parse_expression U true false 0 p with
        | Err e => finish (GotShape (Err e))
        | Ok _ => ask x GotShape (fun f => finish (GotShape (parse_shape U (b_shape (rt_backend (library f)) (o_data x)) p)))
        end)
    | DoDirections x => Some (ask x tensors_answer (fun f => finish (tensors_answer (enumerate_directions int_ops (rt_backend (library f)) (o_data x)))))
    | DoAsNumpy x => Some (ask x tensor_answer (fun f => finish (tensor_answer (to_numpy f (o_data x)))))
    | DoEinsum args => Some (start_einsum args)
    | DoPack ts p => Some (start_pack ts p)
    | DoUnpack x ps p => Some (start_unpack x ps p)
    | DoArrayApi f c => Some (of_rest (begin (rt f o) c))
    | MakeRearrange torch p sizes => Some (start_make o torch [lit "self"; lit "pattern"] p (RStr s_rearrange) None sizes)
    | MakeReduce torch p red id sizes => Some (start_make o torch [lit "self"; lit "pattern"; lit "reduction"] p red id sizes)
    | UseLayer k x => match made k with Some L => Some (start_use o L x) | None => None end
    end.

  (** ** A process *)
  Record crowd := { cr_registry : registry; cr_caches : @caches Z; cr_calls : list (orders * request A * task A) }.
  Definition nobody : crowd := {| cr_registry := fresh_registry; cr_caches := no_caches; cr_calls := [] |}.
  Definition layer_made (s : crowd) (k : nat) : option (stored_layer A) :=
    match nth_error (cr_calls s) k with Some (_, Done _ L) => L | _ => None end.
  Inductive occasion :=
  | Enter (o : orders) (q : request A)                (* a call starts *)
  | Move (i : nat)                                    (* call [i] makes a step *)
  | Loads (ms : list pystr)                           (* sys.modules is now [ms] *)
  | Drop (b1 b2 b3 b4 : bool).                        (* caches are cleared *)
  Definition occurs (s : crowd) (e : occasion) : crowd :=
    match e with
    | Enter o q => match start o q (layer_made s) with
                   | Some t => {| cr_registry := cr_registry s; cr_caches := cr_caches s; cr_calls := cr_calls s ++ [(o, q, t)] |}
                   | None => s
                   end
    | Move i => match nth_error (cr_calls s) i with
                | Some (oq, t) =>
                    let '(t, reg, st) := proceed t (cr_registry s) (cr_caches s) in
                    {| cr_registry := reg; cr_caches := st; cr_calls := firstn i (cr_calls s) ++ (oq, t) :: skipn (S i) (cr_calls s) |}
                | None => s
                end
    | Loads ms => {| cr_registry := set_modules ms (cr_registry s); cr_caches := cr_caches s; cr_calls := cr_calls s |}
    | Drop b1 b2 b3 b4 =>
        let c := cr_caches s in
        {| cr_registry := cr_registry s;
           cr_caches := {| c_recipes := if b1 then [] else c_recipes c; c_cooked := if b2 then [] else c_cooked c;
                           c_analyzed := if b3 then [] else c_analyzed c; c_compact := if b4 then [] else c_compact c; c_made := c_made c |};
           cr_calls := cr_calls s |}
    end.
  Definition history (es : list occasion) (s : crowd) : crowd := fold_left occurs es s.
End Crowd.
Arguments crowd : clear implicits. Arguments occasion : clear implicits.
Arguments Enter {A}. Arguments Move {A}. Arguments Loads {A}. Arguments Drop {A}. Arguments nobody {A}.
