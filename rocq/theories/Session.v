(** * A Python process that uses einops

    The parts put together: each call asks [get_backend] (Registry.v) for the
    backend of its tensor, and goes through the caches (Cache.v); layers keep the
    recipes they got from the caches.  In between, modules are imported and caches
    are cleared. *)
From Verif Require Import Py Tensor Parsing Recipe Ops Backends Api Packing Einsum Registry Cache Layers.

(** the backend class of a framework, _backends.py:157-668; the torch layers do
    not use a backend from the registry *)
Definition class_name (f : framework) : pystr :=
  match f with
  | Numpy => lit "NumpyBackend" | Jax => lit "JaxBackend" | Torch => lit "TorchBackend" | Cupy => lit "CupyBackend"
  | Tensorflow => lit "TensorflowBackend" | Keras => lit "TFKerasBackend" | Oneflow => lit "OneFlowBackend"
  | Paddle => lit "PaddleBackend" | Tinygrad => lit "TinygradBackend" | Pytensor => lit "PyTensorBackend"
  | TorchJit => []
  end.
Definition frameworks : list framework := [Numpy; Jax; Torch; Cupy; Tensorflow; Keras; Oneflow; Paddle; Tinygrad; Pytensor].
(** the framework whose functions a backend object calls *)
Definition framework_of (c : bclass) : option framework := find (fun f => str_eqb (c_name c) (class_name f)) frameworks.

(** a Python object that may be a tensor: its type and, if it is one, its value *)
Record object (A : Type) := { o_type : nat; o_data : tensor A }.
Arguments o_type {A}. Arguments o_data {A}.
Definition input_data {A} (x : input (object A)) : input (tensor A) :=
  match x with One t => One (o_data t) | Many ts => Many (map o_data ts) end.
Definition arg_data {A} (a : object A + pystr) : tensor A + pystr := match a with inl t => inl (o_data t) | inr s => inr s end.
(** the tensor whose type decides *)
Definition first_of {A} (x : input (object A)) : option (object A) :=
  match x with One t => Some t | Many (t :: _) => Some t | Many [] => None end.

(** a Rearrange or Reduce layer; recipes with their identities *)
Record stored_layer (A : Type) := {
  sl_torch : bool;                                  (* of layers/torch.py *)
  sl_red : reduction (tensor A);
  sl_sizes : list (pystr * Z);
  sl_recipes : list (nat * (nat * recipe)) }.
Arguments sl_torch {A}. Arguments sl_red {A}. Arguments sl_sizes {A}. Arguments sl_recipes {A}.

Record process (A : Type) := {
  pr_registry : registry;
  pr_caches : @caches Z;
  pr_layers : list (stored_layer A) }.
Arguments pr_registry {A}. Arguments pr_caches {A}. Arguments pr_layers {A}.
Definition new_process {A} : process A := {| pr_registry := fresh_registry; pr_caches := no_caches; pr_layers := [] |}.

(** [id]: identity of a callable *)
Inductive request (A : Type) :=
| DoReduce (x : input (object A)) (pattern : pystr) (red : reduction (tensor A)) (id : option nat) (sizes : list (pystr * Z))   (* also rearrange, repeat *)
| DoParseShape (x : object A) (pattern : pystr)
| DoDirections (x : object A)                      (* _enumerate_directions *)
| DoAsNumpy (x : object A)
| DoEinsum (args : list (object A + pystr))
| DoPack (tensors : list (object A)) (pattern : pystr)
| DoUnpack (x : object A) (packed_shapes : list (list Z)) (pattern : pystr)
| DoArrayApi (f : framework) (c : call A)          (* einops.array_api, for an array of [f] *)
| MakeRearrange (torch : bool) (pattern : pystr) (sizes : list (pystr * Z))
| MakeReduce (torch : bool) (pattern : pystr) (red : reduction (tensor A)) (id : option nat) (sizes : list (pystr * Z))
| UseLayer (k : nat) (x : object A).               (* the layer made as number [k] *)
Arguments DoReduce {A}. Arguments DoParseShape {A}. Arguments DoDirections {A}. Arguments DoAsNumpy {A}. Arguments DoEinsum {A}.
Arguments DoPack {A}. Arguments DoUnpack {A}. Arguments DoArrayApi {A}. Arguments MakeRearrange {A}. Arguments MakeReduce {A}. Arguments UseLayer {A}.

Inductive answer (A : Type) :=
| GotOutcome (v : outcome A)
| GotShape (v : result (list (pystr * Z)))
| GotLayer (v : result unit)
| GotNothing.
Arguments GotOutcome {A}. Arguments GotShape {A}. Arguments GotLayer {A}. Arguments GotNothing {A}.

(** what happens in a process.  [o]: iteration orders of sets during the call *)
Inductive happening (A : Type) :=
| Imports (ms : list pystr)                        (* sys.modules is now [ms] *)
| Clear (b1 b2 b3 b4 : bool)                       (* caches are cleared *)
| Request (o : orders) (q : request A).
Arguments Imports {A}. Arguments Clear {A}. Arguments Request {A}.

(** a user program: what it does next may depend on what it was answered *)
Inductive program (A : Type) :=
| Stop
| Then (h : happening A) (next : answer A -> program A).
Arguments Stop {A}. Arguments Then {A}.

Section Process.
  Context {A : Type} (lim : limits) (U : unicode).
  Context (fw_of : nat -> option framework).       (* the framework whose tensors have this type, if any *)
  Context (build : nat -> bclass -> list pystr -> option exn * list pystr).      (* constructors of backends, see Registry.v *)
  Context (library : framework -> runtime A).
  Context (lib_einsum : framework -> pystr -> list (tensor A) -> result (tensor A)).
  Implicit Types (x : object A) (st : process A) (o : orders) (f : framework) (pattern : pystr) (sizes : list (pystr * Z)).

  (** [is_appropriate_type] of a class: here it looks at the type only *)
  Definition accepts (c : bclass) (x : object A) : bool :=
    match fw_of (o_type x) with Some f => str_eqb (c_name c) (class_name f) | None => false end.
  Definition rt f o : runtime A := with_orders (library f) o.
  (** TFKerasBackend has no einsum, _backends.py:134-135 *)
  Definition backend_einsum f : pystr -> list (tensor A) -> result (tensor A) :=
    match f with Keras => fun _ _ => Err NotImplementedError | _ => lib_einsum f end.
  (** to_numpy, _backends.py:171-172, 210-211, ...; Keras has none (74-75).  pytensor
      evaluates the graph; tensors here are not part of an unfinished graph *)
  Definition to_numpy f (t : tensor A) : result (tensor A) := match f with Keras => Err NotImplementedError | _ => Ok t end.

  Definition with_caches (st : process A) (c : caches) : process A :=
    {| pr_registry := pr_registry st; pr_caches := c; pr_layers := pr_layers st |}.
  (** get_backend(x) *)
  Definition backend_for x st : result framework * process A :=
    let '(reg, b) := get_backend o_type accepts build einops_backends x (pr_registry st) in
    ((let* b := b in of_option RuntimeError (framework_of (snd b))),
     {| pr_registry := reg; pr_caches := pr_caches st; pr_layers := pr_layers st |}).
  Definition with_backend {V} x st (go : framework -> process A -> result V * process A) : result V * process A :=
    match backend_for x st with (Ok f, st) => go f st | (Err e, st) => (Err e, st) end.

  (** einops.py:520-534 *)
  Definition do_reduce o (x : input (object A)) pattern red id sizes st : result (tensor A) * process A :=
    match check_kwargs reserved_kwargs sizes with
    | Err e => (Err e, st)
    | Ok _ =>
        match first_of x with
        | None => (Err TypeError, st)                                              (* 522-523 *)
        | Some t => with_backend t st (fun f st =>
            let '(v, c) := cached_reduce lim (rt f o) (input_data x) pattern red id sizes (pr_caches st) in (v, with_caches st c))
        end
    end.
  (** einops.py:679-680 *)
  Definition do_parse_shape x pattern st : result (list (pystr * Z)) * process A :=
    match parse_expression U true false 0 pattern with
    | Err e => (Err e, st)
    | Ok _ => with_backend x st (fun f st => (parse_shape U (b_shape (rt_backend (library f)) (o_data x)) pattern, st))
    end.
  (** einops.py:728 *)
  Definition do_directions x st : result (list (tensor A)) * process A :=
    with_backend x st (fun f st => (enumerate_directions int_ops (rt_backend (library f)) (o_data x), st)).
  (** einops.py:752 *)
  Definition do_asnumpy x st : result (tensor A) * process A :=
    with_backend x st (fun f st => (to_numpy f (o_data x), st)).
  (** einops.py:903-914 *)
  Definition do_einsum (args : list (object A + pystr)) st : result (tensor A) * process A :=
    if length args <=? 1 then (Err ValueError, st)
    else match last args (inr []) with
         | inl _ => (Err ValueError, st)
         | inr pattern =>
             let '(c, cs) := cached_compactify lim U pattern (pr_caches st) in
             let st := with_caches st cs in
             match c with
             | Err e => (Err e, st)
             | Ok compact =>
                 match removelast args with
                 | inl x :: _ => with_backend x st (fun f st =>
                     ((let* ts := mapM as_tensor (map arg_data (removelast args)) in backend_einsum f compact ts), st))
                 | _ => (Err RuntimeError, st)                                     (* get_backend of a string *)
                 end
             end
         end.
  (** packing.py:70-73 *)
  Definition do_pack (tensors : list (object A)) pattern st : result (tensor A * list (list Z)) * process A :=
    let '(a, cs) := cached_analyze lim U pattern (lit "pack") (pr_caches st) in
    let st := with_caches st cs in
    match a with
    | Err e => (Err e, st)
    | Ok _ =>
        match tensors with
        | [] => (Err IndexError, st)
        | x :: _ => with_backend x st (fun f st =>
            let B := rt_backend (library f) in (pack_given (b_shape B) (b_reshape B) (b_concat B) a (map o_data tensors), st))
        end
    end.
  (** packing.py:139-141 *)
  Definition do_unpack x (packed_shapes : list (list Z)) pattern st : result (list (tensor A)) * process A :=
    let '(a, cs) := cached_analyze lim U pattern (lit "unpack") (pr_caches st) in
    let st := with_caches st cs in
    match a with
    | Err e => (Err e, st)
    | Ok _ => with_backend x st (fun f st =>
        let B := rt_backend (library f) in (unpack_given (b_shape B) (b_reshape B) (b_slice B) a (o_data x) packed_shapes, st))
    end.

  (** einops.py:445-457 [_prepare_recipes_for_all_dims], through the cache of
      [_prepare_transformation_recipe] *)
  Fixpoint cached_dims o pattern (op : opkey) (names : list pystr) (dims : list nat) (c : @caches Z)
      : result (list (nat * (nat * recipe))) * caches :=
    match dims with
    | [] => (Ok [], c)
    | ndim :: dims =>
        match cached_prepare lim U o (pattern, op, names, ndim) c with
        | (Err e, c) => (Err e, c)
        | (Ok rec, c) =>
            match cached_dims o pattern op names dims c with
            | (Ok recs, c) => (Ok ((ndim, rec) :: recs), c)
            | (Err e, c) => (Err e, c)
            end
        end
    end.
  Definition cached_all_dims o pattern (op : opkey) (names : list pystr) (c : @caches Z) : result (list (nat * (nat * recipe))) * caches :=
    match str_split s_arrow pattern with
    | [left_str; _] =>
        match parse_expression U false false 0 left_str with
        | Err e => (Err e, c)
        | Ok (lft, _) => cached_dims o pattern op names (dims_of_left lft) c
        end
    | _ => (Err ValueError, c)
    end.
  (** layers/__init__.py:20-26, 70-76 *)
  Definition do_make o (torch : bool) (reserved : list pystr) pattern red id sizes st : result unit * process A :=
    match check_kwargs reserved sizes, opkey_of red id with
    | Err e, _ => (Err e, st)
    | _, None => (Err TypeError, st)
    | Ok _, Some op =>
        match cached_all_dims o pattern op (map fst sizes) (pr_caches st) with
        | (Err e, c) => (Err e, with_caches st c)
        | (Ok recs, c) =>
            (Ok tt, {| pr_registry := pr_registry st; pr_caches := c;
                       pr_layers := pr_layers st ++ [{| sl_torch := torch; sl_red := red; sl_sizes := sizes; sl_recipes := recs |}] |})
        end
    end.
  (** layers/__init__.py:42-50, 92-100; layers/torch.py:12-29 (no backend from the
      registry, no cache).  A number that no layer has: not a request, IndexError *)
  Definition do_use o (k : nat) x st : result (tensor A) * process A :=
    match nth_error (pr_layers st) k with
    | None => (Err IndexError, st)
    | Some L =>
        let found := of_option KeyError (dict_get Nat.eqb (length (shp (o_data x))) (sl_recipes L)) in
        if sl_torch L
        then ((let* rec := found in scriptable_apply (rt Torch o) (snd rec) (o_data x) (sl_red L) (sl_sizes L)), st)
        else with_backend x st (fun f st =>
          match found with
          | Err e => (Err e, st)
          | Ok rec =>
              let B := rt_backend (library f) in
              let '(c, cs) := cooked_for int_ops Z.eqb (fun _ => true) lim B rec (o_data x) (sl_sizes L) (pr_caches st) in
              ((let* c := c in apply_cooked B c (o_data x) (sl_red L)), with_caches st cs)
          end)
    end.

  Definition do_request o (q : request A) st : answer A * process A :=
    match q with
    | DoReduce x p red id sizes => let '(v, st) := do_reduce o x p red id sizes st in (GotOutcome (OutTensor v), st)
    | DoParseShape x p => let '(v, st) := do_parse_shape x p st in (GotShape v, st)
    | DoDirections x => let '(v, st) := do_directions x st in (GotOutcome (OutTensors v), st)
    | DoAsNumpy x => let '(v, st) := do_asnumpy x st in (GotOutcome (OutTensor v), st)
    | DoEinsum args => let '(v, st) := do_einsum args st in (GotOutcome (OutTensor v), st)
    | DoPack ts p => let '(v, st) := do_pack ts p st in (GotOutcome (OutPacked v), st)
    | DoUnpack x ps p => let '(v, st) := do_unpack x ps p st in (GotOutcome (OutTensors v), st)
    | DoArrayApi f c => let '(v, cs) := serve lim (rt f o) c (pr_caches st) in (GotOutcome v, with_caches st cs)
    | MakeRearrange torch p sizes => let '(v, st) := do_make o torch [lit "self"; lit "pattern"] p (RStr s_rearrange) None sizes st in (GotLayer v, st)
    | MakeReduce torch p red id sizes => let '(v, st) := do_make o torch [lit "self"; lit "pattern"; lit "reduction"] p red id sizes st in (GotLayer v, st)
    | UseLayer k x => let '(v, st) := do_use o k x st in (GotOutcome (OutTensor v), st)
    end.
  Definition happen (h : happening A) st : answer A * process A :=
    match h with
    | Imports ms => (GotNothing, {| pr_registry := Registry.step o_type accepts build (pr_registry st) (Modules ms); pr_caches := pr_caches st; pr_layers := pr_layers st |})
    | Clear b1 b2 b3 b4 =>
        let c := pr_caches st in
        (GotNothing, with_caches st {| c_recipes := if b1 then [] else c_recipes c; c_cooked := if b2 then [] else c_cooked c;
                                       c_analyzed := if b3 then [] else c_analyzed c; c_compact := if b4 then [] else c_compact c; c_made := c_made c |})
    | Request o q => do_request o q st
    end.
  (** all answers *)
  Fixpoint run_program (p : program A) st : list (answer A) :=
    match p with
    | Stop => []
    | Then h next => let '(a, st) := happen h st in a :: run_program (next a) st
    end.
End Process.
