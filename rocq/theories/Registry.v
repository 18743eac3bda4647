(** * Model of einops/_backends.py: get_backend and its two global dictionaries *)
From Verif Require Import Py.

(** a backend class; [c_name] stands for its identity, [c_framework] is
    [framework_name] (_backends.py:65, 158, 197, ...), which a subclass may inherit *)
Record bclass := { c_name : pystr; c_framework : pystr }.

(** the classes known to [__subclasses__()]: direct subclasses in order of definition *)
Inductive ctree := Node (c : bclass) (subs : list ctree).
Definition node_class (t : ctree) : bclass := match t with Node c _ => c end.
Definition node_subs (t : ctree) : list ctree := match t with Node _ s => s end.
Fixpoint tree_size (t : ctree) : nat := match t with Node _ s => S (list_sum (map tree_size s)) end.

(** _backends.py:38-43: [while backends: backend = backends.pop(); backends +=
    backend.__subclasses__(); backend_subclasses.append(backend)].  The number of
    rounds is the number of classes: fuel, see [collect_all] in RegistryFacts.v *)
Fixpoint collect (fuel : nat) (backends : list ctree) (backend_subclasses : list bclass) : list bclass :=
  match fuel with
  | O => backend_subclasses
  | S fuel =>
      match rev backends with
      | [] => backend_subclasses
      | t :: rest => collect fuel (rev rest ++ node_subs t) (backend_subclasses ++ [node_class t])
      end
  end.
Definition all_subclasses (roots : list ctree) : list bclass := collect (list_sum (map tree_size roots)) roots [].

(** a backend object: its identity and class *)
Notation instance := (nat * bclass)%type.

(** An attempt to construct a backend: class, [sys.modules] at that moment, and
    the object if the constructor did not raise.  The list of attempts is not a
    Python object, it records what happened. *)
Record attempt := { at_class : bclass; at_modules : list pystr; at_result : option instance }.

Record registry := {
  loaded : list (pystr * instance);      (* _loaded_backends, _backends.py:17 *)
  by_type : list (nat * instance);       (* _type2backend, _backends.py:18; types are numbered *)
  modules : list pystr;                  (* keys of sys.modules *)
  clock : nat;                           (* number of constructors called *)
  attempts : list attempt }.
Definition fresh_registry : registry := {| loaded := []; by_type := []; modules := []; clock := 0; attempts := [] |}.

Section GetBackend.
  Context {T : Type}.
  Context (type_of : T -> nat).                              (* type(tensor) *)
  Context (accepts : bclass -> T -> bool).                   (* backend.is_appropriate_type(tensor) *)
  (** Constructors import modules, and may raise; what they do may change from
      call to call: [build clock class modules] *)
  Context (build : nat -> bclass -> list pystr -> option exn * list pystr).

  Fixpoint find_key {K V} (eqb : K -> K -> bool) (k : K) (d : list (K * V)) : option V :=
    match d with [] => None | (k', v) :: d => if eqb k k' then Some v else find_key eqb k d end.

  (** [BackendSubclass()], _backends.py:53 *)
  Definition construct (c : bclass) (st : registry) : registry * result instance :=
    let '(failure, modules') := build (clock st) c (modules st) in
    let inst := (clock st, c) in
    ({| loaded := loaded st; by_type := by_type st; modules := modules'; clock := S (clock st);
        attempts := attempts st ++ [{| at_class := c; at_modules := modules st;
                                       at_result := match failure with None => Some inst | Some _ => None end |}] |},
     match failure with None => Ok inst | Some e => Err e end).

  Definition set_loaded (fw : pystr) (b : instance) (st : registry) : registry :=
    {| loaded := loaded st ++ [(fw, b)]; by_type := by_type st; modules := modules st; clock := clock st; attempts := attempts st |}.
  Definition set_type (t : nat) (b : instance) (st : registry) : registry :=
    {| loaded := loaded st; by_type := by_type st ++ [(t, b)]; modules := modules st; clock := clock st; attempts := attempts st |}.

  (** _backends.py:45-57; [_loaded_backends[...] = backend] adds a key that is not there *)
  Fixpoint try_classes (cs : list bclass) (x : T) (st : registry) : registry * result instance :=
    match cs with
    | [] => (st, Err RuntimeError)                                              (* 59 *)
    | c :: cs =>
        match find_key str_eqb (c_framework c) (loaded st) with
        | Some _ => try_classes cs x st                                         (* 48 *)
        | None =>
            if str_mem (c_framework c) (modules st)                             (* 50 *)
            then match construct c st with
                 | (st, Err e) => (st, Err e)
                 | (st, Ok b) =>
                     let st := set_loaded (c_framework c) b st in               (* 54 *)
                     if accepts (snd b) x then (set_type (type_of x) b st, Ok b)   (* 55-57 *)
                     else try_classes cs x st
                 end
            else try_classes cs x st
        end
    end.

  (** _backends.py:22-59 *)
  Definition get_backend (roots : list ctree) (x : T) (st : registry) : registry * result instance :=
    match find_key Nat.eqb (type_of x) (by_type st) with                        (* 28-30 *)
    | Some b => (st, Ok b)
    | None =>
        match find (fun fb => accepts (snd (snd fb)) x) (loaded st) with        (* 32-35 *)
        | Some (_, b) => (set_type (type_of x) b st, Ok b)
        | None => try_classes (all_subclasses roots) x st
        end
    end.

  (** what may happen in a process: [sys.modules] changes, or get_backend is
      called while some classes are defined *)
  Inductive event := Modules (ms : list pystr) | Get (roots : list ctree) (x : T).
  Definition step (st : registry) (e : event) : registry :=
    match e with
    | Modules ms => {| loaded := loaded st; by_type := by_type st; modules := ms; clock := clock st; attempts := attempts st |}
    | Get roots x => fst (get_backend roots x st)
    end.
  Definition run (es : list event) (st : registry) : registry := fold_left step es st.
End GetBackend.
Arguments Modules {T}. Arguments Get {T}.

(** the classes of _backends.py:157-668, in order of definition *)
Definition backend_class (name fw : String.string) (subs : list ctree) : ctree := Node {| c_name := lit name; c_framework := lit fw |} subs.
Arguments backend_class name%string_scope fw%string_scope subs.
Definition einops_backends : list ctree :=
  [ backend_class "NumpyBackend" "numpy" [backend_class "JaxBackend" "jax" []];
    backend_class "TorchBackend" "torch" [];
    backend_class "CupyBackend" "cupy" [];
    backend_class "TensorflowBackend" "tensorflow" [];
    backend_class "TFKerasBackend" "tensorflow.keras" [];
    backend_class "OneFlowBackend" "oneflow" [];
    backend_class "PaddleBackend" "paddle" [];
    backend_class "TinygradBackend" "tinygrad" [];
    backend_class "PyTensorBackend" "pytensor" [] ].
