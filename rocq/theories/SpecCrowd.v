(** * Specification: what calls in several threads have to answer

    Part of the specification. *)
From Verif Require Import Py Tensor Parsing Recipe Ops Backends Api Packing Einsum Registry SpecGrammar SpecRegistry Cache Layers Session SpecSession Threads SpecThreads Crowd.

Section Crowds.
  Context {A : Type} (U : unicode) (library : framework -> runtime A).
  Context (lib_einsum : framework -> pystr -> list (tensor A) -> result (tensor A)).
  Implicit Types (x : object A) (o : orders) (q : request A).
  Notation layers := (list (bool * layer (tensor A))).

  (** the layer that call number [k] makes, none if it makes none *)
  Definition layer_by (fw_of : nat -> option framework) (calls : list (orders * request A)) (k : nat) : layers :=
    match nth_error calls k with Some (o, q) => snd (answer_to U fw_of library lib_einsum o q []) | None => [] end.
  (** the answer of Session.v's specification (no registry, no caches, no threads).
      [calls]: the calls of the process *)
  Definition right (fw_of : nat -> option framework) (calls : list (orders * request A)) o q : answer A :=
    match q with
    | UseLayer k x => fst (answer_to U fw_of library lib_einsum o (UseLayer 0 x) (layer_by fw_of calls k))
    | _ => fst (answer_to U fw_of library lib_einsum o q [])
    end.
  (** the answer to one whose tensors are of no known type *)
  Definition refused (calls : list (orders * request A)) o q : answer A := right (fun _ => None) calls o q.

  (** the tensor for which the call asks get_backend *)
  Definition asks (calls : list (orders * request A)) q : option (object A) :=
    match q with
    | DoReduce x _ _ _ _ => first_of x
    | DoParseShape x _ | DoDirections x | DoAsNumpy x | DoUnpack x _ _ => Some x
    | DoEinsum args => match args with inl x :: _ => Some x | _ => None end
    | DoPack ts _ => hd_error ts
    | DoArrayApi _ _ | MakeRearrange _ _ _ | MakeReduce _ _ _ _ _ => None
    | UseLayer k x => match layer_by (fun _ => None) calls k with (true, _) :: _ => None | _ => Some x end
    end.

  (** sizes are keyword arguments; callables can be hashed *)
  Definition decent q : Prop :=
    match q with
    | DoReduce _ _ red id sizes | MakeReduce _ _ red id sizes => NoDup (map fst sizes) /\ opkey_of red id <> None
    | DoArrayApi _ c => call_ok c
    | MakeRearrange _ _ sizes => NoDup (map fst sizes)
    | _ => True
    end.
  (** torch layers get tensors of torch, other layers other tensors *)
  Definition suitable (fw_of : nat -> option framework) (calls : list (orders * request A)) q : Prop :=
    match q with
    | UseLayer k x => forall torch L, In (torch, L) (layer_by fw_of calls k) -> (torch = true <-> fw_of (o_type x) = Some Torch)
    | _ => True
    end.
  Definition decent_events (es : list (occasion A)) : Prop := forall o q, In (Enter o q) es -> orders_ok o /\ decent q.
End Crowds.

(** a backend in use accepts [x], or the type of [x] is known *)
Definition settled {A} (fw_of : nat -> option framework) (x : object A) (reg : registry) : Prop :=
  (exists fb, In fb (loaded reg) /\ accepts fw_of (snd (snd fb)) x = true) \/ In (o_type x) (map fst (by_type reg)).
(** nothing is removed from sys.modules by these *)
Fixpoint keeps_modules {A} (es : list (occasion A)) (ms : list pystr) : Prop :=
  match es with
  | [] => True
  | Loads ms' :: es => incl ms ms' /\ keeps_modules es ms
  | _ :: es => keeps_modules es ms
  end.
(** the steps that call number [i] makes in [es] *)
Definition moves {A} (i : nat) (es : list (occasion A)) : nat := length (filter (fun e => match e with Move j => i =? j | _ => false end) es).
