(** * Specification: what a process has to answer

    Part of the specification.  No registry, no caches: the functions of the
    library that the tensor belongs to. *)
From Verif Require Import Py Tensor Parsing Recipe Ops Backends Api Packing Einsum Registry SpecGrammar SpecRegistry Cache Layers Session.

Section Answers.
  Context {A : Type} (U : unicode) (fw_of : nat -> option framework) (library : framework -> runtime A).
  Context (lib_einsum : framework -> pystr -> list (tensor A) -> result (tensor A)).
  Implicit Types (x : object A) (o : orders).
  Notation layers := (list (bool * layer (tensor A))).

  (** an object that is no tensor of a known framework: RuntimeError *)
  Definition known {V} x (v : framework -> result V) : result V :=
    match fw_of (o_type x) with Some f => v f | None => Err RuntimeError end.
  Definition rtm f o : runtime A := with_orders (library f) o.

  Definition made (torch : bool) (m : result (layer (tensor A))) (ls : layers) : answer A * layers :=
    match m with Ok L => (GotLayer (Ok tt), ls ++ [(torch, L)]) | Err e => (GotLayer (Err e), ls) end.

  Definition answer_to o (q : request A) (ls : layers) : answer A * layers :=
    match q with
    | DoReduce x p red id sizes =>
        (GotOutcome (OutTensor (let* _ := check_kwargs reserved_kwargs sizes in
           match first_of x with
           | Some t => known t (fun f => reduce (rtm f o) (input_data x) p red sizes)
           | None => Err TypeError
           end)), ls)
    | DoParseShape x p =>
        (GotShape (let* _ := parse_expression U true false 0 p in known x (fun _ => parse_shape U (map Z.of_nat (shp (o_data x))) p)), ls)
    | DoDirections x => (GotOutcome (OutTensors (known x (fun f => enumerate_directions int_ops (rt_backend (rtm f o)) (o_data x)))), ls)
    | DoAsNumpy x => (GotOutcome (OutTensor (known x (fun f => match f with Keras => Err NotImplementedError | _ => Ok (o_data x) end))), ls)
    | DoEinsum args =>
        (GotOutcome (OutTensor (match args with
           | inl x :: _ :: _ =>
               match fw_of (o_type x) with
               | Some f => einsum_with U (match f with Keras => fun _ _ => Err NotImplementedError | _ => lib_einsum f end) (map arg_data args)
               | None => einsum_given (fun _ _ => Err RuntimeError) (fun p => let* _ := compactify U p in Err RuntimeError) (map arg_data args)
               end
           | _ => einsum_with U (fun _ _ => Err RuntimeError) (map arg_data args)
           end)), ls)
    | DoPack ts p =>
        (GotOutcome (OutPacked (let* _ := analyze_pattern U p in
           match ts with [] => Err IndexError | x :: _ => known x (fun f => pack (rtm f o) (map o_data ts) p) end)), ls)
    | DoUnpack x ps p => (GotOutcome (OutTensors (let* _ := analyze_pattern U p in known x (fun f => unpack (rtm f o) (o_data x) ps p))), ls)
    | DoArrayApi f c => (GotOutcome (compute (rtm f o) c), ls)
    | MakeRearrange torch p sizes => made torch (Rearrange U (fun _ => o) p sizes) ls
    | MakeReduce torch p red id sizes => made torch (Reduce U (fun _ => o) p red sizes) ls
    | UseLayer k x =>
        (GotOutcome (OutTensor (match nth_error ls k with
           | Some (_, L) => known x (fun f => call_layer (rtm f o) L (o_data x))
           | None => Err IndexError
           end)), ls)
    end.
  (** the modules last imported, and the layers made *)
  Definition answer_for (h : happening A) (ms : list pystr) (ls : layers) : answer A * list pystr * layers :=
    match h with
    | Imports ms => (GotNothing, ms, ls)
    | Clear _ _ _ _ => (GotNothing, ms, ls)
    | Request o q => let '(a, ls) := answer_to o q ls in (a, ms, ls)
    end.
  Fixpoint right_answers (p : program A) (ms : list pystr) (ls : layers) : list (answer A) :=
    match p with
    | Stop => []
    | Then h next => let '(a, ms, ls) := answer_for h ms ls in a :: right_answers (next a) ms ls
    end.

  (** ** What is expected of a program *)
  (** the framework that a tensor belongs to is imported *)
  Definition present (ms : list pystr) x : Prop :=
    match fw_of (o_type x) with
    | Some f => exists c, In c (flat_map classes einops_backends) /\ c_name c = class_name f /\ In (c_framework c) ms
    | None => True
    end.
  (** sizes are keyword arguments; callables can be hashed; torch layers get
      tensors of torch, other layers other tensors *)
  Definition proper (q : request A) (ms : list pystr) (ls : layers) : Prop :=
    match q with
    | DoReduce x _ red id sizes => NoDup (map fst sizes) /\ opkey_of red id <> None /\ forall t, first_of x = Some t -> present ms t
    | DoParseShape x _ | DoDirections x | DoAsNumpy x | DoUnpack x _ _ => present ms x
    | DoEinsum args => forall x, In (inl x) args -> present ms x
    | DoPack ts _ => forall x, In x ts -> present ms x
    | DoArrayApi _ c => call_ok c
    | MakeRearrange _ _ sizes => NoDup (map fst sizes)
    | MakeReduce _ _ red id sizes => NoDup (map fst sizes) /\ opkey_of red id <> None
    | UseLayer k x => present ms x /\ forall torch L, nth_error ls k = Some (torch, L) -> (torch = true <-> fw_of (o_type x) = Some Torch)
    end.
  Definition proper_happening (h : happening A) (ms : list pystr) (ls : layers) : Prop :=
    match h with Request o q => orders_ok o /\ proper q ms ls | _ => True end.
  Fixpoint proper_program (p : program A) (ms : list pystr) (ls : layers) : Prop :=
    match p with
    | Stop => True
    | Then h next => proper_happening h ms ls /\ let '(a, ms, ls) := answer_for h ms ls in proper_program (next a) ms ls
    end.

  (** the libraries: one per framework, for the interpreter's character database *)
  Definition libraries_ok : Prop := unicode_ok U /\ forall f, rt_framework (library f) = f /\ rt_unicode (library f) = U.
End Answers.

(** things that happen one after another, and then a request *)
Definition history {A} (hs : list (happening A)) (o : orders) (q : request A) : program A :=
  fold_right (fun h p => Then h (fun _ => p)) (Then (Request o q) (fun _ => Stop)) hs.
Definition uses_layer {A} (q : request A) : bool := match q with UseLayer _ _ => true | _ => false end.
