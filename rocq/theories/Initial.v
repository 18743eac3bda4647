(** * Model of the creation of EinMix parameters

    The method [_create_parameters] of the layers and, for tensorflow, [build].  The
    random numbers come from the library ([draw]); float rounding of the bounds is left
    out.  tensorflow makes the parameters when the layer is first called (keras calls
    [build] once, and marks the layer as built when [build] has returned), the others in
    the constructor.  flax makes them in [init] and hands them to every call: see Flax.v. *)
From Coq Require Import QArith.
From Verif Require Import Py Tensor Parsing Recipe Ops Backends Api Layers EinMix Flax SpecInitial.

Inductive layer_library := InTorch | InTensorflow | InFlax | InPaddle | InOneflow.

(** _einmix.py:160-161: [(3 / _fan_in) ** 0.5] and [(1 / _fan_in) ** 0.5] *)
Definition weight_bound (fan_in : Z) : bound := mkBound 1 (inject_Z 3 / inject_Z fan_in).
Definition bias_bound (fan_in : Z) : bound := mkBound 1 (inject_Z 1 / inject_Z fan_in).

(** one parameter: torch.py:34-36, 38-40 and oneflow.py:23-25, 27 [zeros(shape).uniform_(-bound, bound)];
    tensorflow.py:72-76, 79-83 [random_uniform_initializer(-bound, bound)]; paddle.py:23-25, 28-30
    [Uniform(-bound, bound)]; flax.py:52, 55 [jax.nn.initializers.uniform(bound)], which draws
    from 0 to the bound *)
Definition parameter (lib : layer_library) (shape : list Z) (b : bound) : request :=
  match lib with
  | InTorch | InTensorflow | InPaddle | InOneflow => mkRequest shape (opposite b) b
  | InFlax => mkRequest shape nought b
  end.

(** torch.py:33-42, tensorflow.py:50-53 with 70-85, flax.py:51-57, paddle.py:22-32, oneflow.py:22-29 *)
Definition create_parameters (lib : layer_library) (weight_shape : list Z) (bias_shape : option (list Z)) (fan_in : Z) : request * option request :=
  (parameter lib weight_shape (weight_bound fan_in),
   match bias_shape with Some s => Some (parameter lib s (bias_bound fan_in)) | None => None end).
Definition mix_requests {T} (lib : layer_library) (M : einmix T) : request * option request := create_parameters lib (em_weight M) (em_bias M) (em_fan_in M).
Definition flax_requests (F : flax_mix) : request * option request := create_parameters InFlax (fm_weight F) (fm_bias F) (fm_fan_in F).

Section Calls.
  Context (draw : nat -> request -> result (tensor Q)) (r : runtime Q)
    (lib_einsum : pystr -> list (tensor Q) -> result (tensor Q)) (iadd : tensor Q -> tensor Q -> result (tensor Q)).

  (** weight first, then bias; also the number of draws made so far *)
  Definition make_parameters (n : nat) (qs : request * option request) : result (tensor Q * option (tensor Q)) * nat :=
    match draw n (fst qs) with
    | Err e => (Err e, S n)
    | Ok w =>
        match snd qs with
        | None => (Ok (w, None), S n)
        | Some q => match draw (S n) q with Err e => (Err e, S (S n)) | Ok b => (Ok (w, Some b), S (S n)) end
        end
    end.

  (** a layer object: the parameters, if they have been made *)
  Record mix_object := mkObject { mx_layer : einmix (tensor Q); mx_params : option (tensor Q * option (tensor Q)); mx_drawn : nat }.
  (** [__init__]; [n] draws were made before *)
  Definition new_object (lib : layer_library) (M : einmix (tensor Q)) (n : nat) : result mix_object :=
    match lib with
    | InTensorflow => Ok (mkObject M None n)
    | _ => let* ps := fst (make_parameters n (mix_requests lib M)) in Ok (mkObject M (Some ps) (snd (make_parameters n (mix_requests lib M))))
    end.
  (** a call; what it returns and the object afterwards *)
  Definition call_object (lib : layer_library) (o : mix_object) (x : tensor Q) : result (tensor Q) * mix_object :=
    match mx_params o with
    | Some (w, b) => (call_einmix r lib_einsum iadd (mx_layer o) w b x, o)
    | None =>
        match make_parameters (mx_drawn o) (mix_requests lib (mx_layer o)) with
        | (Ok (w, b), n) => (call_einmix r lib_einsum iadd (mx_layer o) w b x, mkObject (mx_layer o) (Some (w, b)) n)
        | (Err e, n) => (Err e, mkObject (mx_layer o) None n)
        end
    end.
  Fixpoint call_objects (lib : layer_library) (o : mix_object) (xs : list (tensor Q)) : list (result (tensor Q)) * mix_object :=
    match xs with
    | [] => ([], o)
    | x :: xs => let (y, o) := call_object lib o x in let (ys, o) := call_objects lib o xs in (y :: ys, o)
    end.
End Calls.
