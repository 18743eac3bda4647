(** * Specification: what a process with EinMix layers has to answer

    Part of the specification.  No registry, no caches: EinMix of EinMix.v, whose
    meaning is C31. *)
From Verif Require Import Py Tensor Parsing Recipe Ops Backends Api Packing Einsum Registry SpecGrammar SpecRegistry Cache Layers EinMix Session SpecSession MixSession.

Section Answers.
  Context {A : Type} (U : unicode) (fw_of : nat -> option framework) (library : framework -> runtime A).
  Context (lib_einsum : framework -> pystr -> list (tensor A) -> result (tensor A)) (iadd : framework -> tensor A -> tensor A -> result (tensor A)).
  Notation layers := (list (bool * layer (tensor A))).
  Notation mixes := (list (framework * einmix (tensor A))).

  Definition mix_answer_for (h : mix_happening A) (ms : list pystr) (ls : layers) (Ms : mixes) : mix_answer A * list pystr * layers * mixes :=
    match h with
    | Plainly h => let '(a, ms, ls) := answer_for U fw_of library lib_einsum h ms ls in (GotAnswer a, ms, ls, Ms)
    | MakeMix o o' f pattern weight_shape bias_shape sizes =>
        match EinMix U (fun _ => o) (fun _ => o') pattern weight_shape bias_shape sizes with
        | Ok M => (GotMix (Ok (em_weight M, em_bias M, em_fan_in M)), ms, ls, Ms ++ [(f, M)])
        | Err e => (GotMix (Err e), ms, ls, Ms)
        end
    | UseMix o _ k weight bias x =>
        (GotTensor (match nth_error Ms k with
           | Some (f, M) => call_einmix (rtm library f o) (lib_einsum f) (iadd f) M weight bias (o_data x)
           | None => Err IndexError
           end), ms, ls, Ms)
    end.
  Fixpoint right_mix (p : mix_program A) (ms : list pystr) (ls : layers) (Ms : mixes) : list (mix_answer A) :=
    match p with
    | MixStop => []
    | MixThen h next => let '(a, ms, ls, Ms) := mix_answer_for h ms ls Ms in a :: right_mix (next a) ms ls Ms
    end.

  (** the frameworks with a class EinMix whose layers are made once; flax: C58 *)
  Definition mix_frameworks : list framework := [Torch; Tensorflow; Paddle; Oneflow].
  (** sizes are keyword arguments; a layer is called with a tensor of its framework *)
  Definition proper_mix (h : mix_happening A) (ms : list pystr) (ls : layers) (Ms : mixes) : Prop :=
    match h with
    | Plainly h => proper_happening fw_of h ms ls
    | MakeMix o o' f _ _ _ sizes => orders_ok o /\ orders_ok o' /\ In f mix_frameworks /\ NoDup (map fst sizes)
    | UseMix o o' k _ _ x => orders_ok o /\ orders_ok o' /\ present fw_of ms x /\ forall f M, nth_error Ms k = Some (f, M) -> fw_of (o_type x) = Some f
    end.
  Fixpoint proper_mix_program (p : mix_program A) (ms : list pystr) (ls : layers) (Ms : mixes) : Prop :=
    match p with
    | MixStop => True
    | MixThen h next => proper_mix h ms ls Ms /\ let '(a, ms, ls, Ms) := mix_answer_for h ms ls Ms in proper_mix_program (next a) ms ls Ms
    end.
  (** a library's results are tensors of the library *)
  Definition types_stay (after : nat -> nat) : Prop := forall t, fw_of (after t) = fw_of t.
End Answers.

(** a layer is made first, then things happen, then it is called *)
Definition mix_history {A} (make : mix_happening A) (hs : list (mix_happening A)) (use : mix_happening A) : mix_program A :=
  MixThen make (fun _ => fold_right (fun h p => MixThen h (fun _ => p)) (MixThen use (fun _ => MixStop)) hs).
