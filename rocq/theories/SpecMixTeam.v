(** * Specification: EinMix layers in several threads

    Part of the specification: a program alone, with EinMix of EinMix.v (C31). *)
From Verif Require Import Py Tensor Parsing Recipe Ops Backends Api Packing Einsum Registry SpecGrammar SpecRegistry Cache Layers EinMix Session SpecSession MixSession Threads SpecThreads Crowd SpecCrowd
  Team SpecTeam MixTeam.

Section Alone.
  Context {A R : Type} (U : unicode) (fw_of : nat -> option framework) (library : framework -> runtime A).
  Context (lib_einsum : framework -> pystr -> list (tensor A) -> result (tensor A)) (iadd : framework -> tensor A -> tensor A -> result (tensor A)) (after : nat -> nat).
  Notation right := (right U library lib_einsum fw_of).
  Notation layer_by := (layer_by U library lib_einsum fw_of).
  Notation mixes := (list (framework * einmix (tensor A))).
  Implicit Types (p : mix_script A R) (calls : list (orders * request A)) (Ms : mixes).

  Definition shapes_of (M : einmix (tensor A)) : list Z * option (list Z) * Z := (em_weight M, em_bias M, em_fan_in M).
  Definition mix_call Ms (o : orders) (k : nat) (weight : tensor A) (bias : option (tensor A)) (x : object A) : result (tensor A) :=
    match nth_error Ms k with
    | Some (f, M) => call_einmix (rtm library f o) (lib_einsum f) (iadd f) M weight bias (o_data x)
    | None => Err IndexError
    end.
  (** the result of the program; [calls]: the calls it makes itself, [Ms]: its EinMix layers *)
  Fixpoint mix_alone calls Ms p : R :=
    match p with
    | MixOver r => r
    | MixCalling o q next => mix_alone (calls ++ [(o, q)]) Ms (next (right calls o q))
    | MixMaking o o' f pattern weight_shape bias_shape sizes next =>
        match EinMix U (fun _ => o) (fun _ => o') pattern weight_shape bias_shape sizes with
        | Ok M => mix_alone calls (Ms ++ [(f, M)]) (next (Ok (shapes_of M)))
        | Err e => mix_alone calls Ms (next (Err e))
        end
    | MixUsing o o' k weight bias x next => mix_alone calls Ms (next (mix_call Ms o k weight bias x))
    end.
  (** how many calls of einops it makes at most: EinMix makes and calls two layers at most *)
  Fixpoint mix_calls calls Ms p : nat :=
    match p with
    | MixOver r => 0
    | MixCalling o q next => S (mix_calls (calls ++ [(o, q)]) Ms (next (right calls o q)))
    | MixMaking o o' f pattern weight_shape bias_shape sizes next => 2 +
        match EinMix U (fun _ => o) (fun _ => o') pattern weight_shape bias_shape sizes with
        | Ok M => mix_calls calls (Ms ++ [(f, M)]) (next (Ok (shapes_of M)))
        | Err e => mix_calls calls Ms (next (Err e))
        end
    | MixUsing o o' k weight bias x next => 2 + mix_calls calls Ms (next (mix_call Ms o k weight bias x))
    end.
  (** as well_behaved; an EinMix is called with a tensor of its framework *)
  Fixpoint mix_behaved (warm : object A -> Prop) calls Ms p : Prop :=
    match p with
    | MixOver r => True
    | MixCalling o q next =>
        match q with UseLayer k _ => layer_by calls k <> [] | _ => True end /\ suitable U library lib_einsum fw_of calls q /\
        (forall x, asks U library lib_einsum calls q = Some x -> warm x) /\ mix_behaved warm (calls ++ [(o, q)]) Ms (next (right calls o q))
    | MixMaking o o' f pattern weight_shape bias_shape sizes next =>
        match EinMix U (fun _ => o) (fun _ => o') pattern weight_shape bias_shape sizes with
        | Ok M => mix_behaved warm calls (Ms ++ [(f, M)]) (next (Ok (shapes_of M)))
        | Err e => mix_behaved warm calls Ms (next (Err e))
        end
    | MixUsing o o' k weight bias x next =>
        (forall f M, nth_error Ms k = Some (f, M) -> fw_of (o_type x) = Some f) /\ warm x /\ (forall y, warm {| o_type := after (o_type x); o_data := y |}) /\
        mix_behaved warm calls Ms (next (mix_call Ms o k weight bias x))
    end.
  Fixpoint mix_decent p : Prop :=
    match p with
    | MixOver r => True
    | MixCalling o q next => orders_ok o /\ decent q /\ forall a, mix_decent (next a)
    | MixMaking o o' f _ _ _ sizes next => orders_ok o /\ orders_ok o' /\ NoDup (map fst sizes) /\ forall v, mix_decent (next v)
    | MixUsing o o' _ _ _ _ next => orders_ok o /\ orders_ok o' /\ forall v, mix_decent (next v)
    end.
  (** EinMix layers that a thread gets when it starts: their inner layers are those made
      by the calls with these numbers *)
  Definition inner_by calls (f : framework) (i : option nat) (L : option (layer (tensor A))) : Prop :=
    match i, L with Some k, Some L => layer_by calls k = [(is_torch f, L)] | None, None => True | _, _ => False end.
  Definition mix_by calls (s : stored_mix) (l : framework * einmix (tensor A)) : Prop :=
    sm_framework s = fst l /\ sm_einsum s = em_einsum (snd l) /\ inner_by calls (fst l) (sm_pre s) (em_pre (snd l)) /\ inner_by calls (fst l) (sm_post s) (em_post (snd l)).
  (** the calls [own] of [calls] *)
  Definition chosen calls (own : list nat) (plain : list (orders * request A)) : Prop := Forall2 (fun i c => nth_error calls i = Some c) own plain.
End Alone.
