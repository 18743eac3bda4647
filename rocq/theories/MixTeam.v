(** * EinMix layers in several threads

    Programs of Team.v that also make and call layers EinMix of torch, tensorflow,
    paddle and oneflow.  An EinMix makes its Rearrange layers with calls of its own
    and calls them; what it does is MixSession.v's, as a program. *)
From Verif Require Import Py Tensor Parsing Recipe Ops Backends Api Packing Einsum Registry Cache Layers EinMix Session MixSession Threads CacheThreads Crowd Team.

Inductive mix_script (A R : Type) :=
| MixOver (r : R)
| MixCalling (o : orders) (q : request A) (next : answer A -> mix_script A R)
| MixMaking (o o' : orders) (f : framework) (pattern weight_shape : pystr) (bias_shape : option pystr) (sizes : list (pystr * Z))
    (next : result (list Z * option (list Z) * Z) -> mix_script A R)
| MixUsing (o o' : orders) (k : nat) (weight : tensor A) (bias : option (tensor A)) (x : object A) (next : result (tensor A) -> mix_script A R).
Arguments MixOver {A R}. Arguments MixCalling {A R}. Arguments MixMaking {A R}. Arguments MixUsing {A R}.

Section Scripts.
  Context {A R : Type} (U : unicode).
  Context (lib_einsum : framework -> pystr -> list (tensor A) -> result (tensor A)).
  Context (iadd : framework -> tensor A -> tensor A -> result (tensor A)) (after : nat -> nat).
  Notation script := (script A R).

  (** [n]: the number of the thread's next call.  As make_inner, use_inner of MixSession.v *)
  Definition making_inner (o : orders) (f : framework) (pattern : option (pystr * list (pystr * Z))) (n : nat) (next : result (option nat) -> nat -> script) : script :=
    match pattern with
    | None => next (Ok None) n
    | Some (p, lengths) => Calling o (MakeRearrange (is_torch f) p lengths) (fun a =>
        next (match a with GotLayer (Ok _) => Ok (Some n) | GotLayer (Err e) => Err e | _ => Err RuntimeError end) (S n))
    end.
  Definition using_inner (o : orders) (L : option nat) (x : object A) (n : nat) (next : result (tensor A) -> nat -> script) : script :=
    match L with
    | None => next (Ok (o_data x)) n
    | Some k => Calling o (UseLayer k x) (fun a => next (match a with GotOutcome (OutTensor v) => v | _ => Err RuntimeError end) (S n))
    end.
  (** _einmix.py:16-187, as do_make_mix *)
  Definition making_mix (o o' : orders) (f : framework) (pattern weight_shape : pystr) (bias_shape : option pystr) (sizes : list (pystr * Z)) (n : nat)
      (next : result (list Z * option (list Z) * Z * stored_mix) -> nat -> script) : script :=
    match (let* _ := check_kwargs [lit "self"; lit "pattern"; lit "weight_shape"; lit "bias_shape"] sizes in einmix_parse U pattern weight_shape) with
    | Err e => next (Err e) n
    | Ok (left_pattern, right_pattern, lft, rght, weight, free) =>
        making_inner o f (pre_reshape left_pattern lft sizes) n (fun pre n =>
          match pre with
          | Err e => next (Err e) n
          | Ok pre =>
              making_inner o' f (match post_reshape right_pattern rght with Some p => Some (p, []) | None => None end) n (fun post n =>
                next (let* post := post in
                      let* d := finish_mix U lft rght weight free bias_shape sizes in
                      let '(wl, bl, fi, text) := d in Ok (wl, bl, fi, {| sm_framework := f; sm_pre := pre; sm_post := post; sm_einsum := text |})) n)
          end)
    end.
  (** torch.py:59-67, tensorflow.py:87-95, paddle.py:49-58, oneflow.py:46-54, as do_use_mix *)
  Definition using_mix (o o' : orders) (M : stored_mix) (weight : tensor A) (bias : option (tensor A)) (x : object A) (n : nat) (next : result (tensor A) -> nat -> script) : script :=
    using_inner o (sm_pre M) x n (fun input n =>
      match (let* input := input in
             let* result := lib_einsum (sm_framework M) (sm_einsum M) [input; weight] in
             match bias with Some b => iadd (sm_framework M) result b | None => Ok result end) with
      | Err e => next (Err e) n
      | Ok result => using_inner o' (sm_post M) {| o_type := after (o_type x); o_data := result |} n next
      end).
  (** [own]: the numbers of the program's own calls, [mixes]: its EinMix layers *)
  Fixpoint compiled (p : mix_script A R) (n : nat) (own : list nat) (mixes : list stored_mix) : script :=
    match p with
    | MixOver r => Over r
    | MixCalling o q next =>
        Calling o (match q with UseLayer k x => UseLayer (nth k own n) x | _ => q end) (fun a => compiled (next a) (S n) (own ++ [n]) mixes)
    | MixMaking o o' f pattern weight_shape bias_shape sizes next =>
        making_mix o o' f pattern weight_shape bias_shape sizes n (fun r n =>
          match r with
          | Ok (v, M) => compiled (next (Ok v)) n own (mixes ++ [M])
          | Err e => compiled (next (Err e)) n own mixes
          end)
    | MixUsing o o' k weight bias x next =>
        match nth_error mixes k with
        | Some M => using_mix o o' M weight bias x n (fun v n => compiled (next v) n own mixes)
        | None => compiled (next (Err IndexError)) n own mixes
        end
    end.
End Scripts.
