(** * EinMix in a Python process

    Session.v with the layers EinMix of torch, tensorflow, paddle and oneflow.  They
    make their Rearrange layers in the same process; the numbers of all layers are
    those of Session.v, [mp_own] are the ones that the program made itself. *)
From Verif Require Import Py Tensor Parsing Recipe Ops Backends Api Packing Einsum Registry Cache Layers EinMix Session.

Record stored_mix := { sm_framework : framework; sm_pre : option nat; sm_post : option nat; sm_einsum : pystr }.
Record mix_process (A : Type) := { mp_process : process A; mp_own : list nat; mp_mixes : list stored_mix }.
Arguments mp_process {A}. Arguments mp_own {A}. Arguments mp_mixes {A}.
Definition new_mix_process {A} : mix_process A := {| mp_process := new_process; mp_own := []; mp_mixes := [] |}.

(** the parameters are what they are when the layer is called.  [o], [o']: iteration
    orders of sets for the first and the second inner layer *)
Inductive mix_happening (A : Type) :=
| Plainly (h : happening A)
| MakeMix (o o' : orders) (f : framework) (pattern weight_shape : pystr) (bias_shape : option pystr) (sizes : list (pystr * Z))
| UseMix (o o' : orders) (k : nat) (weight : tensor A) (bias : option (tensor A)) (x : object A).
Arguments Plainly {A}. Arguments MakeMix {A}. Arguments UseMix {A}.
(** the shapes of the parameters, and the number under the root in their bounds *)
Inductive mix_answer (A : Type) :=
| GotAnswer (a : answer A)
| GotMix (v : result (list Z * option (list Z) * Z))
| GotTensor (v : result (tensor A)).
Arguments GotAnswer {A}. Arguments GotMix {A}. Arguments GotTensor {A}.
Inductive mix_program (A : Type) :=
| MixStop
| MixThen (h : mix_happening A) (next : mix_answer A -> mix_program A).
Arguments MixStop {A}. Arguments MixThen {A}.

Section Process.
  Context {A : Type} (lim : limits) (U : unicode) (fw_of : nat -> option framework).
  Context (build : nat -> bclass -> list pystr -> option exn * list pystr) (library : framework -> runtime A).
  Context (lib_einsum : framework -> pystr -> list (tensor A) -> result (tensor A)).
  Context (iadd : framework -> tensor A -> tensor A -> result (tensor A)).
  (** the type of a library's result *)
  Context (after : nat -> nat).
  Implicit Types (o : orders) (st : process A) (mp : mix_process A).

  Definition is_torch (f : framework) : bool := match f with Torch => true | _ => false end.
  (** torch.py:51-57, tensorflow.py:62-68, paddle.py:41-47, oneflow.py:38-44; the number of the layer *)
  Definition make_inner o f (pattern : option (pystr * list (pystr * Z))) st : result (option nat) * process A :=
    match pattern with
    | None => (Ok None, st)
    | Some (p, lengths) =>
        match do_make lim U o (is_torch f) [lit "self"; lit "pattern"] p (RStr s_rearrange) None lengths st with
        | (Ok _, st') => (Ok (Some (length (pr_layers st))), st')
        | (Err e, st') => (Err e, st')
        end
    end.
  (** _einmix.py:110-187, after the layers are made *)
  Definition finish_mix (lft rght weight : parsed) (next : nat) (bias_shape : option pystr) (sizes : list (pystr * Z)) : result (list Z * option (list Z) * Z * pystr) :=
    let* _ := einmix_check lft rght weight sizes in
    let* wl := weight_lengths weight sizes in
    let* fi := fan_in rght weight sizes in
    let* bl := bias_lengths U rght next bias_shape sizes in
    let* _ := raise_if (fi =? 0)%Z ZeroDivisionError in
    let* text := einsum_text lft rght weight in
    Ok (wl, bl, fi, text).
  (** _einmix.py:16-187 *)
  Definition do_make_mix o o' f (pattern weight_shape : pystr) (bias_shape : option pystr) (sizes : list (pystr * Z)) mp
      : result (list Z * option (list Z) * Z) * mix_process A :=
    let at_ st := {| mp_process := st; mp_own := mp_own mp; mp_mixes := mp_mixes mp |} in
    match check_kwargs [lit "self"; lit "pattern"; lit "weight_shape"; lit "bias_shape"] sizes with
    | Err e => (Err e, mp)
    | Ok _ =>
        match einmix_parse U pattern weight_shape with
        | Err e => (Err e, mp)
        | Ok (left_pattern, right_pattern, lft, rght, weight, next) =>
            match make_inner o f (pre_reshape left_pattern lft sizes) (mp_process mp) with
            | (Err e, st) => (Err e, at_ st)
            | (Ok pre, st) =>
                match make_inner o' f (match post_reshape right_pattern rght with Some p => Some (p, []) | None => None end) st with
                | (Err e, st) => (Err e, at_ st)
                | (Ok post, st) =>
                    match finish_mix lft rght weight next bias_shape sizes with
                    | Err e => (Err e, at_ st)
                    | Ok (wl, bl, fi, text) =>
                        (Ok (wl, bl, fi), {| mp_process := st; mp_own := mp_own mp;
                          mp_mixes := mp_mixes mp ++ [{| sm_framework := f; sm_pre := pre; sm_post := post; sm_einsum := text |}] |})
                    end
                end
            end
        end
    end.
  Definition use_inner o (L : option nat) (x : object A) st : result (tensor A) * process A :=
    match L with None => (Ok (o_data x), st) | Some k => do_use lim fw_of build library o k x st end.
  (** torch.py:59-67, tensorflow.py:87-95, paddle.py:49-58, oneflow.py:46-54 *)
  Definition do_use_mix o o' (k : nat) (weight : tensor A) (bias : option (tensor A)) (x : object A) mp : result (tensor A) * mix_process A :=
    let at_ st := {| mp_process := st; mp_own := mp_own mp; mp_mixes := mp_mixes mp |} in
    match nth_error (mp_mixes mp) k with
    | None => (Err IndexError, mp)
    | Some M =>
        let f := sm_framework M in
        match use_inner o (sm_pre M) x (mp_process mp) with
        | (Err e, st) => (Err e, at_ st)
        | (Ok input, st) =>
            match (let* result := lib_einsum f (sm_einsum M) [input; weight] in
                   match bias with Some b => iadd f result b | None => Ok result end) with
            | Err e => (Err e, at_ st)
            | Ok result => let '(v, st) := use_inner o' (sm_post M) {| o_type := after (o_type x); o_data := result |} st in (v, at_ st)
            end
        end
    end.
  (** a program names its own layers only *)
  Definition own_request mp (q : request A) : request A :=
    match q with UseLayer k x => UseLayer (nth k (mp_own mp) (length (pr_layers (mp_process mp)))) x | _ => q end.
  Definition own_happening mp (h : happening A) : happening A := match h with Request o q => Request o (own_request mp q) | _ => h end.
  Definition mix_happen (h : mix_happening A) mp : mix_answer A * mix_process A :=
    match h with
    | Plainly h =>
        let '(a, st) := happen lim U fw_of build library lib_einsum (own_happening mp h) (mp_process mp) in
        (GotAnswer a, {| mp_process := st; mp_mixes := mp_mixes mp;
          mp_own := match a with GotLayer (Ok _) => mp_own mp ++ [length (pr_layers (mp_process mp))] | _ => mp_own mp end |})
    | MakeMix o o' f pattern weight_shape bias_shape sizes => let '(v, mp) := do_make_mix o o' f pattern weight_shape bias_shape sizes mp in (GotMix v, mp)
    | UseMix o o' k weight bias x => let '(v, mp) := do_use_mix o o' k weight bias x mp in (GotTensor v, mp)
    end.
  Fixpoint run_mix (p : mix_program A) mp : list (mix_answer A) :=
    match p with
    | MixStop => []
    | MixThen h next => let '(a, mp) := mix_happen h mp in a :: run_mix (next a) mp
    end.
End Process.
