(** * Model of einops/_torch_specific.py:102-128: the functions are made known to torch.compile

    When the module is imported, by the constructor of TorchBackend (_backends.py:217-222)
    or by einops/layers/torch.py:7, it runs [allow_ops_in_compiled_graph]; anyone
    may call this function again. *)
From Verif Require Import Py Registry.

(** [from torch._dynamo import allow_in_graph] *)
Inductive dynamo_import := Present | Absent (* ImportError *) | Broken (e : exn).
(** what torch and the filters of [warnings] are like at a moment *)
Record torch_world := {
  tw_version : option pystr;          (* torch.__version__, if there is one *)
  tw_dynamo : dynamo_import;
  tw_warning : option exn;            (* raised by [warnings.warn] when filters say so *)
  tw_allow : pystr -> option exn }.   (* raised by [allow_in_graph] *)

(** what a call did: functions given to [allow_in_graph], ImportWarning, the global
    [_ops_were_registered_in_torchdynamo], exception *)
Record effect := { ef_allowed : list pystr; ef_warned : bool; ef_flag : bool; ef_raised : option exn }.

Fixpoint allow_each (allow : pystr -> option exn) (names : list pystr) : list pystr * option exn :=
  match names with
  | [] => ([], None)
  | f :: names =>
      match allow f with
      | Some e => ([], Some e)
      | None => let '(done, e) := allow_each allow names in (f :: done, e)
      end
  end.

(** _torch_specific.py:102-124.  [torch.__version__[0] < "2"] compares code points; lines 112-113
    import modules of einops that are imported already *)
Definition allow_ops (w : torch_world) : effect :=
  match match tw_version w with None => Ok false | Some [] => Err IndexError | Some (c :: _) => Ok (c <? 50)%N end with   (* 103 *)
  | Err e => {| ef_allowed := []; ef_warned := false; ef_flag := false; ef_raised := Some e |}
  | Ok true => {| ef_allowed := []; ef_warned := false; ef_flag := false; ef_raised := None |}                            (* 105 *)
  | Ok false =>
      match tw_dynamo w with                                                                                              (* 106-110 *)
      | Broken e => {| ef_allowed := []; ef_warned := false; ef_flag := false; ef_raised := Some e |}
      | Absent => {| ef_allowed := []; ef_warned := true; ef_flag := false; ef_raised := tw_warning w |}
      | Present =>                                                                                                        (* 115-124 *)
          let '(done, e) := allow_each (tw_allow w) [lit "rearrange"; lit "reduce"; lit "repeat"; lit "einsum"; lit "pack"; lit "unpack"] in
          {| ef_allowed := done; ef_warned := false; ef_flag := match e with None => true | Some _ => false end; ef_raised := e |}
      end
  end.

Definition torch_specific : pystr := lit "einops._torch_specific".
Definition is_torch (c : bclass) : bool := str_eqb (c_name c) (lit "TorchBackend").
(** [sys.modules] where other modules have come and gone *)
Definition with_others (ms ms' : list pystr) : list pystr :=
  filter (fun m => negb (str_eqb m torch_specific)) ms' ++ (if str_mem torch_specific ms then [torch_specific] else []).

(** a process: the registry of Registry.v, and what the calls of [allow_ops_in_compiled_graph]
    did, [true] for those of an import *)
Record process := { p_reg : registry; p_effects : list (bool * effect) }.
Definition new_process : process := {| p_reg := fresh_registry; p_effects := [] |}.
Definition with_modules (ms : list pystr) (st : registry) : registry :=
  {| loaded := loaded st; by_type := by_type st; modules := ms; clock := clock st; attempts := attempts st |}.

Section Process.
  Context {T : Type} (type_of : T -> nat) (accepts : bclass -> T -> bool).
  (** the [k]th constructor called: [import torch] (_backends.py:218), the world it meets,
      and what the other classes do *)
  Context (import_torch : nat -> option exn) (world : nat -> torch_world) (others : nat -> bclass -> list pystr -> option exn * list pystr).

  (** _backends.py:217-222; a module whose body raised is taken out of [sys.modules] again *)
  Definition build (k : nat) (c : bclass) (ms : list pystr) : option exn * list pystr :=
    if is_torch c then
      match import_torch k with
      | Some e => (Some e, ms)
      | None =>
          if str_mem torch_specific ms then (None, ms)
          else match ef_raised (allow_ops (world k)) with
               | Some e => (Some e, ms)
               | None => (None, ms ++ [torch_specific])
               end
      end
    else let '(e, ms') := others k c ms in (e, with_others ms ms').
  Definition build_effects (k : nat) (a : attempt) : list (bool * effect) :=
    if is_torch (at_class a) && negb (str_mem torch_specific (at_modules a)) then
      match import_torch k with Some _ => [] | None => [(true, allow_ops (world k))] end
    else [].

  Definition ask (roots : list ctree) (x : T) (p : process) : process * result instance :=
    let '(st, res) := get_backend type_of accepts build roots x (p_reg p) in
    ({| p_reg := st;
        p_effects := p_effects p ++ flat_map (fun '(k, a) => build_effects k a)
                       (enumerate_from (clock (p_reg p)) (skipn (length (attempts (p_reg p))) (attempts st))) |}, res).

  Inductive occurrence :=
  | Others (ms : list pystr)               (* other modules are imported or unloaded *)
  | Ask (roots : list ctree) (x : T)       (* get_backend *)
  | Import (w : torch_world)               (* import einops.layers.torch, or einops._torch_specific *)
  | Call (w : torch_world).                (* allow_ops_in_compiled_graph() *)
  Definition occur (p : process) (o : occurrence) : process :=
    match o with
    | Others ms => {| p_reg := with_modules (with_others (modules (p_reg p)) ms) (p_reg p); p_effects := p_effects p |}
    | Ask roots x => fst (ask roots x p)
    | Import w =>
        if str_mem torch_specific (modules (p_reg p)) then p
        else {| p_reg := match ef_raised (allow_ops w) with
                         | None => with_modules (modules (p_reg p) ++ [torch_specific]) (p_reg p)
                         | Some _ => p_reg p
                         end;
                p_effects := p_effects p ++ [(true, allow_ops w)] |}
    | Call w =>
        if str_mem torch_specific (modules (p_reg p)) then {| p_reg := p_reg p; p_effects := p_effects p ++ [(false, allow_ops w)] |}
        else p
    end.
  Definition after (h : list occurrence) : process := fold_left occur h new_process.
End Process.
Arguments Others {T}. Arguments Ask {T}. Arguments Import {T}. Arguments Call {T}.
