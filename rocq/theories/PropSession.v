(** * A whole process *)
From Verif Require Import Py Tensor Parsing Recipe Ops Backends Api Packing Einsum Registry SpecGrammar SpecRegistry Cache Layers Session SpecSession SessionFacts Instances.

(** ** C74: a user program calls any functions and layers of einops in any order,
    what it does next may depend on the answers; modules are imported and caches
    cleared in between, sets iterate in another order each time.  The registry of
    backends and the caches are shared by all calls, layers keep recipes from the
    caches.  All answers (results and errors) are those of the functions without
    registry and caches, for the library the tensor belongs to. *)
Theorem C74_session : forall {A} (lim : limits) (U : unicode) (fw_of : nat -> option framework) build (library : framework -> runtime A) lib_einsum (p : program A),
  honest build -> libraries_ok U library -> proper_program U fw_of library lib_einsum p [] [] ->
  run_program lim U fw_of build library lib_einsum p new_process = right_answers U fw_of library lib_einsum p [] [].
Proof. exact @session_right. Qed.
Print Assumptions C74_session.

(** Calls have no memory: the last request gets the same answer after any two
    histories (one of them may be empty but for imports). *)
Theorem C74_no_memory : forall {A} (lim : limits) (U : unicode) (fw_of : nat -> option framework) build (library : framework -> runtime A) lib_einsum,
  honest build -> libraries_ok U library -> forall hs o hs' o' q, uses_layer q = false ->
  proper_program U fw_of library lib_einsum (history hs o q) [] [] -> proper_program U fw_of library lib_einsum (history hs' o' q) [] [] ->
  last (run_program lim U fw_of build library lib_einsum (history hs o q) new_process) GotNothing =
  last (run_program lim U fw_of build library lib_einsum (history hs' o' q) new_process) GotNothing.
Proof. exact @no_memory. Qed.
Print Assumptions C74_no_memory.

(** a tensor of an imported framework gets the backend of its framework, whatever
    happened before (the step all calls share); anything else is refused *)
Theorem C74_backend : forall {A} (fw_of : nat -> option framework) build (es : list (event (T := object A))) (x : object A) (st : process A),
  honest build -> pr_registry st = run o_type (accepts fw_of) build es fresh_registry ->
  (forall roots y, In (Get roots y) es -> roots = einops_backends) -> present fw_of (modules (pr_registry st)) x ->
  fst (backend_for fw_of build x st) = match fw_of (o_type x) with Some f => Ok f | None => Err RuntimeError end.
Proof. exact @backend_right. Qed.
Print Assumptions C74_backend.

(** ** Cases *)
(** arrays of numpy have type 0, tensors of torch 1; 2 is the type of something else *)
Definition ex_types (t : nat) : option framework := match t with 0 => Some Numpy | 1 => Some Torch | _ => None end.
Definition ex_build (n : nat) (c : bclass) (ms : list pystr) : option exn * list pystr := (None, lit "json" :: ms).
Definition ex_einsum (f : framework) (p : pystr) (ts : list (tensor Z)) : result (tensor Z) := of_option BackendError (hd_error ts).
Definition obj (t : nat) (x : tensor Z) : object Z := {| o_type := t; o_data := x |}.
Definition re (t : nat) s p sizes : request Z := DoReduce (One (obj t (iota s))) p (RStr s_rearrange) None sizes.
Definition ex_program : program Z :=
  Then (Imports [lit "numpy"; lit "torch"]) (fun _ =>
  Then (Request forward (re 0 [6] (lit "(a b) -> b a") [(lit "a", 2%Z)])) (fun _ =>
  Then (Request forward (MakeRearrange true (lit "(a b) ... -> ... b a") [(lit "a", 2%Z)])) (fun _ =>
  Then (Clear true true true true) (fun _ =>
  Then (Request backward (UseLayer 0 (obj 1 (iota [6])))) (fun _ =>
  Then (Request backward (re 2 [6] (lit "(a b) -> b a") [(lit "a", 2%Z)])) (fun a =>
  match a with
  | GotOutcome (OutTensor (Err RuntimeError)) => Then (Request forward (DoPack [obj 0 (iota [2; 3]); obj 0 (iota [2])] (lit "i *"))) (fun _ => Stop)
  | _ => Stop
  end)))))).
Lemma ex_present t x : t < 2 -> present ex_types [lit "numpy"; lit "torch"] (obj t x).
Proof.
  intros Ht. unfold present, obj, ex_types. cbn [o_type]. destruct t as [|[|t]]; [| |lia].
  - exists {| c_name := lit "NumpyBackend"; c_framework := lit "numpy" |}. split; [left; reflexivity|]. split; [reflexivity|left; reflexivity].
  - exists {| c_name := lit "TorchBackend"; c_framework := lit "torch" |}. split; [right; right; left; reflexivity|]. split; [reflexivity|right; left; reflexivity].
Qed.
Example C74_session_case :
  honest ex_build /\ libraries_ok ascii_unicode runtime_for /\ proper_program ascii_unicode ex_types runtime_for ex_einsum ex_program [] [] /\
  run_program einops_limits ascii_unicode ex_types ex_build runtime_for ex_einsum ex_program new_process =
    [GotNothing; GotOutcome (OutTensor (Ok (mkT [3; 2] [0; 3; 1; 4; 2; 5]%Z))); GotLayer (Ok tt); GotNothing;
     GotOutcome (OutTensor (Ok (mkT [3; 2] [0; 3; 1; 4; 2; 5]%Z))); GotOutcome (OutTensor (Err RuntimeError));
     GotOutcome (OutPacked (Ok (mkT [2; 4] [0; 1; 2; 0; 3; 4; 5; 1]%Z, [[3]; []]%Z)))].
Proof.
  assert (Hb : honest ex_build) by (intros n c ms; split; [reflexivity|apply incl_tl, incl_refl]).
  assert (Hl : libraries_ok ascii_unicode runtime_for) by (split; [apply ascii_unicode_ok|intros f; split; reflexivity]).
  assert (Hn : NoDup (map fst [(lit "a", 2%Z)])) by (repeat constructor; intros []).
  split; [exact Hb|]. split; [exact Hl|]. split; [|vm_compute; reflexivity].
  unfold ex_program. cbn [proper_program answer_for answer_to proper_happening proper re].
  split; [exact I|]. split; [split; [apply forward_ok|split; [exact Hn|split; [discriminate|]]]|].
  { intros t E. injection E as <-. apply ex_present. lia. }
  split; [split; [apply forward_ok|exact Hn]|].
  destruct (Rearrange ascii_unicode (fun _ => forward) (lit "(a b) ... -> ... b a") [(lit "a", 2%Z)]) as [L|] eqn:E; [|vm_compute in E; discriminate].
  cbn [made app nth_error]. split; [exact I|]. split; [split; [apply backward_ok|split; [apply ex_present; lia|]]|].
  { intros torch L' X. injection X as <- <-. split; reflexivity. }
  split; [split; [apply backward_ok|split; [exact Hn|split; [discriminate|]]]|].
  { intros t X. injection X as <-. exact I. }
  change (check_kwargs reserved_kwargs [(lit "a", 2%Z)]) with (@Ok unit tt). cbn [bind first_of known o_type obj ex_types proper_program proper_happening proper].
  split; [split; [apply forward_ok|]|exact I]. intros x Hx. destruct Hx as [<-|[<-|[]]]; apply ex_present; lia.
Qed.
(** the same request in a new process *)
Example C74_no_memory_case :
  last (run_program einops_limits ascii_unicode ex_types ex_build runtime_for ex_einsum
    (history [Imports [lit "numpy"; lit "torch"]; Request forward (re 1 [6] (lit "(a b) -> b a") [(lit "a", 3%Z)])] backward (re 0 [6] (lit "(a b) -> b a") [(lit "a", 2%Z)])) new_process) GotNothing =
  last (run_program einops_limits ascii_unicode ex_types ex_build runtime_for ex_einsum
    (history [Imports [lit "numpy"]] forward (re 0 [6] (lit "(a b) -> b a") [(lit "a", 2%Z)])) new_process) GotNothing /\
  uses_layer (re 0 [6] (lit "(a b) -> b a") [(lit "a", 2%Z)]) = false.
Proof. split; [vm_compute; reflexivity|reflexivity]. Qed.
(** [present] is needed: a tensor whose framework is not (any more) in sys.modules
    is refused *)
Example C74_not_imported :
  run_program einops_limits ascii_unicode ex_types ex_build runtime_for ex_einsum (history [Imports [lit "torch"]] forward (re 0 [6] (lit "a -> a") [])) new_process =
  [GotNothing; GotOutcome (OutTensor (Err RuntimeError))].
Proof. vm_compute. reflexivity. Qed.
Example C74_backend_case : exists es : list (event (T := object Z)), honest ex_build /\
  (forall roots y, In (Get roots y) es -> roots = einops_backends) /\
  let reg := run o_type (accepts ex_types) ex_build es fresh_registry in
  present ex_types (modules reg) (obj 1 (iota [6])) /\ length (loaded reg) = 2 /\
  fst (backend_for ex_types ex_build (obj 1 (iota [6])) {| pr_registry := reg; pr_caches := no_caches; pr_layers := [] |}) = Ok Torch.
Proof.
  exists [Modules [lit "numpy"; lit "torch"]; Get einops_backends (obj 0 (iota [2])); Get einops_backends (obj 2 (iota [2]))].
  split; [intros n c ms; split; [reflexivity|apply incl_tl, incl_refl]|]. split.
  { intros roots y H. repeat (destruct H as [H|H]; [try discriminate; injection H as <- <-; reflexivity|]). destruct H. }
  cbv zeta. split; [|split; vm_compute; reflexivity].
  exists {| c_name := lit "TorchBackend"; c_framework := lit "torch" |}. split; [right; right; left; reflexivity|]. split; [reflexivity|].
  vm_compute. tauto.
Qed.
