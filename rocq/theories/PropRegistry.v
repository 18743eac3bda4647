(** * Choice of a backend: properties of get_backend *)
From Verif Require Import Py Registry SpecRegistry RegistryFacts Instances.

(** ** C34: in every state a process may reach, by any calls and any changes of
    sys.modules, with constructors that may do anything *)

(** the backend returned accepts a tensor of this type *)
Theorem C34_accepts_type : forall {T} (type_of : T -> nat) (accepts : bclass -> T -> bool) build roots x st st' b,
  reachable type_of accepts build st -> get_backend type_of accepts build roots x st = (st', Ok b) ->
  exists y, type_of y = type_of x /\ accepts (snd b) y = true.
Proof. exact (fun T ty ac bu roots x st st' b => accepts_some ty ac bu st roots x st' b). Qed.
Print Assumptions C34_accepts_type.

(** so it accepts the tensor itself, when backends tell tensors by their type *)
Theorem C34_accepts : forall {T} (type_of : T -> nat) (accepts : bclass -> T -> bool) build roots x st st' b,
  (forall c y z, type_of y = type_of z -> accepts c y = accepts c z) ->
  reachable type_of accepts build st -> get_backend type_of accepts build roots x st = (st', Ok b) ->
  accepts (snd b) x = true.
Proof. exact (fun T ty ac bu roots x st st' b => accepts_itself ty ac bu st roots x st' b). Qed.
Print Assumptions C34_accepts.

(** a backend is constructed only when its framework is in sys.modules at that moment *)
Theorem C34_imported : forall {T} (type_of : T -> nat) (accepts : bclass -> T -> bool) build st a,
  reachable type_of accepts build st -> In a (attempts st) -> In (c_framework (at_class a)) (at_modules a).
Proof. exact @imported. Qed.
Print Assumptions C34_imported.

(** at most one backend is constructed for a framework, ever *)
Theorem C34_once : forall {T} (type_of : T -> nat) (accepts : bclass -> T -> bool) build st,
  reachable type_of accepts build st ->
  NoDup (map (fun b => c_framework (snd b)) (successes (attempts st))) /\ NoDup (map fst (successes (attempts st))).
Proof. exact @once. Qed.
Print Assumptions C34_once.

(** once a backend was returned for a type, the very same one is returned for all
    tensors of this type, and nothing changes by asking *)
Theorem C34_sticky : forall {T} (type_of : T -> nat) (accepts : bclass -> T -> bool) build roots x st st' b es roots' y,
  reachable type_of accepts build st -> get_backend type_of accepts build roots x st = (st', Ok b) -> type_of y = type_of x ->
  get_backend type_of accepts build roots' y (run type_of accepts build es st') = (run type_of accepts build es st', Ok b).
Proof. exact (fun T ty ac bu roots x st st' b es roots' y => sticky ty ac bu st roots x st' b es roots' y). Qed.
Print Assumptions C34_sticky.

(** when a backend in use accepts the tensor, or its type was seen before, a
    backend is returned and none is constructed *)
Theorem C34_prefers_loaded : forall {T} (type_of : T -> nat) (accepts : bclass -> T -> bool) build roots x st st' r,
  (exists fb, In fb (loaded st) /\ accepts (snd (snd fb)) x = true) \/ In (type_of x) (map fst (by_type st)) ->
  get_backend type_of accepts build roots x st = (st', r) -> attempts st' = attempts st /\ exists b, r = Ok b.
Proof. exact (fun T ty ac bu roots x st st' r => prefers_loaded ty ac bu st roots x st' r). Qed.
Print Assumptions C34_prefers_loaded.

(** failure: every framework that is imported and has a backend class, at any
    depth, now has a backend, and that one rejects the tensor *)
Theorem C34_failure : forall {T} (type_of : T -> nat) (accepts : bclass -> T -> bool) build roots x st st' e,
  honest build -> get_backend type_of accepts build roots x st = (st', Err e) ->
  e = RuntimeError /\ forall c, In c (flat_map classes roots) -> In (c_framework c) (modules st) ->
    exists b, In (c_framework c, b) (loaded st') /\ accepts (snd b) x = false.
Proof. exact (fun T ty ac bu roots x st st' e => get_error ty ac bu roots x st st' e). Qed.
Print Assumptions C34_failure.

(** ... and the right one is found: a tensor that one of the ten backends accepts, and no
    other, gets this backend when its framework is imported, whatever was done before *)
Theorem C34_found : forall {T} (type_of : T -> nat) (accepts : bclass -> T -> bool) build es x c,
  let st := run type_of accepts build es fresh_registry in
  (forall c y z, type_of y = type_of z -> accepts c y = accepts c z) -> honest build ->
  (forall roots y, In (Get roots y) es -> roots = einops_backends) ->
  In (c_name c, c_framework c)
    [(lit "NumpyBackend", lit "numpy"); (lit "JaxBackend", lit "jax"); (lit "TorchBackend", lit "torch"); (lit "CupyBackend", lit "cupy");
     (lit "TensorflowBackend", lit "tensorflow"); (lit "TFKerasBackend", lit "tensorflow.keras"); (lit "OneFlowBackend", lit "oneflow");
     (lit "PaddleBackend", lit "paddle"); (lit "TinygradBackend", lit "tinygrad"); (lit "PyTensorBackend", lit "pytensor")] ->
  accepts c x = true -> (forall c', In c' (flat_map classes einops_backends) -> accepts c' x = true -> c' = c) ->
  In (c_framework c) (modules st) ->
  exists n, snd (get_backend type_of accepts build einops_backends x st) = Ok (n, c).
Proof. exact (fun T ty ac bu es x c => found_ours ty ac bu es x c). Qed.
Print Assumptions C34_found.

(** ** Concrete cases *)
(** tensors: type, and whether Keras made it; type 0 is numpy's, 1 torch's, 2 TensorFlow's *)
Definition sample_accepts (c : bclass) (x : nat * bool) : bool :=
  if str_eqb (c_framework c) (lit "numpy") then fst x =? 0
  else if str_eqb (c_framework c) (lit "torch") then fst x =? 1
  else if str_eqb (c_framework c) (lit "tensorflow") then fst x =? 2
  else if str_eqb (c_framework c) (lit "tensorflow.keras") then (fst x =? 2) && snd x     (* _backends.py:430 *)
  else false.
Definition sample_build (n : nat) (c : bclass) (ms : list pystr) : option exn * list pystr := (None, ms).
Definition framework_of (r : registry * result instance) : result pystr := let* b := snd r in Ok (c_framework (snd b)).

(** torch is not constructed when only numpy is imported; a later import is seen *)
Example C34_case :
  let get := get_backend fst sample_accepts sample_build einops_backends in
  let st1 := run fst sample_accepts sample_build [Modules [lit "numpy"]; Get einops_backends (0, false)] fresh_registry in
  let st2 := run fst sample_accepts sample_build [Modules [lit "jax"; lit "torch"; lit "numpy"]] st1 in
  (map fst (loaded st1), framework_of (get (0, false) st1), framework_of (get (1, false) st1),
   framework_of (get (1, false) st2), map fst (loaded (fst (get (1, false) st2))), map fst (loaded (fst (get (7, false) st2))))
  = ([lit "numpy"], Ok (lit "numpy"), Err RuntimeError, Ok (lit "torch"), [lit "numpy"; lit "torch"], [lit "numpy"; lit "torch"; lit "jax"]).
Proof. vm_compute. reflexivity. Qed.
Example C34_reachable_case : reachable fst sample_accepts sample_build
  (run fst sample_accepts sample_build [Modules [lit "numpy"]; Get einops_backends (0, false)] fresh_registry).
Proof. eexists. reflexivity. Qed.
Example C34_honest_case : honest sample_build.
Proof. intros n c ms. split; [reflexivity|apply incl_refl]. Qed.

(** tensors of three types; a jax array after numpy and torch arrays *)
Example C34_found_case :
  let ty := fun x : nat => x in
  let ac := fun c x => str_eqb (c_framework c) (nth x [lit "numpy"; lit "torch"; lit "jax"] []) in
  let es := [Modules [lit "numpy"; lit "torch"; lit "jax"]; Get einops_backends 0; Get einops_backends 1] in
  let c := {| c_name := lit "JaxBackend"; c_framework := lit "jax" |} in
  (forall c', In c' (flat_map classes einops_backends) -> ac c' 2 = true -> c' = c) /\
  ac c 2 = true /\ In (c_framework c) (modules (run ty ac sample_build es fresh_registry)) /\
  snd (get_backend ty ac sample_build einops_backends 2 (run ty ac sample_build es fresh_registry)) = Ok (2, c).
Proof.
  cbv zeta. split; [|split; [reflexivity|split; [right; right; left; reflexivity|vm_compute; reflexivity]]].
  intros c' H. repeat (destruct H as [<-|H]; [intros E; vm_compute in E; first [discriminate E|reflexivity]|]). destruct H.
Qed.

(** _backends.py:429-430 looks at more than the type.  Once a type was seen, the
    backend found for it is returned even for a tensor it does not accept *)
Theorem C34_accepts_refuted : exists es x b,
  snd (get_backend fst sample_accepts sample_build einops_backends x (run fst sample_accepts sample_build es fresh_registry)) = Ok b /\
  sample_accepts (snd b) x = false /\
  (exists c, In c (flat_map classes einops_backends) /\ In (c_framework c) [lit "tensorflow"; lit "tensorflow.keras"] /\ sample_accepts c x = true).
Proof.
  exists [Modules [lit "tensorflow"; lit "tensorflow.keras"]; Get einops_backends (2, true)], (2, false).
  exists (0, {| c_name := lit "TFKerasBackend"; c_framework := lit "tensorflow.keras" |}).
  split; [vm_compute; reflexivity|]. split; [vm_compute; reflexivity|].
  exists {| c_name := lit "TensorflowBackend"; c_framework := lit "tensorflow" |}.
  split; [cbn; repeat (try (left; reflexivity); right)|]. split; [left; reflexivity|vm_compute; reflexivity].
Qed.
Print Assumptions C34_accepts_refuted.
