(** * C88: the functions that torch.compile is told about *)
From Verif Require Import Py Texts Registry Dynamo SpecDynamo DynamoFacts.

(** After [get_backend] returned a TorchBackend all six functions are registered, whatever
    happened in the process before, if each torch that an import met could register. *)
Theorem C88_registered : forall (T : Type) (type_of : T -> nat) accepts import_torch world others h roots x p b,
  (forall k, able (world k)) -> (forall w, In (Import w) h -> able w) ->
  ask type_of accepts import_torch world others roots x (after type_of accepts import_torch world others h) = (p, Ok b) ->
  c_name (snd b) = lit "TorchBackend" ->
  incl the_functions (registered p) /\ exists c ef, In (c, ef) (p_effects p) /\ ef_flag ef = true.
Proof. exact (fun T ty ac im wo ot h roots x p b => torch_registered ty ac im wo ot h roots x p b). Qed.
Print Assumptions C88_registered.
(** Unless the function is called by hand, they are registered all together and once, or not at all. *)
Theorem C88_once : forall (T : Type) (type_of : T -> nat) accepts import_torch world others h,
  (forall k, able (world k)) -> (forall w, In (Import w) h -> able w) -> no_calls h ->
  registered (after type_of accepts import_torch world others h) = [] \/
  registered (after type_of accepts import_torch world others h) = the_functions.
Proof. exact (fun T ty ac im wo ot h => registered_once ty ac im wo ot h). Qed.
Print Assumptions C88_once.
(** The module is imported with success at most once in a process, in any world, and
    nothing but the six functions is ever registered. *)
Theorem C88_imported_once : forall (T : Type) (type_of : T -> nat) accepts import_torch world others h,
  imports_done (after type_of accepts import_torch world others h) <= 1.
Proof. exact (fun T ty ac im wo ot h => import_finished_once ty ac im wo ot h). Qed.
Print Assumptions C88_imported_once.
Theorem C88_only_these : forall (T : Type) (type_of : T -> nat) accepts import_torch world others h,
  incl (registered (after type_of accepts import_torch world others h)) the_functions.
Proof. exact (fun T ty ac im wo ot h f => only_these ty ac im wo ot h f). Qed.
Print Assumptions C88_only_these.
(** One call: all or nothing unless it raises, the flag is set when all are registered, and
    the warning is given when torch.compile is missing from a torch that claims to have it. *)
Theorem C88_call : forall w,
  (ef_raised (allow_ops w) = None -> ef_allowed (allow_ops w) = [] \/ ef_allowed (allow_ops w) = the_functions) /\
  (ef_flag (allow_ops w) = true <-> ef_raised (allow_ops w) = None /\ ef_allowed (allow_ops w) = the_functions) /\
  (ef_warned (allow_ops w) = true <-> tw_dynamo w = Absent /\ match tw_version w with None => True | Some v => exists c rest, v = c :: rest /\ (50 <= c)%N end).
Proof. exact (fun w => conj (effect_finished w) (conj (effect_flag w) (effect_warned w))). Qed.
Print Assumptions C88_call.
(** The test of the first character is right for torch 0 to 9.  It takes torch 10 to 19 for old. *)
Theorem C88_versions : forall w major rest, tw_version w = Some (version major rest) -> tw_dynamo w = Present -> (forall f, tw_allow w f = None) ->
  (major < 10 -> (ef_allowed (allow_ops w) = the_functions <-> 2 <= major)) /\ (10 <= major < 20 -> ef_allowed (allow_ops w) = []).
Proof. exact versions_known. Qed.
Print Assumptions C88_versions.

(** ** Cases *)
Definition torch_2 : torch_world := {| tw_version := Some (version 2 (lit "1.0")); tw_dynamo := Present; tw_warning := None; tw_allow := fun _ => None |}.
Definition torch_1 : torch_world := {| tw_version := Some (version 1 (lit "13.1")); tw_dynamo := Absent; tw_warning := None; tw_allow := fun _ => None |}.
Definition torch_10 : torch_world := {| tw_version := Some (version 10 (lit "0")); tw_dynamo := Present; tw_warning := None; tw_allow := fun _ => None |}.
(** tensor 0 is numpy's, tensor 1 is torch's *)
Definition sample_ac (c : bclass) (x : nat) : bool := str_eqb (c_framework c) (nth x [lit "numpy"; lit "torch"] []).
Definition sample_after := after (fun x : nat => x) sample_ac (fun _ => None) (fun _ => torch_2) (fun _ _ ms => (None, ms)).
Example C88_able_case : able torch_2 /\ ~ able torch_10.
Proof. split; [split; [reflexivity|split; [reflexivity|exists 50%N; eexists; split; [reflexivity|discriminate]]]|]. intros (_ & _ & c & rest & E & H). vm_compute in E. injection E as <- <-. apply H. reflexivity. Qed.
Example C88_history_case :
  let h := [Others [lit "numpy"]; Ask einops_backends 0; Others [lit "numpy"; lit "torch"]; Ask einops_backends 1; Import torch_2] in
  let h' := [Others [lit "numpy"; lit "torch"]; Import torch_2; Ask einops_backends 1; Call torch_2] in
  registered (sample_after (firstn 3 h)) = [] /\ registered (sample_after h) = the_functions /\ imports_done (sample_after h) = 1 /\
  registered (sample_after h') = the_functions ++ the_functions /\ imports_done (sample_after h') = 1.
Proof. vm_compute. repeat split. Qed.
Example C88_registered_case :
  let h := [Others [lit "numpy"]; Ask einops_backends 0; Others [lit "numpy"; lit "torch"]] in
  exists p b, ask (fun x : nat => x) sample_ac (fun _ => None) (fun _ => torch_2) (fun _ _ ms => (None, ms)) einops_backends 1 (sample_after h) = (p, Ok b) /\ c_name (snd b) = lit "TorchBackend".
Proof. cbv zeta. do 2 eexists. split; [vm_compute; reflexivity|reflexivity]. Qed.
(** a first import that fails half way registers some; the next constructor starts again *)
Example C88_failed_case :
  let bad := {| tw_version := None; tw_dynamo := Present; tw_warning := None; tw_allow := fun f => if str_eqb f (lit "repeat") then Some TypeError else None |} in
  let p := sample_after [Others [lit "torch"]; Import bad; Ask einops_backends 1] in
  registered p = [lit "rearrange"; lit "reduce"] ++ the_functions /\ imports_done p = 1.
Proof. vm_compute. repeat split. Qed.
Example C88_versions_case :
  ef_allowed (allow_ops torch_1) = [] /\ ef_warned (allow_ops torch_1) = false /\ ef_allowed (allow_ops torch_10) = [] /\
  ef_warned (allow_ops {| tw_version := Some (version 2 (lit "0")); tw_dynamo := Absent; tw_warning := None; tw_allow := fun _ => None |}) = true.
Proof. vm_compute. repeat split. Qed.
