(** * get_backend called by several threads: properties *)
From Verif Require Import Py Registry SpecRegistry Threads SpecThreads ThreadFacts PropRegistry Instances.

(** ** C43: any number of calls of get_backend in any number of threads, the steps
    of which come in any order, while modules are imported *)

(** the backend returned accepts a tensor of this type *)
Theorem C43_accepts : forall {T} (type_of : T -> nat) (accepts : bclass -> T -> bool) build hs i x b,
  nth_error (calls (after type_of accepts build hs fresh_process)) i = Some (Finished x (Ok b)) ->
  exists y, type_of y = type_of x /\ accepts (snd b) y = true.
Proof. exact (fun T ty ac bu hs i x b => returned ty ac bu hs i b x). Qed.
Print Assumptions C43_accepts.

(** threads that ask for the same type get backends of the same framework *)
Theorem C43_one_framework : forall {T} (type_of : T -> nat) (accepts : bclass -> T -> bool) build hs i j x y b c,
  (forall c c' u v, type_of u = type_of v -> accepts c u = true -> accepts c' v = true -> c_framework c = c_framework c') ->
  nth_error (calls (after type_of accepts build hs fresh_process)) i = Some (Finished x (Ok b)) ->
  nth_error (calls (after type_of accepts build hs fresh_process)) j = Some (Finished y (Ok c)) -> type_of x = type_of y ->
  c_framework (snd b) = c_framework (snd c).
Proof. exact @one_framework. Qed.
Print Assumptions C43_one_framework.

(** a call does not fail if at its start a backend in use accepts the tensor ... *)
Theorem C43_in_use : forall {T} (type_of : T -> nat) (accepts : bclass -> T -> bool) build hs hs' roots x r,
  (forall c c' y, c_framework c = c_framework c' -> accepts c y = accepts c' y) ->
  let s := after type_of accepts build hs fresh_process in
  (exists fb, In fb (loaded (shared s)) /\ accepts (snd (snd fb)) x = true) ->
  ended (after type_of accepts build (Call roots x :: hs') s) (length (calls s)) r -> exists b, r = Ok b.
Proof. exact @in_use. Qed.
Print Assumptions C43_in_use.

(** ... or the type is known *)
Theorem C43_known_type : forall {T} (type_of : T -> nat) (accepts : bclass -> T -> bool) build hs s roots x r,
  In (type_of x) (map fst (by_type (shared s))) ->
  ended (after type_of accepts build (Call roots x :: hs) s) (length (calls s)) r -> exists b, r = Ok b.
Proof. exact @known_type. Qed.
Print Assumptions C43_known_type.

(** when a call failed, every framework that had been imported before it and has a
    backend class has a backend in use *)
Theorem C43_failure : forall {T} (type_of : T -> nat) (accepts : bclass -> T -> bool) build hs hs' roots x e,
  honest build ->
  let s := after type_of accepts build hs fresh_process in
  grows type_of accepts build hs' (happen type_of accepts build s (Call roots x)) ->
  ended (after type_of accepts build (Call roots x :: hs') s) (length (calls s)) (Err e) ->
  e = RuntimeError /\ forall c, In c (flat_map classes roots) -> In (c_framework c) (modules (shared s)) ->
    has_backend (c_framework c) (shared (after type_of accepts build (Call roots x :: hs') s)).
Proof. exact @failed. Qed.
Print Assumptions C43_failure.

(** so if it failed for a tensor of an imported framework, any later call with this
    tensor, at any time and in any thread, does not *)
Theorem C43_second_try : forall {T} (type_of : T -> nat) (accepts : bclass -> T -> bool) build hs hs' roots x e c hs2 roots' hs3 r,
  honest build -> (forall c c' y, c_framework c = c_framework c' -> accepts c y = accepts c' y) ->
  let s := after type_of accepts build hs fresh_process in
  grows type_of accepts build hs' (happen type_of accepts build s (Call roots x)) ->
  ended (after type_of accepts build (Call roots x :: hs') s) (length (calls s)) (Err e) ->
  In c (flat_map classes roots) -> In (c_framework c) (modules (shared s)) -> accepts c x = true ->
  let s' := after type_of accepts build hs2 (after type_of accepts build (Call roots x :: hs') s) in
  ended (after type_of accepts build (Call roots' x :: hs3) s') (length (calls s')) r -> exists b, r = Ok b.
Proof. exact @second_try. Qed.
Print Assumptions C43_second_try.

(** backends are constructed for imported frameworks only *)
Theorem C43_imported : forall {T} (type_of : T -> nat) (accepts : bclass -> T -> bool) build hs a,
  honest build -> grows type_of accepts build hs fresh_process ->
  In a (attempts (shared (after type_of accepts build hs fresh_process))) -> In (c_framework (at_class a)) (at_modules a).
Proof. exact @threads_imported. Qed.
Print Assumptions C43_imported.

(** whatever the other calls are doing, a call that nobody interrupts ends, and does
    what the function of C34 does *)
Theorem C43_uninterrupted : forall {T} (type_of : T -> nat) (accepts : bclass -> T -> bool) build s roots x, exists n,
  let s' := after type_of accepts build (Call roots x :: repeat (Step (length (calls s))) n) s in
  shared s' = fst (get_backend type_of accepts build roots x (shared s)) /\
  nth_error (calls s') (length (calls s)) = Some (Finished x (snd (get_backend type_of accepts build roots x (shared s)))).
Proof. exact @undisturbed. Qed.
Print Assumptions C43_uninterrupted.

(** ** Concrete cases *)
Notation history hs := (after fst sample_accepts sample_build hs fresh_process).
Definition outcomes (s : process (nat * bool)) : list (option (result (nat * pystr))) :=
  map (fun p => match p with Finished _ (Ok b) => Some (Ok (fst b, c_framework (snd b))) | Finished _ (Err e) => Some (Err e) | _ => None end) (calls s).
(** tensors of torch; both calls start before anything is constructed *)
Definition torch_call : happening (nat * bool) := Call einops_backends (1, false).
Definition opening : list (happening (nat * bool)) := [Import [lit "numpy"; lit "torch"]; torch_call; torch_call].
Lemma sample_by_framework c c' y : c_framework c = c_framework c' -> sample_accepts c y = sample_accepts c' y.
Proof. unfold sample_accepts. intros ->. reflexivity. Qed.

(** the calls one after the other *)
Example C43_case : outcomes (history (opening ++ repeat (Step 0) 40 ++ repeat (Step 1) 40)) = [Some (Ok (0, lit "torch")); Some (Ok (0, lit "torch"))].
Proof. vm_compute. reflexivity. Qed.

(** What holds for calls that do not overlap fails for calls that do.

    The second call takes the list of backends in use (_backends.py:32) before the
    first one adds torch's, and comes to 48 after that: it fails for a tensor of a
    framework that is imported and has an accepting backend in use *)
Definition late : list (happening (nat * bool)) := repeat (Step 1) 3 ++ repeat (Step 0) 40 ++ repeat (Step 1) 40.
Theorem C43_failure_refuted : exists hs x c,
  grows fst sample_accepts sample_build hs fresh_process /\ honest sample_build /\
  (forall h, In h hs -> match h with Import ms => In (c_framework c) ms | Call roots y => y = x /\ In c (flat_map classes roots) | _ => True end) /\
  sample_accepts c x = true /\ outcomes (history hs) = [Some (Ok (0, lit "torch")); Some (Err RuntimeError)].
Proof.
  exists (opening ++ late), (1, false), {| c_name := lit "TorchBackend"; c_framework := lit "torch" |}.
  split; [vm_compute; repeat split; intros a []|]. split; [exact C34_honest_case|]. split.
  - intros h I. unfold opening, late in I. cbn [app In] in I. destruct I as [<-|[<-|[<-|I]]].
    + right. left. reflexivity.
    + split; [reflexivity|]. cbn. repeat (try (left; reflexivity); right).
    + split; [reflexivity|]. cbn. repeat (try (left; reflexivity); right).
    + assert (Q : exists i, h = Step i).
      { repeat (apply in_app_or in I as [I|I]); apply repeat_spec in I; eauto. }
      destruct Q as [i ->]. exact Logic.I.
  - split; vm_compute; reflexivity.
Qed.
Print Assumptions C43_failure_refuted.
Example C43_second_try_case : outcomes (history (opening ++ late ++ torch_call :: repeat (Step 2) 5))
  = [Some (Ok (0, lit "torch")); Some (Err RuntimeError); Some (Ok (0, lit "torch"))].
Proof. vm_compute. reflexivity. Qed.
Example C43_in_use_case : exists fb, In fb (loaded (shared (history (opening ++ late)))) /\ sample_accepts (snd (snd fb)) (1, false) = true.
Proof. eexists. split; [vm_compute; left; reflexivity|reflexivity]. Qed.
Example C43_known_type_case : In (fst (1, false)) (map fst (by_type (shared (history (opening ++ late))))).
Proof. vm_compute. auto. Qed.

(** Both calls come to 53 before either comes to 54: two backends for one framework,
    where C34_once says there is one *)
Definition twice : list (happening (nat * bool)) := repeat (Step 0) 20 ++ repeat (Step 1) 40.
Theorem C43_once_refuted : exists hs,
  grows fst sample_accepts sample_build hs fresh_process /\
  map (fun b => c_framework (snd b)) (successes (attempts (shared (history hs)))) = [lit "torch"; lit "torch"] /\
  outcomes (history hs) = [Some (Ok (0, lit "torch")); Some (Ok (1, lit "torch"))].
Proof. exists (opening ++ twice ++ repeat (Step 0) 5). split; [vm_compute; repeat split; intros a []|split; vm_compute; reflexivity]. Qed.
Print Assumptions C43_once_refuted.

(** and the backend of a type may be replaced, where C34_sticky says it stays: the
    last two calls do not overlap, and get different ones *)
Theorem C43_sticky_refuted : exists hs,
  grows fst sample_accepts sample_build hs fresh_process /\
  outcomes (history hs) = [Some (Ok (0, lit "torch")); Some (Ok (1, lit "torch")); Some (Ok (1, lit "torch")); Some (Ok (0, lit "torch"))].
Proof.
  exists (opening ++ twice ++ (torch_call :: repeat (Step 2) 5) ++ repeat (Step 0) 5 ++ (torch_call :: repeat (Step 3) 5)).
  split; [vm_compute; repeat split; intros a []|vm_compute; reflexivity].
Qed.
Print Assumptions C43_sticky_refuted.
