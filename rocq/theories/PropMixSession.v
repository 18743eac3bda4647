(** * EinMix layers in a whole process *)
From Verif Require Import Py Tensor SpecSem SpecEinsum SpecEinMix Parsing Recipe Ops Backends Api Packing Einsum Registry SpecGrammar SpecRegistry Cache Layers EinMix
  Session SpecSession MixSession SpecMixSession MixSessionFacts Instances EinsumFacts4 MixFacts8 MixFacts9 MixFacts10.

(** ** C84: C74 with layers EinMix of torch, tensorflow, paddle and oneflow.  Their
    inner layers are made through the shared cache of recipes and called through the
    shared registry and cache; all answers of a program (results and errors) are
    those without registry and caches: those of EinMix.v, see C31. *)
Theorem C84_session : forall {A} (lim : limits) (U : unicode) (fw_of : nat -> option framework) build (library : framework -> runtime A) lib_einsum iadd after (p : mix_program A),
  honest build -> libraries_ok U library -> types_stay fw_of after -> proper_mix_program U fw_of library lib_einsum iadd p [] [] [] ->
  run_mix lim U fw_of build library lib_einsum iadd after p new_mix_process = right_mix U fw_of library lib_einsum iadd p [] [] [].
Proof. exact @mix_session_right. Qed.
Print Assumptions C84_session.

(** An EinMix layer answers the same whatever happens between its making and its
    call: other layers made and called, caches cleared, modules imported. *)
Theorem C84_any_time : forall {A} (lim : limits) (U : unicode) (fw_of : nat -> option framework) build (library : framework -> runtime A) lib_einsum iadd after
    (o o' : orders) f pattern weight_shape bias_shape sizes M hs (o1 o2 : orders) weight bias (x : object A),
  honest build -> libraries_ok U library -> types_stay fw_of after ->
  EinMix U (fun _ => o) (fun _ => o') pattern weight_shape bias_shape sizes = Ok M ->
  let p := mix_history (MakeMix o o' f pattern weight_shape bias_shape sizes) hs (UseMix o1 o2 0 weight bias x) in
  proper_mix_program U fw_of library lib_einsum iadd p [] [] [] ->
  last (run_mix lim U fw_of build library lib_einsum iadd after p new_mix_process) (GotAnswer GotNothing) =
    GotTensor (call_einmix (rtm library f o1) (lib_einsum f) (iadd f) M weight bias (o_data x)).
Proof. exact @mix_any_time. Qed.
Print Assumptions C84_any_time.

(** ** Cases *)
(** 0: tensors of tensorflow, 1: its variables (operations give tensors), 2: tensors of torch *)
Definition mix_types (t : nat) : option framework := match t with 0 | 1 => Some Tensorflow | 2 => Some Torch | _ => None end.
Definition mix_after (t : nat) : nat := match t with 1 => 0 | t => t end.
Definition mix_build (n : nat) (c : bclass) (ms : list pystr) : option exn * list pystr := (None, ms).
Definition mix_modules : list pystr := [lit "torch"; lit "tensorflow"].
Definition mix_einsum (f : framework) : pystr -> list (tensor Z) -> result (tensor Z) := ref_einsum Z.add Z.mul 0%Z 1%Z.
Definition mix_iadd (f : framework) : tensor Z -> tensor Z -> result (tensor Z) := ref_iadd Z.add 0%Z.
Definition mix_obj (t : nat) (x : tensor Z) : object Z := {| o_type := t; o_data := x |}.
Definition mix_make (f : framework) : mix_happening Z :=
  MakeMix forward backward f (lit "... (h c) -> ... (d h)") (lit "h c d") (Some (lit "d")) [(lit "c", 3%Z); (lit "d", 2%Z); (lit "h", 2%Z)].
Definition mix_use (k t : nat) : mix_happening Z := UseMix backward forward k (iota [2; 3; 2]) (Some (iota [2; 1])) (mix_obj t (iota [2; 6])).
Definition wrong_make : mix_happening Z := MakeMix forward forward Torch (lit "a b -> a c") (lit "b") None [(lit "b", 3%Z)].
Fixpoint in_turn (hs : list (mix_happening Z)) : mix_program Z := match hs with [] => MixStop | h :: hs => MixThen h (fun _ => in_turn hs) end.
Definition mix_ex_program : mix_program Z :=
  in_turn [Plainly (Imports mix_modules); mix_make Tensorflow; Plainly (Request forward (MakeRearrange true (lit "a b -> b a") [])); wrong_make; mix_make Torch;
    Plainly (Clear true true true true); mix_use 0 1; mix_use 1 2; Plainly (Request backward (UseLayer 0 (mix_obj 2 (iota [2; 2])))); mix_use 2 2].
Lemma mix_present t x : present mix_types mix_modules (mix_obj t x).
Proof.
  unfold present, mix_obj, mix_types. cbn [o_type]. destruct t as [|[|[|t]]]; [| | |exact I].
  - exists {| c_name := lit "TensorflowBackend"; c_framework := lit "tensorflow" |}. split; [vm_compute; tauto|]. split; [reflexivity|right; left; reflexivity].
  - exists {| c_name := lit "TensorflowBackend"; c_framework := lit "tensorflow" |}. split; [vm_compute; tauto|]. split; [reflexivity|right; left; reflexivity].
  - exists {| c_name := lit "TorchBackend"; c_framework := lit "torch" |}. split; [vm_compute; tauto|]. split; [reflexivity|left; reflexivity].
Qed.
Lemma mix_setting : honest mix_build /\ libraries_ok ascii_unicode runtime_for /\ types_stay mix_types mix_after.
Proof.
  split; [intros n c ms; split; [reflexivity|apply incl_refl]|]. split; [split; [apply ascii_unicode_ok|intros f; split; reflexivity]|].
  intros t. destruct t as [|[|[|t]]]; reflexivity.
Qed.
Definition the_answer : result (tensor Z) := Ok (mkT [2; 4] [10; 100; 14; 113; 46; 244; 68; 275]%Z).
Example C84_session_case :
  honest mix_build /\ libraries_ok ascii_unicode runtime_for /\ types_stay mix_types mix_after /\
  proper_mix_program ascii_unicode mix_types runtime_for mix_einsum mix_iadd mix_ex_program [] [] [] /\
  run_mix einops_limits ascii_unicode mix_types mix_build runtime_for mix_einsum mix_iadd mix_after mix_ex_program new_mix_process =
    [GotAnswer GotNothing; GotMix (Ok ([2; 3; 2]%Z, Some [2; 1]%Z, 3%Z)); GotAnswer (GotLayer (Ok tt)); GotMix (Err EinopsError); GotMix (Ok ([2; 3; 2]%Z, Some [2; 1]%Z, 3%Z));
     GotAnswer GotNothing; GotTensor the_answer; GotTensor the_answer; GotAnswer (GotOutcome (OutTensor (Ok (mkT [2; 2] [0; 2; 1; 3]%Z)))); GotTensor (Err IndexError)].
Proof.
  destruct mix_setting as (H1 & H2 & H3). split; [exact H1|]. split; [exact H2|]. split; [exact H3|]. split; [|vm_compute; reflexivity].
  assert (Hn : NoDup (map fst [(lit "c", 3%Z); (lit "d", 2%Z); (lit "h", 2%Z)])).
  { repeat constructor; vm_compute; intuition discriminate. }
  unfold mix_ex_program, in_turn. cbn [proper_mix_program mix_answer_for answer_for proper_mix proper_happening mix_make wrong_make].
  split; [exact I|]. split; [split; [apply forward_ok|split; [apply backward_ok|split; [vm_compute; tauto|exact Hn]]]|].
  destruct (EinMix (T := tensor Z) ascii_unicode (fun _ => forward) (fun _ => backward) (lit "... (h c) -> ... (d h)") (lit "h c d") (Some (lit "d")) [(lit "c", 3%Z); (lit "d", 2%Z); (lit "h", 2%Z)])
    as [M|] eqn:EM; [|vm_compute in EM; discriminate].
  cbn [app answer_to proper]. split; [split; [apply forward_ok|constructor]|].
  destruct (Rearrange (T := tensor Z) ascii_unicode (fun _ => forward) (lit "a b -> b a") []) as [L|] eqn:EL; [|vm_compute in EL; discriminate].
  cbn [made app]. split; [split; [apply forward_ok|split; [apply forward_ok|split; [vm_compute; tauto|repeat constructor; intros []]]]|].
  destruct (EinMix (T := tensor Z) ascii_unicode (fun _ => forward) (fun _ => forward) (lit "a b -> a c") (lit "b") None [(lit "b", 3%Z)]) as [M'|e] eqn:EM'; [vm_compute in EM'; discriminate|].
  cbn [app]. split; [split; [apply forward_ok|split; [apply backward_ok|split; [vm_compute; tauto|exact Hn]]]|].
  split; [exact I|]. cbn [mix_use nth_error].
  split; [split; [apply backward_ok|split; [apply forward_ok|split; [apply mix_present|]]]; intros f N E; injection E as <- <-; reflexivity|].
  split; [split; [apply backward_ok|split; [apply forward_ok|split; [apply mix_present|]]]; intros f N E; injection E as <- <-; reflexivity|].
  split; [split; [apply backward_ok|split; [apply mix_present|]]; intros torch N E; injection E as <- <-; split; reflexivity|].
  split; [|exact I]. split; [apply backward_ok|split; [apply forward_ok|split; [apply mix_present|]]]. intros f N E. discriminate.
Qed.
Example C84_any_time_case :
  let p := mix_history (mix_make Torch) [Plainly (Imports mix_modules); mix_make Tensorflow; mix_use 1 0; Plainly (Clear true true false false)] (mix_use 0 2) in
  proper_mix_program ascii_unicode mix_types runtime_for mix_einsum mix_iadd p [] [] [] /\
  last (run_mix einops_limits ascii_unicode mix_types mix_build runtime_for mix_einsum mix_iadd mix_after p new_mix_process) (GotAnswer GotNothing) = GotTensor the_answer.
Proof.
  cbn zeta. split; [|vm_compute; reflexivity].
  assert (Hn : NoDup (map fst [(lit "c", 3%Z); (lit "d", 2%Z); (lit "h", 2%Z)])).
  { repeat constructor; vm_compute; intuition discriminate. }
  unfold mix_history, fold_right. cbn [proper_mix_program mix_answer_for answer_for proper_mix proper_happening mix_make].
  split; [split; [apply forward_ok|split; [apply backward_ok|split; [vm_compute; tauto|exact Hn]]]|].
  destruct (EinMix (T := tensor Z) ascii_unicode (fun _ => forward) (fun _ => backward) (lit "... (h c) -> ... (d h)") (lit "h c d") (Some (lit "d")) [(lit "c", 3%Z); (lit "d", 2%Z); (lit "h", 2%Z)])
    as [M|] eqn:EM; [|vm_compute in EM; discriminate].
  cbn [app mix_use nth_error]. split; [exact I|]. split; [split; [apply forward_ok|split; [apply backward_ok|split; [vm_compute; tauto|exact Hn]]]|].
  split; [split; [apply backward_ok|split; [apply forward_ok|split; [apply mix_present|]]]; intros f N E; injection E as <- <-; reflexivity|].
  split; [exact I|]. split; [|exact I]. split; [apply backward_ok|split; [apply forward_ok|split; [apply mix_present|]]]. intros f N E. injection E as <- <-. reflexivity.
Qed.
(** [types_stay] is needed: were results of tensorflow of no known type, the second inner layer would refuse them *)
Example C84_types_needed :
  last (run_mix einops_limits ascii_unicode mix_types mix_build runtime_for mix_einsum mix_iadd (fun _ => 7)
    (mix_history (mix_make Tensorflow) [Plainly (Imports mix_modules)] (mix_use 0 0)) new_mix_process) (GotAnswer GotNothing) = GotTensor (Err RuntimeError).
Proof. vm_compute. reflexivity. Qed.
