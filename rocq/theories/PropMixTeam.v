(** * EinMix layers in several threads *)
From Verif Require Import Py Tensor Parsing Recipe Ops Backends Api Packing Einsum Registry SpecGrammar SpecRegistry Cache Layers EinMix Session SpecSession MixSession SpecMixSession
  Threads SpecThreads Crowd SpecCrowd Team SpecTeam TeamFacts MixTeam SpecMixTeam MixTeamFacts Instances PropMixSession.

(** ** C90: C89 for programs that make and call EinMix layers, their own and ones that
    were made before the threads started (a model that several threads use).  The
    inner layers of one EinMix are called by several threads at once; the result of
    each program is the one it has alone, with EinMix.v (C31). *)
Theorem C90_mixes : forall {A R} (lim : limits) (U : unicode) (fw_of : nat -> option framework) build (library : framework -> runtime A) lib_einsum iadd after,
  honest build -> libraries_ok U library -> types_stay fw_of after ->
  forall es0 (starts : list (list nat * script A R)) t given calls mp own plain sms Ms es, decent_events es0 ->
  let s := history lim U fw_of build library lib_einsum es0 nobody in
  (forall own' p', In (own', p') starts -> decent_script p') -> decent_besides es ->
  nth_error starts t = Some (given, compiled U lib_einsum iadd after mp (length calls) own sms) -> handed s given calls ->
  chosen calls own plain -> Forall2 (mix_by U fw_of library lib_einsum calls) sms Ms ->
  mix_behaved U fw_of library lib_einsum iadd after (fun x => settled fw_of x (cr_registry s)) plain Ms mp ->
  exists w, nth_error (tm_workers (team_run lim U fw_of build library lib_einsum es {| tm_crowd := s; tm_workers := map (fun c => new_worker (fst c) (snd c)) starts |})) t = Some w /\
    (forall r, w_script w = Over r -> r = mix_alone U fw_of library lib_einsum iadd plain Ms mp) /\
    (71 * mix_calls U fw_of library lib_einsum iadd plain Ms mp <= turns t es -> w_script w = Over (mix_alone U fw_of library lib_einsum iadd plain Ms mp)).
Proof. exact @mix_team. Qed.
Print Assumptions C90_mixes.

(** Such programs meet what C89 and C90 ask of the other threads. *)
Theorem C90_decent : forall {A R} (U : unicode) lib_einsum iadd after (mp : mix_script A R), mix_decent mp ->
  forall n own sms, decent_script (compiled U lib_einsum iadd after mp n own sms).
Proof. exact @compiled_decent. Qed.
Print Assumptions C90_decent.

(** ** Cases *)
(** an EinMix of tensorflow is made, with two inner layers, and tensorflow is used;
    then two threads call this EinMix, and one makes another *)
Definition mt_pattern : pystr := lit "... (h c) -> ... (d h)".
Definition mt_sizes : list (pystr * Z) := [(lit "c", 3%Z); (lit "d", 2%Z); (lit "h", 2%Z)].
Definition mt_making (next : result (list Z * option (list Z) * Z * stored_mix) -> nat -> script Z (option stored_mix)) : script Z (option stored_mix) :=
  making_mix ascii_unicode forward backward Tensorflow mt_pattern (lit "h c d") (Some (lit "d")) mt_sizes 0 next.
(** what making it asks for *)
Definition mt_pre : request Z := MakeRearrange false (lit "... (h c) -> ... h c") [(lit "c", 3%Z); (lit "h", 2%Z)].
Definition mt_post : request Z := MakeRearrange false (lit "... d h -> ... (d h)") [].
Definition mt_stored : stored_mix := {| sm_framework := Tensorflow; sm_pre := Some 0; sm_post := Some 1; sm_einsum := lit "...ca,cab->...bc" |}.
Definition mt_warm_up : request Z := DoReduce (One (mix_obj 0 (iota [6]))) (lit "a -> a") (RStr s_rearrange) None [].
Definition steps (n i : nat) : list (occasion Z) := repeat (Move i) n.
Definition mt_early : list (occasion Z) :=
  Loads mix_modules :: Enter forward mt_pre :: steps 30 0 ++ Enter backward mt_post :: steps 30 1 ++ Enter forward mt_warm_up :: steps 69 2.
Definition mt_crowd : crowd Z := history einops_limits ascii_unicode mix_types mix_build runtime_for mix_einsum mt_early nobody.
Definition mt_calls : list (orders * request Z) := [(forward, mt_pre); (backward, mt_post)].
Example mt_making_asks : forall next : result (list Z * option (list Z) * Z * stored_mix) -> nat -> script Z (option stored_mix),
  exists k1, mt_making next = Calling forward mt_pre k1 /\ exists k2, k1 (GotLayer (Ok tt)) = Calling backward mt_post k2 /\
  k2 (GotLayer (Ok tt)) = next (Ok ([2; 3; 2]%Z, Some [2; 1]%Z, 3%Z, mt_stored)) 2.
Proof. intros next. eexists. split; [vm_compute; reflexivity|]. eexists. split; vm_compute; reflexivity. Qed.
(** the first thread calls it; the second makes its own from what it was told, then calls both *)
Definition mt_use (k : nat) (next : result (tensor Z) -> mix_script Z (list (result (tensor Z)))) : mix_script Z (list (result (tensor Z))) :=
  MixUsing backward forward k (iota [2; 3; 2]) (Some (iota [2; 1])) (mix_obj 1 (iota [2; 6])) next.
Definition mt_first : mix_script Z (list (result (tensor Z))) := mt_use 0 (fun v => MixOver [v]).
Definition mt_second : mix_script Z (list (result (tensor Z))) :=
  MixMaking forward forward Tensorflow mt_pattern (lit "h c d") (Some (lit "d")) mt_sizes (fun _ => mt_use 1 (fun v => mt_use 0 (fun v' => MixOver [v; v']))).
Definition mt_starts : list (list nat * script Z (list (result (tensor Z)))) :=
  map (fun p => ([0; 1], compiled ascii_unicode mix_einsum mix_iadd mix_after p 2 [] [mt_stored])) [mt_first; mt_second].
Definition mt_team (es : list (team_event Z)) : team Z (list (result (tensor Z))) :=
  team_run einops_limits ascii_unicode mix_types mix_build runtime_for mix_einsum es {| tm_crowd := mt_crowd; tm_workers := map (fun c => new_worker (fst c) (snd c)) mt_starts |}.
Definition mt_events : list (team_event Z) :=
  concat (repeat [Turn 0; Turn 1] 40) ++ Besides (Drop true true true true) :: concat (repeat [Turn 1; Turn 0; Turn 1; Besides (Move 3); Turn 1] 142).
Definition mt_M : einmix (tensor Z) :=
  match EinMix ascii_unicode (fun _ => forward) (fun _ => backward) mt_pattern (lit "h c d") (Some (lit "d")) mt_sizes with Ok M => M | Err _ => mkMix [] [] None [] None None [] None 0%Z [] end.
Definition mt_warm : object Z -> Prop := fun x => settled mix_types x (cr_registry mt_crowd).
Lemma mt_warm_01 t x : t < 2 -> mt_warm (mix_obj t x).
Proof. intros H. destruct t as [|[|t]]; [| |lia]; left; (eexists; split; [vm_compute; left; reflexivity|vm_compute; reflexivity]). Qed.
Example C90_mixes_case :
  decent_events mt_early /\ (forall own' p', In (own', p') mt_starts -> decent_script p') /\ decent_besides mt_events /\ handed mt_crowd [0; 1] mt_calls /\
  Forall2 (mix_by ascii_unicode mix_types runtime_for mix_einsum mt_calls) [mt_stored] [(Tensorflow, mt_M)] /\
  mix_behaved ascii_unicode mix_types runtime_for mix_einsum mix_iadd mix_after mt_warm [] [(Tensorflow, mt_M)] mt_first /\
  mix_behaved ascii_unicode mix_types runtime_for mix_einsum mix_iadd mix_after mt_warm [] [(Tensorflow, mt_M)] mt_second /\
  map (fun w => match w_script w with Over r => Some r | _ => None end) (tm_workers (mt_team mt_events)) = [Some [the_answer]; Some [the_answer; the_answer]] /\
  turns 0 mt_events = 182 /\ turns 1 mt_events = 466 /\
  mix_calls ascii_unicode mix_types runtime_for mix_einsum mix_iadd [] [(Tensorflow, mt_M)] mt_first = 2 /\
  mix_calls ascii_unicode mix_types runtime_for mix_einsum mix_iadd [] [(Tensorflow, mt_M)] mt_second = 6.
Proof.
  assert (Hn : NoDup (map fst mt_sizes)) by (repeat constructor; vm_compute; intuition discriminate).
  assert (Hn' : NoDup (map fst [(lit "c", 3%Z); (lit "h", 2%Z)])) by (repeat constructor; vm_compute; intuition discriminate).
  assert (Hr : forall n i o q, ~ In (Enter o q) (steps n i)) by (intros n i o q H; apply repeat_spec in H; discriminate).
  split; [|split; [|split; [|split; [|split; [|split; [|split; [|split; [vm_compute; reflexivity|split; [vm_compute; reflexivity|split; [vm_compute; reflexivity|split; vm_compute; reflexivity]]]]]]]]]].
  - intros o q H. destruct H as [H|[H|H]]; [discriminate|injection H as <- <-; split; [apply forward_ok|exact Hn']|].
    apply in_app_or in H as [H|[H|H]]; [destruct (Hr _ _ _ _ H)|injection H as <- <-; split; [apply backward_ok|constructor]|].
    apply in_app_or in H as [H|[H|H]]; [destruct (Hr _ _ _ _ H)|injection H as <- <-; split; [apply forward_ok|split; [constructor|discriminate]]|destruct (Hr _ _ _ _ H)].
  - intros own' p' H. unfold mt_starts in H. apply in_map_iff in H as (mp & E & H). injection E as <- <-. apply C90_decent.
    destruct H as [<-|[<-|[]]]; cbn [mix_decent mt_first mt_second mt_use]; repeat (split; [first [apply forward_ok|apply backward_ok|exact Hn]|]); auto.
  - intros o q H. exfalso. unfold mt_events in H. apply in_app_or in H as [H|[H|H]]; [|discriminate|]; apply in_concat in H as (l & Hl & H); apply repeat_spec in Hl; subst l; cbn in H; intuition discriminate.
  - constructor; [|constructor; [|constructor]]; vm_compute; do 2 eexists; reflexivity.
  - constructor; [|constructor]. split; [reflexivity|]. split; [vm_compute; reflexivity|]. split; vm_compute; reflexivity.
  - generalize mt_M as M0. intros M0. cbn [mix_behaved mt_first mt_use]. split; [intros f M E; injection E as <- _; reflexivity|]. split; [apply mt_warm_01; lia|]. split; [intros y; apply (mt_warm_01 0); lia|exact I].
  - generalize mt_M as M0. intros M0. cbn [mix_behaved mt_second].
    destruct (EinMix (T := tensor Z) ascii_unicode (fun _ => forward) (fun _ => forward) mt_pattern (lit "h c d") (Some (lit "d")) mt_sizes) as [M|] eqn:EM; [|vm_compute in EM; discriminate].
    cbn [app mt_use mix_behaved]. split; [intros f M' E; injection E as <- _; reflexivity|]. split; [apply mt_warm_01; lia|]. split; [intros y; apply (mt_warm_01 0); lia|].
    split; [intros f M' E; injection E as <- _; reflexivity|]. split; [apply mt_warm_01; lia|]. split; [intros y; apply (mt_warm_01 0); lia|exact I].
Qed.
