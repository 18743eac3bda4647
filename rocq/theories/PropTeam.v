(** * Programs in several threads *)
From Verif Require Import Py Tensor Parsing Recipe Ops Backends Api Packing Einsum Registry SpecGrammar SpecRegistry Cache Layers Session SpecSession Threads SpecThreads Crowd SpecCrowd
  Team SpecTeam TeamFacts Instances PropSession PropCrowd.

(** ** C89: programs run in any number of threads, next to anything else.  A program
    chooses its calls by the answers it got; it makes layers, and calls layers that it
    made or was given.  If the backends it needs are in use when the threads start,
    its answers are those that it gets alone, without registry, caches and threads. *)
Theorem C89_alone : forall {A R} (lim : limits) (U : unicode) (fw_of : nat -> option framework) build (library : framework -> runtime A) lib_einsum,
  honest build -> libraries_ok U library -> forall es0 (starts : list (list nat * script A R)) t own p calls es w, decent_events es0 ->
  let s := history lim U fw_of build library lib_einsum es0 nobody in
  (forall own' p', In (own', p') starts -> decent_script p') -> decent_besides es -> nth_error starts t = Some (own, p) -> handed s own calls ->
  well_behaved U fw_of library lib_einsum (fun x => settled fw_of x (cr_registry s)) calls p ->
  nth_error (tm_workers (team_run lim U fw_of build library lib_einsum es {| tm_crowd := s; tm_workers := map (fun c => new_worker (fst c) (snd c)) starts |})) t = Some w ->
  (exists rest, alone U fw_of library lib_einsum calls p = w_heard w ++ rest) /\
  (forall r, w_script w = Over r -> w_heard w = alone U fw_of library lib_einsum calls p /\ r = outcome_alone U fw_of library lib_einsum calls p).
Proof. exact @team_answers. Qed.
Print Assumptions C89_alone.

(** It ends after 71 steps per call, whatever the other threads do, and be it nothing. *)
Theorem C89_ends : forall {A R} (lim : limits) (U : unicode) (fw_of : nat -> option framework) build (library : framework -> runtime A) lib_einsum,
  honest build -> libraries_ok U library -> forall es0 (starts : list (list nat * script A R)) t own p calls es, decent_events es0 ->
  let s := history lim U fw_of build library lib_einsum es0 nobody in
  (forall own' p', In (own', p') starts -> decent_script p') -> decent_besides es -> nth_error starts t = Some (own, p) -> handed s own calls ->
  well_behaved U fw_of library lib_einsum (fun x => settled fw_of x (cr_registry s)) calls p ->
  71 * length (alone U fw_of library lib_einsum calls p) <= turns t es ->
  exists w, nth_error (tm_workers (team_run lim U fw_of build library lib_einsum es {| tm_crowd := s; tm_workers := map (fun c => new_worker (fst c) (snd c)) starts |})) t = Some w /\
    w_script w = Over (outcome_alone U fw_of library lib_einsum calls p) /\ w_heard w = alone U fw_of library lib_einsum calls p.
Proof. exact @team_ends. Qed.
Print Assumptions C89_ends.

(** A program never gets a layer that it has not made or been handed. *)
Theorem C89_own_layers : forall {A R} (lim : limits) (U : unicode) (fw_of : nat -> option framework) build (library : framework -> runtime A) lib_einsum
    (w : worker A R) (s : crowd A) o k x next,
  w_script w = Calling o (UseLayer k x) next -> w_now w = None -> length (w_own w) <= k ->
  turn lim U fw_of build library lib_einsum w s = (w, s).
Proof. exact @turn_stands. Qed.
Print Assumptions C89_own_layers.

(** ** Cases *)
(** before the threads start: torch and numpy are imported and used, a layer is made *)
Definition a_layer : request Z := MakeRearrange false (lit "(a b) ... -> ... b a") [(lit "a", 2%Z)].
Definition early : list (occasion Z) :=
  Loads [lit "numpy"; lit "torch"] :: Enter forward (re 0 [6] (lit "a -> a") []) :: in_turn 69 [0] ++ Enter backward (re 1 [6] (lit "a -> a") []) :: in_turn 69 [1] ++
  Enter forward a_layer :: in_turn 69 [2].
(** a thread that calls the layer it got, and then rearrange with the result *)
Definition with_tensor (a : answer Z) (next : tensor Z -> script Z (option (tensor Z))) : script Z (option (tensor Z)) :=
  match a with GotOutcome (OutTensor (Ok x)) => next x | _ => Over None end.
Definition user : script Z (option (tensor Z)) :=
  Calling backward (UseLayer 0 (obj 0 (iota [6]))) (fun a => with_tensor a (fun x =>
  Calling forward (DoReduce (One (obj 0 x)) (lit "b a -> a b") (RStr s_rearrange) None []) (fun a => with_tensor a (fun x => Over (Some x))))).
(** a thread that makes layers of torch; the first one cannot be made *)
Definition maker : script Z (option (tensor Z)) :=
  Calling forward (MakeRearrange true (lit "a b -> c") []) (fun a =>
  match a with
  | GotLayer (Err _) =>
      Calling backward (MakeRearrange true (lit "a b -> b a") []) (fun _ =>
      Calling forward (UseLayer 1 (obj 1 (iota [2; 2]))) (fun a => with_tensor a (fun x => Over (Some x))))
  | _ => Over None
  end).
Definition ex_starts : list (list nat * script Z (option (tensor Z))) := [([2], user); ([], maker)].
Definition ex_team (es : list (team_event Z)) : team Z (option (tensor Z)) :=
  team_run einops_limits ascii_unicode ex_types ex_build runtime_for ex_einsum es {| tm_crowd := ex_history early; tm_workers := map (fun c => new_worker (fst c) (snd c)) ex_starts |}.
Fixpoint by_turns (n : nat) (ts : list nat) : list (team_event Z) := match n with 0 => [] | S n => map Turn ts ++ by_turns n ts end.
(** a third thread does something else, and caches are cleared *)
Definition ex_busy : list (team_event Z) :=
  by_turns 5 [0; 1] ++ Besides (Drop true true true true) :: by_turns 3 [1; 0; 0] ++ Besides (Enter forward (re 2 [6] (lit "a -> a") [])) ::
  concat (repeat [Turn 0; Besides (Move 3); Turn 1; Besides (Move 4); Besides (Move 5)] 71) ++ Besides (Drop true false true false) :: by_turns 142 [1; 0].
Lemma early_decent : decent_events early.
Proof.
  assert (Hn : NoDup (map fst [(lit "a", 2%Z)])) by (repeat constructor; intros []).
  intros o q H. unfold early in H. destruct H as [H|[H|H]]; [discriminate|injection H as <- <-; split; [apply forward_ok|split; [constructor|discriminate]]|].
  apply in_app_or in H as [H|[H|H]]; [destruct (no_enter _ _ _ _ H)|injection H as <- <-; split; [apply backward_ok|split; [constructor|discriminate]]|].
  apply in_app_or in H as [H|[H|H]]; [destruct (no_enter _ _ _ _ H)|injection H as <- <-; split; [apply forward_ok|exact Hn]|destruct (no_enter _ _ _ _ H)].
Qed.
Lemma ex_decent own' p' : In (own', p') ex_starts -> decent_script p'.
Proof.
  intros [H|[H|[]]]; injection H as <- <-; cbn [user maker decent_script].
  - split; [apply backward_ok|]. split; [exact I|]. intros [[[x|]| |]| | |]; try exact I. cbn. split; [apply forward_ok|]. split; [split; [constructor|discriminate]|]. intros [[[y|]| |]| | |]; exact I.
  - split; [apply forward_ok|]. split; [constructor|]. intros [| |[|]|]; try exact I. cbn. split; [apply backward_ok|]. split; [constructor|]. intros _.
    split; [apply forward_ok|]. split; [exact I|]. intros [[[y|]| |]| | |]; exact I.
Qed.
Lemma besides_decent : decent_besides ex_busy.
Proof.
  assert (T : forall n ts o q, In (Besides (Enter o q)) (by_turns n ts) -> False).
  { induction n as [|n IH]; intros ts o q H; [exact H|]. apply in_app_or in H as [H|H]; [|exact (IH _ _ _ H)]. apply in_map_iff in H as (k & E & _). discriminate. }
  intros o q H. unfold ex_busy in H. apply in_app_or in H as [H|[H|H]]; [destruct (T _ _ _ _ H)|discriminate|].
  apply in_app_or in H as [H|[H|H]]; [destruct (T _ _ _ _ H)|injection H as <- <-; split; [apply forward_ok|split; [constructor|discriminate]]|].
  apply in_app_or in H as [H|[H|H]]; [|discriminate|destruct (T _ _ _ _ H)].
  exfalso. apply in_concat in H as (l & Hl & H). apply repeat_spec in Hl. subst l. cbn in H. intuition discriminate.
Qed.
Definition ex_warm : object Z -> Prop := fun x => settled ex_types x (cr_registry (ex_history early)).
Lemma numpy_warm x : ex_warm (obj 0 x).
Proof. left. eexists. split; [vm_compute; right; left; reflexivity|vm_compute; reflexivity]. Qed.
Lemma user_behaves : well_behaved ascii_unicode ex_types runtime_for ex_einsum ex_warm [(forward, a_layer)] user.
Proof.
  unfold user. cbn [well_behaved].
  set (a := right _ _ _ _ _ backward (UseLayer 0 _)).
  replace a with (GotOutcome (OutTensor (Ok (mkT [3; 2] [0; 3; 1; 4; 2; 5]%Z)))) by (vm_compute; reflexivity). clear a.
  split; [vm_compute; discriminate|]. split; [|split].
  - intros torch L H. vm_compute in H. destruct H as [H|[]]. injection H as <- _. cbn. split; discriminate.
  - intros x H. vm_compute in H. injection H as <-. apply numpy_warm.
  - cbn [with_tensor well_behaved]. split; [exact I|]. split; [exact I|]. split; [intros x H; injection H as <-; apply numpy_warm|].
    set (a := right _ _ _ _ _ forward _). replace a with (GotOutcome (OutTensor (Ok (mkT [2; 3] [0; 1; 2; 3; 4; 5]%Z)))) by (vm_compute; reflexivity). exact I.
Qed.
Lemma maker_behaves : well_behaved ascii_unicode ex_types runtime_for ex_einsum ex_warm [] maker.
Proof.
  unfold maker. cbn [well_behaved].
  set (a := right _ _ _ _ _ forward (MakeRearrange _ _ _)). replace a with (GotLayer (A := Z) (Err EinopsError)) by (vm_compute; reflexivity). clear a.
  split; [exact I|]. split; [exact I|]. split; [discriminate|]. cbn [well_behaved]. split; [exact I|]. split; [exact I|]. split; [discriminate|].
  split; [vm_compute; discriminate|]. split; [|split].
  - intros torch L H. vm_compute in H. destruct H as [H|[]]. injection H as <- _. cbn. split; reflexivity.
  - intros x H. vm_compute in H. discriminate.
  - set (a := right _ _ _ _ _ forward _). replace a with (GotOutcome (OutTensor (Ok (mkT [2; 2] [0; 2; 1; 3]%Z)))) by (vm_compute; reflexivity). exact I.
Qed.
Definition thread_end (tm : team Z (option (tensor Z))) : list (option (option (tensor Z)) * nat) :=
  map (fun w => (match w_script w with Over r => Some r | _ => None end, length (w_heard w))) (tm_workers tm).
Example C89_alone_case : decent_events early /\ (forall own' p', In (own', p') ex_starts -> decent_script p') /\ decent_besides ex_busy /\
  handed (ex_history early) [2] [(forward, a_layer)] /\ handed (ex_history early) [] [] /\
  well_behaved ascii_unicode ex_types runtime_for ex_einsum ex_warm [(forward, a_layer)] user /\ well_behaved ascii_unicode ex_types runtime_for ex_einsum ex_warm [] maker /\
  thread_end (ex_team ex_busy) = [(Some (Some (mkT [2; 3] [0; 1; 2; 3; 4; 5]%Z)), 2); (Some (Some (mkT [2; 2] [0; 2; 1; 3]%Z)), 3)] /\
  thread_end (ex_team (by_turns 4 [1; 0])) = [(None, 0); (None, 1)].
Proof.
  split; [exact early_decent|]. split; [exact ex_decent|]. split; [exact besides_decent|]. split; [|split; [constructor|]].
  - constructor; [|constructor]. vm_compute. do 2 eexists. reflexivity.
  - split; [exact user_behaves|]. split; [exact maker_behaves|]. split; vm_compute; reflexivity.
Qed.
Example C89_ends_case : turns 0 ex_busy = 224 /\ turns 1 ex_busy = 221 /\
  length (alone ascii_unicode ex_types runtime_for ex_einsum [(forward, a_layer)] user) = 2 /\ length (alone ascii_unicode ex_types runtime_for ex_einsum [] maker) = 3.
Proof. repeat split; vm_compute; reflexivity. Qed.
(** without the warm-up a thread can notice the others: C82_never_refused_refuted.  Here
    with programs: both threads call rearrange with a tensor of torch, the one is refused *)
Definition first_use : script Z (option (tensor Z)) := Calling forward torch_call (fun a => with_tensor a (fun x => Over (Some x))).
Example C89_warm_needed :
  thread_end (team_run einops_limits ascii_unicode ex_types ex_build runtime_for ex_einsum (Turn 0 :: Turn 1 :: Turn 1 :: Turn 1 :: Turn 1 :: by_turns 71 [0] ++ by_turns 71 [1])
    {| tm_crowd := ex_history [Loads [lit "torch"]]; tm_workers := [new_worker [] first_use; new_worker [] first_use] |}) =
  [(Some (Some (mkT [3; 2] [0; 3; 1; 4; 2; 5]%Z)), 1); (Some None, 1)].
Proof. vm_compute. reflexivity. Qed.
