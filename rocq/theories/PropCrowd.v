(** * A whole process with several threads *)
From Verif Require Import Py Tensor Parsing Recipe Ops Backends Api Packing Einsum Registry SpecGrammar SpecRegistry Cache Layers Session SpecSession Threads SpecThreads Crowd SpecCrowd
  CrowdFacts CrowdFacts2 CrowdFacts3 CrowdFacts4 CrowdFacts5 Instances PropSession.

(** ** C82: threads call any functions and layers of einops; the registry and the
    caches are shared, the calls' steps (one access of a shared dict each) come in any
    order, between them modules are imported and caches cleared.  Every answer is the
    one of the functions without registry, caches and threads, or the refusal that
    tensors of an unknown type get. *)
Theorem C82_answers : forall {A} (lim : limits) (U : unicode) (fw_of : nat -> option framework) build (library : framework -> runtime A) lib_einsum,
  honest build -> libraries_ok U library -> forall es i o q a L, decent_events es ->
  let s := history lim U fw_of build library lib_einsum es nobody in
  nth_error (cr_calls s) i = Some (o, q, Done a L) -> suitable U library lib_einsum fw_of (map fst (cr_calls s)) q ->
  a = right U library lib_einsum fw_of (map fst (cr_calls s)) o q \/ a = refused U library lib_einsum (map fst (cr_calls s)) o q.
Proof. exact @answers. Qed.
Print Assumptions C82_answers.

(** Never a refusal if, when the call starts, a backend in use accepts its tensor or
    the tensor's type has been seen.  Nor if the call asks for no backend. *)
Theorem C82_in_use : forall {A} (lim : limits) (U : unicode) (fw_of : nat -> option framework) build (library : framework -> runtime A) lib_einsum,
  honest build -> libraries_ok U library -> forall es es' o q a L, decent_events (es ++ Enter o q :: es') ->
  let happens := history lim U fw_of build library lib_einsum in
  let s := happens es nobody in let s1 := happens [Enter o q] s in let s' := happens es' s1 in
  length (cr_calls s1) = S (length (cr_calls s)) -> nth_error (cr_calls s') (length (cr_calls s)) = Some (o, q, Done a L) ->
  suitable U library lib_einsum fw_of (map fst (cr_calls s')) q ->
  (forall x, asks U library lib_einsum (map fst (cr_calls s')) q = Some x -> settled fw_of x (cr_registry s)) ->
  a = right U library lib_einsum fw_of (map fst (cr_calls s')) o q.
Proof. exact @in_use. Qed.
Print Assumptions C82_in_use.

(** A call with another answer is refused; then neither was so, and once it has ended
    all frameworks that were imported when it started have their backends in use. *)
Theorem C82_refused : forall {A} (lim : limits) (U : unicode) (fw_of : nat -> option framework) build (library : framework -> runtime A) lib_einsum,
  honest build -> libraries_ok U library -> forall es es' o q a L, decent_events (es ++ Enter o q :: es') ->
  let happens := history lim U fw_of build library lib_einsum in
  let s := happens es nobody in let s1 := happens [Enter o q] s in let s' := happens es' s1 in
  length (cr_calls s1) = S (length (cr_calls s)) -> nth_error (cr_calls s') (length (cr_calls s)) = Some (o, q, Done a L) ->
  suitable U library lib_einsum fw_of (map fst (cr_calls s')) q -> keeps_modules es' (modules (cr_registry s)) ->
  a <> right U library lib_einsum fw_of (map fst (cr_calls s')) o q ->
  a = refused U library lib_einsum (map fst (cr_calls s')) o q /\
  (exists x, asks U library lib_einsum (map fst (cr_calls s')) q = Some x /\ ~ settled fw_of x (cr_registry s)) /\
  (forall c, In c (flat_map classes einops_backends) -> In (c_framework c) (modules (cr_registry s)) -> has_backend (c_framework c) (cr_registry s')).
Proof. exact @refusal. Qed.
Print Assumptions C82_refused.

(** Therefore: whoever calls after a refusal, with a tensor of a framework that was
    imported when the refused call started, gets the right answer. *)
Theorem C82_second_try : forall {A} (lim : limits) (U : unicode) (fw_of : nat -> option framework) build (library : framework -> runtime A) lib_einsum,
  honest build -> libraries_ok U library -> forall es es' o q a L es2 o2 q2 es3 a2 L2, decent_events (es ++ Enter o q :: es' ++ es2 ++ Enter o2 q2 :: es3) ->
  let happens := history lim U fw_of build library lib_einsum in
  let s := happens es nobody in let s1 := happens [Enter o q] s in let s' := happens es' s1 in
  length (cr_calls s1) = S (length (cr_calls s)) -> nth_error (cr_calls s') (length (cr_calls s)) = Some (o, q, Done a L) ->
  suitable U library lib_einsum fw_of (map fst (cr_calls s')) q -> keeps_modules es' (modules (cr_registry s)) ->
  a <> right U library lib_einsum fw_of (map fst (cr_calls s')) o q ->
  let u := happens es2 s' in let u1 := happens [Enter o2 q2] u in let u' := happens es3 u1 in
  length (cr_calls u1) = S (length (cr_calls u)) -> nth_error (cr_calls u') (length (cr_calls u)) = Some (o2, q2, Done a2 L2) ->
  suitable U library lib_einsum fw_of (map fst (cr_calls u')) q2 ->
  (forall x, asks U library lib_einsum (map fst (cr_calls u')) q2 = Some x -> fw_of (o_type x) <> None /\ present fw_of (modules (cr_registry s)) x) ->
  a2 = right U library lib_einsum fw_of (map fst (cr_calls u')) o2 q2.
Proof. exact @second_try. Qed.
Print Assumptions C82_second_try.

(** A call during which no other call makes a step gets the right answer, whatever the
    calls that have stopped in the middle have left behind. *)
Theorem C82_uninterrupted : forall {A} (lim : limits) (U : unicode) (fw_of : nat -> option framework) build (library : framework -> runtime A) lib_einsum,
  honest build -> libraries_ok U library -> forall es es' o q a L, decent_events (es ++ Enter o q :: es') ->
  let happens := history lim U fw_of build library lib_einsum in
  let s := happens es nobody in let s1 := happens [Enter o q] s in let s' := happens es' s1 in
  length (cr_calls s1) = S (length (cr_calls s)) -> (forall j, In (Move j) es' -> j = length (cr_calls s)) -> keeps_modules es' (modules (cr_registry s)) ->
  nth_error (cr_calls s') (length (cr_calls s)) = Some (o, q, Done a L) -> suitable U library lib_einsum fw_of (map fst (cr_calls s')) q ->
  (forall x, asks U library lib_einsum (map fst (cr_calls s')) q = Some x -> present fw_of (modules (cr_registry s)) x) ->
  a = right U library lib_einsum fw_of (map fst (cr_calls s')) o q.
Proof. exact @uninterrupted. Qed.
Print Assumptions C82_uninterrupted.

(** No call waits for another: each has ended after 69 steps of its own. *)
Theorem C82_ends : forall {A} (lim : limits) (U : unicode) (fw_of : nat -> option framework) build (library : framework -> runtime A) lib_einsum,
  honest build -> libraries_ok U library -> forall es o q es', decent_events (es ++ Enter o q :: es') ->
  let happens := history lim U fw_of build library lib_einsum in
  let s := happens es nobody in let s1 := happens [Enter o q] s in
  length (cr_calls s1) = S (length (cr_calls s)) -> 69 <= moves (length (cr_calls s)) es' ->
  exists a L, nth_error (cr_calls (happens es' s1)) (length (cr_calls s)) = Some (o, q, Done a L).
Proof. exact @ends. Qed.
Print Assumptions C82_ends.

(** ** Cases *)
Definition ex_history (es : list (occasion Z)) : crowd Z := history einops_limits ascii_unicode ex_types ex_build runtime_for ex_einsum es nobody.
Definition ex_answers (es : list (occasion Z)) : list (option (answer Z)) := map (fun c => match snd c with Done a _ => Some a | _ => None end) (cr_calls (ex_history es)).
Definition right_answers_of (es : list (occasion Z)) : list (option (answer Z)) :=
  let calls := map fst (cr_calls (ex_history es)) in map (fun c => Some (right ascii_unicode runtime_for ex_einsum ex_types calls (fst c) (snd c))) calls.
Fixpoint in_turn (n : nat) (calls : list nat) : list (occasion Z) := match n with 0 => [] | S n => map Move calls ++ in_turn n calls end.
(** two threads with arrays of numpy, one that makes a layer of torch; the caches are
    cleared half way; then the layer is called, and something of no known type *)
Definition busy : list (occasion Z) :=
  Loads [lit "numpy"; lit "torch"] :: Enter forward (re 0 [6] (lit "(a b) -> b a") [(lit "a", 2%Z)]) :: Enter backward (MakeRearrange true (lit "(a b) ... -> ... b a") [(lit "a", 2%Z)]) ::
  Enter forward (DoPack [obj 0 (iota [2; 3]); obj 0 (iota [2])] (lit "i *")) :: in_turn 8 [0; 2; 1] ++ Drop true true true true :: in_turn 62 [0; 1; 2] ++
  Enter forward (UseLayer 1 (obj 1 (iota [6]))) :: Enter forward (re 2 [6] (lit "a -> a") []) :: in_turn 69 [4; 3].
Example C82_answers_case : decent_events busy /\ ex_answers busy = right_answers_of busy /\
  ex_answers busy = map Some [GotOutcome (OutTensor (Ok (mkT [3; 2] [0; 3; 1; 4; 2; 5]%Z))); GotLayer (Ok tt);
    GotOutcome (OutPacked (Ok (mkT [2; 4] [0; 1; 2; 0; 3; 4; 5; 1]%Z, [[3]; []]%Z))); GotOutcome (OutTensor (Ok (mkT [3; 2] [0; 3; 1; 4; 2; 5]%Z))); GotOutcome (OutTensor (Err RuntimeError))].
Proof.
  split; [|split; vm_compute; reflexivity].
  assert (T : forall n ks o q, In (Enter o q) (in_turn n ks) -> False).
  { induction n as [|n IH]; intros ks o q H; [exact H|]. apply in_app_or in H as [H|H]; [|exact (IH _ _ _ H)]. apply in_map_iff in H as (k & E & _). discriminate. }
  assert (Hn : NoDup (map fst [(lit "a", 2%Z)])) by (repeat constructor; intros []).
  intros o q H. unfold busy in H. destruct H as [H|[H|[H|[H|H]]]]; [discriminate| | | |].
  - injection H as <- <-. split; [apply forward_ok|]. split; [exact Hn|discriminate].
  - injection H as <- <-. split; [apply backward_ok|exact Hn].
  - injection H as <- <-. split; [apply forward_ok|exact I].
  - apply in_app_or in H as [H|[H|H]]; [destruct (T _ _ _ _ H)|discriminate|]. apply in_app_or in H as [H|[H|[H|H]]]; [destruct (T _ _ _ _ H)| | |destruct (T _ _ _ _ H)].
    + injection H as <- <-. split; [apply forward_ok|exact I].
    + injection H as <- <-. split; [apply forward_ok|]. split; [constructor|discriminate].
Qed.

(** Two threads with tensors of torch, in a new process.  The second looks through
    the dict of backends (46-48) before the first has stored torch's, and through the
    classes (51) after that.  So "a tensor of an imported framework is never refused",
    true for one thread (C74), is false for two. *)
Definition torch_call : request Z := re 1 [6] (lit "(a b) -> b a") [(lit "a", 2%Z)].
Definition race_start : list (occasion Z) := [Loads [lit "torch"]; Enter forward torch_call].
Definition race_rest : list (occasion Z) := in_turn 3 [1] ++ in_turn 69 [0] ++ in_turn 69 [1].
Definition race : list (occasion Z) := race_start ++ Enter forward torch_call :: race_rest.
Lemma no_enter n ks o q : In (Enter o q) (in_turn n ks) -> False.
Proof. induction n as [|n IH]; intros H; [exact H|]. apply in_app_or in H as [H|H]; [|exact (IH H)]. apply in_map_iff in H as (k & E & _). discriminate. Qed.
Lemma torch_decent : orders_ok forward /\ decent torch_call.
Proof. split; [apply forward_ok|]. split; [repeat constructor; intros []|discriminate]. Qed.
Lemma race_decent : decent_events race.
Proof.
  intros o q H. unfold race, race_start, race_rest in H. cbn [app In] in H. destruct H as [H|[H|[H|H]]]; [discriminate|injection H as <- <-; exact torch_decent|injection H as <- <-; exact torch_decent|].
  apply in_app_or in H as [H|H]; [|apply in_app_or in H as [H|H]]; destruct (no_enter _ _ _ _ H).
Qed.
Theorem C82_never_refused_refuted : exists (es es' : list (occasion Z)) o q a L,
  honest ex_build /\ libraries_ok ascii_unicode runtime_for /\ decent_events (es ++ Enter o q :: es') /\
  let s := ex_history es in let s' := ex_history (es ++ Enter o q :: es') in
  nth_error (cr_calls s') (length (cr_calls s)) = Some (o, q, Done a L) /\ suitable ascii_unicode runtime_for ex_einsum ex_types (map fst (cr_calls s')) q /\
  keeps_modules es' (modules (cr_registry s)) /\
  (forall x, asks ascii_unicode runtime_for ex_einsum (map fst (cr_calls s')) q = Some x -> present ex_types (modules (cr_registry s)) x) /\
  a = GotOutcome (OutTensor (Err RuntimeError)) /\
  right ascii_unicode runtime_for ex_einsum ex_types (map fst (cr_calls s')) o q = GotOutcome (OutTensor (Ok (mkT [3; 2] [0; 3; 1; 4; 2; 5]%Z))).
Proof.
  exists race_start, race_rest, forward, torch_call, (GotOutcome (OutTensor (Err RuntimeError))), None.
  split; [intros n c ms; split; [reflexivity|apply incl_tl, incl_refl]|]. split; [split; [apply ascii_unicode_ok|intros f; split; reflexivity]|]. split; [exact race_decent|].
  cbv zeta. split; [vm_compute; reflexivity|]. split; [exact I|]. split; [vm_compute; exact I|]. split.
  { intros x E. injection E as <-. exists {| c_name := lit "TorchBackend"; c_framework := lit "torch" |}. split; [right; right; left; reflexivity|]. split; [reflexivity|left; reflexivity]. }
  split; [reflexivity|vm_compute; reflexivity].
Qed.
Print Assumptions C82_never_refused_refuted.
(** what C82_refused says of it *)
Example C82_refused_case : nth_error (cr_calls (ex_history race)) 1 = Some (forward, torch_call, Done (refused ascii_unicode runtime_for ex_einsum (map fst (cr_calls (ex_history race))) forward torch_call) None) /\
  loaded (cr_registry (ex_history race_start)) = [] /\ has_backend (lit "torch") (cr_registry (ex_history race)).
Proof. split; [vm_compute; reflexivity|]. split; [reflexivity|]. eexists. vm_compute. left. reflexivity. Qed.
(** the second try *)
Example C82_second_try_case : ex_answers (race ++ Enter backward torch_call :: in_turn 69 [2]) =
  map Some [GotOutcome (OutTensor (Ok (mkT [3; 2] [0; 3; 1; 4; 2; 5]%Z))); GotOutcome (OutTensor (Err RuntimeError)); GotOutcome (OutTensor (Ok (mkT [3; 2] [0; 3; 1; 4; 2; 5]%Z)))].
Proof. vm_compute. reflexivity. Qed.
Example C82_in_use_case : settled ex_types (obj 1 (iota [6])) (cr_registry (ex_history race)).
Proof. left. eexists. split; [vm_compute; left; reflexivity|vm_compute; reflexivity]. Qed.
(** the first call has built its backend and stops before it stores it; the second
    runs to its end meanwhile *)
Example C82_uninterrupted_case :
  ex_answers (race_start ++ in_turn 20 [0] ++ Enter forward torch_call :: in_turn 69 [1]) = [None; Some (GotOutcome (OutTensor (Ok (mkT [3; 2] [0; 3; 1; 4; 2; 5]%Z))))] /\
  length (attempts (cr_registry (ex_history (race_start ++ in_turn 20 [0])))) = 1 /\ loaded (cr_registry (ex_history (race_start ++ in_turn 20 [0]))) = [].
Proof. split; [vm_compute; reflexivity|]. split; vm_compute; reflexivity. Qed.
Example C82_ends_case : moves 1 race_rest = 72 /\ length (cr_calls (ex_history race)) = 2.
Proof. split; vm_compute; reflexivity. Qed.
