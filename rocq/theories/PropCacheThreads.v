(** * The caches cannot be noticed by threads either *)
From Verif Require Import Py Tensor Parsing Recipe Ops Backends Api Packing Einsum ParseFacts Cache CacheFacts CacheThreads CacheThreadFacts PropCache Instances.

(** ** C44: calls in any number of threads, whose accesses to the caches come in any
    order, while caches are cleared: whatever a call returns, it returns without
    caches.  For every size of the caches. *)
Theorem C44_unnoticed : forall (lim : limits) {A} (U : unicode) (es : list (occurrence A)) i r c v,
  (forall r c, In (Begin r c) es -> runtime_ok r /\ rt_unicode r = U /\ call_ok c) ->
  nth_error (running (occurred lim es idle)) i = Some (r, c, Return v) -> v = compute r c.
Proof. exact @threads_unnoticed. Qed.
Print Assumptions C44_unnoticed.

(** place [i] belongs to the call that began as number [i] *)
Theorem C44_calls : forall (lim : limits) {A} (es : list (occurrence A)),
  map fst (running (occurred lim es idle)) = flat_map (fun e => match e with Begin r c => [(r, c)] | _ => [] end) es.
Proof. exact (fun lim A es => calls_begun lim es idle). Qed.
Print Assumptions C44_calls.

(** a call ends after at most four accesses to the caches, in any state of caches
    and threads *)
Theorem C44_ends : forall (lim : limits) {A} (es : list (occurrence A)) s r c,
  4 <= length (filter (fun e => match e with Go j => length (running s) =? j | _ => false end) es) ->
  exists v, nth_error (running (occurred lim (Begin r c :: es) s)) (length (running s)) = Some (r, c, Return v).
Proof. exact @call_ends. Qed.
Print Assumptions C44_ends.

(** the caches never hold more than they should *)
Theorem C44_bounded : forall (lim : limits) {A} (es : list (occurrence A)),
  let st := memory (occurred lim es idle) in
  length (c_recipes st) <= l_recipes lim /\ length (c_cooked st) <= l_cooked lim /\
  length (c_analyzed st) <= l_analyzed lim /\ length (c_compact st) <= l_compact lim.
Proof. exact @always_bounded. Qed.
Print Assumptions C44_bounded.

(** a call that is not interrupted is the one of C11 *)
Theorem C44_uninterrupted : forall (lim : limits) {A} (s : workers A) r c,
  let s' := occurred lim (Begin r c :: repeat (Go (length (running s))) 4) s in
  memory s' = snd (serve lim r c (memory s)) /\
  nth_error (running s') (length (running s)) = Some (r, c, Return (fst (serve lim r c (memory s)))).
Proof. exact @not_interrupted. Qed.
Print Assumptions C44_uninterrupted.

(** ** Concrete cases *)
Definition begin_cr p sizes : occurrence Z := let '(r, c) := cr p sizes in Begin r c.
Definition finished (s : workers Z) : list (option (outcome Z)) := map (fun rcp => match snd rcp with Return v => Some v | _ => None end) (running s).
(** two equal calls, both of which find the caches empty, and a third one that
    drops their entries while they run; caches of one entry *)
Definition contest : list (occurrence Z) :=
  [begin_cr (lit "(a b) -> a b") [(lit "a", 2%Z)]; begin_cr (lit "(a b) -> a b") [(lit "a", 2%Z)]; begin_cr (lit "(a b) -> b a") [(lit "a", 2%Z)];
   Go 0; Go 1; Go 0; Go 1; Go 2; Go 2; Go 0; Go 1; Go 2; Clear true false false false; Go 1; Go 0; Go 2].
Example C44_case :
  finished (occurred tiny contest idle) =
    [Some (OutTensor (Ok (iota [2; 3]))); Some (OutTensor (Ok (iota [2; 3]))); Some (OutTensor (Ok (mkT [3; 2] [0; 3; 1; 4; 2; 5]%Z)))] /\
  length (c_made (memory (occurred tiny contest idle))) = 3 /\
  (forall r c, In (Begin r c) contest -> runtime_ok r /\ rt_unicode r = ascii_unicode /\ call_ok c).
Proof.
  split; [vm_compute; reflexivity|]. split; [vm_compute; reflexivity|]. intros r c H. unfold contest in H. cbn [In begin_cr cr] in H.
  repeat destruct H as [H|H]; try contradiction; try discriminate; injection H as <- <-; (split; [apply runtime_for_ok|split; [reflexivity|]]);
    (split; [repeat constructor; intros []|discriminate]).
Qed.
