(** * C86: how often patterns are looked at *)
From Verif Require Import Py Tensor SpecGrammar Parsing Recipe Ops Backends Api Packing Einsum Cache Work SpecWork WorkFacts WorkFacts2 WorkFacts3 WorkFacts4 WorkFacts5 Instances.

(** After any history of calls, layers and cleared caches, a call makes a recipe exactly
    if its key (pattern, operation, names of the given lengths, number of dimensions)
    is not remembered: it was not accepted since the cache was cleared, or at least as
    many other keys as the cache has room for were accepted since it was last asked for.
    Keys that were refused take no room.  A call asks for at most one recipe. *)
Theorem C86_recipes : forall (A : Type) lim U (h : list (event A)) (r : runtime A) (c : call A), unicode_ok U -> Forall (event_ok U) h -> rt_unicode r = U ->
  match recipe_asked r c with
  | Some k => once_unless (remembered (recipe_accepted U) (l_recipes lim) (recipe_requests h) k) (recipes_in (runs lim r c (caches_after lim U h))) k
  | None => recipes_in (runs lim r c (caches_after lim U h)) = []
  end.
Proof. exact (fun A lim U h r c HU F EU => recipes_when lim U HU h r c F EU). Qed.
Print Assumptions C86_recipes.
(** The same for each recipe that the constructor of a layer asks for. *)
Theorem C86_layers : forall (A : Type) lim U (h : list (event A)) k, unicode_ok U -> Forall (event_ok U) h ->
  once_unless (remembered (recipe_accepted U) (l_recipes lim) (recipe_requests h) k) (recipes_in (prepare_runs k (caches_after lim U h))) k.
Proof. exact (fun A lim U h k HU F => prepare_when lim U HU k h F). Qed.
Print Assumptions C86_layers.
(** The same for the patterns of pack and unpack, which are remembered together with the
    name of the function, and for those of einsum. *)
Theorem C86_packing : forall (A : Type) lim U (h : list (event A)) (r : runtime A) (c : call A), unicode_ok U -> Forall (event_ok U) h -> rt_unicode r = U ->
  match pattern_asked c with
  | Some k => once_unless (remembered (pattern_accepted U) (l_analyzed lim) (pattern_requests h) k) (patterns_in (runs lim r c (caches_after lim U h))) k
  | None => patterns_in (runs lim r c (caches_after lim U h)) = []
  end.
Proof. exact (fun A lim U h r c HU F EU => patterns_when lim U HU h r c F EU). Qed.
Print Assumptions C86_packing.
Theorem C86_einsum : forall (A : Type) lim U (h : list (event A)) (r : runtime A) (c : call A), unicode_ok U -> Forall (event_ok U) h -> rt_unicode r = U ->
  match einsum_asked c with
  | Some p => once_unless (remembered (einsum_accepted U) (l_compact lim) (einsum_requests h) p) (einsums_in (runs lim r c (caches_after lim U h))) p
  | None => einsums_in (runs lim r c (caches_after lim U h)) = []
  end.
Proof. exact (fun A lim U h r c HU F EU => einsums_when lim U HU h r c F EU). Qed.
Print Assumptions C86_einsum.

(** So if the accepted keys fit into the cache and it is not cleared, each accepted key
    is worked on exactly once in the whole history, and what was not asked for never. *)
Theorem C86_once : forall (A : Type) lim U (h : list (event A)), unicode_ok U -> Forall (event_ok U) h ->
  ((forall a b c, ~ In (Cleared true a b c) h) -> fewer_than (recipe_accepted U) (S (l_recipes lim)) (recipe_requests h) ->
     forall k, (recipe_accepted U k -> In k (recipe_requests h) -> exactly_once k (recipes_in (work lim U h))) /\
               (~ In k (recipe_requests h) -> ~ In k (recipes_in (work lim U h)))) /\
  ((forall a b c, ~ In (Cleared a b true c) h) -> fewer_than (pattern_accepted U) (S (l_analyzed lim)) (pattern_requests h) ->
     forall k, (pattern_accepted U k -> In k (pattern_requests h) -> exactly_once k (patterns_in (work lim U h))) /\
               (~ In k (pattern_requests h) -> ~ In k (patterns_in (work lim U h)))) /\
  ((forall a b c, ~ In (Cleared a b c true) h) -> fewer_than (einsum_accepted U) (S (l_compact lim)) (einsum_requests h) ->
     forall p, (einsum_accepted U p -> In p (einsum_requests h) -> exactly_once p (einsums_in (work lim U h))) /\
               (~ In p (einsum_requests h) -> ~ In p (einsums_in (work lim U h)))).
Proof. exact (fun A lim U h HU F => all_once lim U HU h F). Qed.
Print Assumptions C86_once.
(** A key that is refused is worked on each time it is asked for. *)
Theorem C86_refused : forall (A : Type) lim U (h : list (event A)) (dec : forall a b : rkey, {a = b} + {a <> b}) k, unicode_ok U -> Forall (event_ok U) h ->
  (forall a b c, ~ In (Cleared true a b c) h) -> ~ recipe_accepted U k ->
  count_occ dec (recipes_in (work lim U h)) k = count_occ dec (recipe_requests h) k.
Proof. exact (fun A lim U h dec k HU F => refused_each_time lim U HU h dec k F). Qed.
Print Assumptions C86_refused.

(** If recipes and plans (recipe, shape, lengths) of a history of calls and new layers
    fit into the caches, then a call like one that returned before runs none of the
    cached functions: no pattern is parsed and no plan is made. *)
Theorem C86_warm : forall (A : Type) lim U (h : list (event A)) (r r' : runtime A) c c' v, unicode_ok U ->
  Forall (event_ok U) h -> calls_only h ->
  fewer_than (recipe_accepted U) (S (l_recipes lim)) (recipe_requests h) -> fewer_than (fun _ => True) (S (l_cooked lim)) (plan_requests h) ->
  In (Called r' c') h -> call_ok c' -> compute r' c' = OutTensor (Ok v) -> plan_asked r' c' <> None ->
  rt_unicode r = U -> plan_asked r c = plan_asked r' c' -> runs lim r c (caches_after lim U h) = [].
Proof. exact (fun A lim U h r r' c c' v HU => warm_runs lim U HU h r r' c c' v). Qed.
Print Assumptions C86_warm.

(** If a call's recipe, shape and lengths were not asked for together before, its plan is
    made, once, in whatever state the caches are; if the recipe is refused, none is made. *)
Theorem C86_plans : forall (A : Type) lim U (h : list (event A)) (r : runtime A) (c : call A), unicode_ok U -> Forall (event_ok U) h ->
  (forall rec shape sizes, ~ In (LayerUsed rec shape sizes) h) -> runtime_ok r -> rt_unicode r = U ->
  match plan_asked r c with
  | Some (k, shape, sizes) =>
      (~ recipe_accepted U k -> plans_in (runs lim r c (caches_after lim U h)) = []) /\
      (recipe_accepted U k -> ~ In (k, shape, sizes) (plan_requests h) -> plans_in (runs lim r c (caches_after lim U h)) = [(shape, sizes)])
  | None => plans_in (runs lim r c (caches_after lim U h)) = []
  end.
Proof. exact (fun A lim U h r c HU F Hl Hr EU => plans_when lim U HU h r c F Hl Hr EU). Qed.
Print Assumptions C86_plans.

(** Non-vacuity: room for two recipes *)
Definition two86 : limits := {| l_recipes := 2; l_cooked := 3; l_analyzed := 1; l_compact := 1 |}.
Definition x86 : tensor Z := mkT [2; 3] [1; 2; 3; 4; 5; 6]%Z.
Definition call86 (p : pystr) : event Z := Called torch_like (CallReduce (One x86) p (RStr (lit "rearrange")) None []).
Definition key86 (p : pystr) : rkey := (p, KStr (lit "rearrange"), [], 2).
(** the latest first: the third pattern puts out the first, which then puts out the second *)
Example C86_recipes_case :
  let h := [call86 (lit "a b -> b a"); call86 (lit "a b -> a b ()"); call86 (lit "a b -> (a b)"); call86 (lit "a b -> (a b)"); call86 (lit "a -> a"); call86 (lit "a b -> b a")] in
  recipes_in (work two86 (rt_unicode torch_like) h) =
    [key86 (lit "a b -> b a"); key86 (lit "a b -> a b ()"); key86 (lit "a b -> (a b)"); key86 (lit "a -> a"); key86 (lit "a b -> b a")] /\
  map (fun e => recipes_in (event_runs two86 e (caches_after two86 (rt_unicode torch_like) h))) [call86 (lit "a b -> b a"); call86 (lit "a b -> a b ()"); call86 (lit "a b -> (a b)")] =
    [[]; []; [key86 (lit "a b -> (a b)")]].
Proof. vm_compute. auto. Qed.
(** a pattern that is remembered for pack is not for unpack *)
Example C86_packing_case :
  patterns_in (work einops_limits (rt_unicode torch_like) [Called torch_like (CallUnpack x86 [[3%Z]] (lit "a *")); Called torch_like (CallPack [x86] (lit "a *")); Called torch_like (CallPack [x86; x86] (lit "a *"))]) =
  [(lit "a *", lit "unpack"); (lit "a *", lit "pack")].
Proof. vm_compute. reflexivity. Qed.
(** the second call does nothing but the operations on tensors, with other elements *)
Example C86_warm_case :
  let c x := CallReduce (One x) (lit "(a b) c -> c a b") (RStr (lit "rearrange")) None [(lit "a", 2%Z)] in
  let h := [call86 (lit "a b -> b a"); Called torch_like (c x86); LayerMade (rt_orders torch_like) (key86 (lit "a b -> b a"))] in
  compute torch_like (c x86) = OutTensor (Ok (mkT [3; 2; 1] [1; 4; 2; 5; 3; 6]%Z)) /\
  plan_asked torch_like (c x86) = Some (lit "(a b) c -> c a b", KStr (lit "rearrange"), [lit "a"], 2, [2; 3]%Z, [(lit "a", 2%Z)]) /\
  runs einops_limits torch_like (c (mkT [2; 3] [0; 0; 0; 0; 0; 7]%Z)) (caches_after einops_limits (rt_unicode torch_like) h) = [] /\
  length (work einops_limits (rt_unicode torch_like) h) = 4.
Proof. vm_compute. auto. Qed.
(** the same recipe for two shapes: one recipe, two plans *)
Example C86_plans_case :
  let c x := CallReduce (One x) (lit "a b -> b a") (RStr (lit "rearrange")) None [] in
  let w := work einops_limits (rt_unicode torch_like) [Called torch_like (c x86); Called torch_like (c (mkT [1; 2] [8; 9]%Z)); Called torch_like (c x86)] in
  recipes_in w = [key86 (lit "a b -> b a")] /\ plans_in w = [([1; 2]%Z, []); ([2; 3]%Z, [])].
Proof. vm_compute. auto. Qed.
