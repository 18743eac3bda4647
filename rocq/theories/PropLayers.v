(** * Rearrange and Reduce layers *)
From Verif Require Import Py Tensor Parsing Recipe Ops Backends SpecGrammar SpecPattern SpecOps Api ParseFacts Layers SpecLayers LayerFacts Instances.

(** ** C20: layers behave like the functions.  [os]: iteration orders of the sets
    when the layer is made, they may differ from those at the time of a call *)
Theorem C20_rearrange : forall {A} (r : runtime A) os pattern sizes L,
  runtime_ok r -> (forall n, orders_ok (os n)) -> NoDup (map fst sizes) -> no_reserved sizes ->
  Rearrange (rt_unicode r) os pattern sizes = Ok L ->
  like_function r L pattern (fun x => rearrange r (One x) pattern sizes).
Proof. exact (fun A r os p sizes L Hok => rearrange_layer r Hok os p sizes L). Qed.
Print Assumptions C20_rearrange.

Theorem C20_reduce : forall {A} (r : runtime A) os pattern red sizes L,
  runtime_ok r -> (forall n, orders_ok (os n)) -> NoDup (map fst sizes) -> no_reserved sizes -> torch_fits r red ->
  Reduce (rt_unicode r) os pattern red sizes = Ok L ->
  like_function r L pattern (fun x => reduce r (One x) pattern red sizes).
Proof. exact (fun A r os p red sizes L Hok => reduce_layer r Hok os p red sizes L). Qed.
Print Assumptions C20_reduce.

(** when a layer cannot be made, the function fails in the same way on every tensor *)
Theorem C20_rearrange_made : forall {A} (r : runtime A) os pattern sizes ex,
  runtime_ok r -> (forall n, orders_ok (os n)) -> no_reserved sizes -> ~ In (lit "self") (map fst sizes) ->
  @Rearrange (tensor A) (rt_unicode r) os pattern sizes = Err ex -> forall x, rearrange r (One x) pattern sizes = Err ex.
Proof. exact (fun A r os p sizes ex Hok => rearrange_layer_error r Hok os p sizes ex). Qed.
Print Assumptions C20_rearrange_made.

Theorem C20_reduce_made : forall {A} (r : runtime A) os pattern red sizes ex,
  runtime_ok r -> (forall n, orders_ok (os n)) -> no_reserved sizes -> ~ In (lit "self") (map fst sizes) ->
  Reduce (rt_unicode r) os pattern red sizes = Err ex -> forall x, reduce r (One x) pattern red sizes = Err ex.
Proof. exact (fun A r os p red sizes ex Hok => reduce_layer_error r Hok os p red sizes ex). Qed.
Print Assumptions C20_reduce_made.

(** the torch layers do not know "any" and "all", unlike the function *)
Theorem C20_torch_any_refuted : exists (r : runtime Z) os pattern L x y,
  runtime_ok r /\ rt_framework r = Torch /\ (forall n, orders_ok (os n)) /\
  Reduce (rt_unicode r) os pattern (RStr (lit "any")) [] = Ok L /\
  call_layer r L x = Err NotImplementedError /\ reduce r (One x) pattern (RStr (lit "any")) [] = Ok y.
Proof.
  destruct (Reduce ascii_unicode (fun _ => forward) (lit "a b -> a") (@RStr (tensor Z) (lit "any")) []) as [L|] eqn:E; [|vm_compute in E; discriminate].
  exists torch_like, (fun _ => forward), (lit "a b -> a"), L, (iota [2; 3]), (mkT [2] [1; 4]%Z).
  split; [apply runtime_for_ok|]. split; [reflexivity|]. split; [intros _; apply forward_ok|]. split; [exact E|].
  vm_compute in E. injection E as <-. split; vm_compute; reflexivity.
Qed.
Print Assumptions C20_torch_any_refuted.

(** ** C21: a layer restored from its saved state, maybe in another process, does
    the same on every input.  Saving again gives the same state. *)
Theorem C21_rearrange : forall {A} (U : unicode) os os' pattern sizes (L : layer (tensor A)),
  unicode_ok U -> (forall n, orders_ok (os n)) -> (forall n, orders_ok (os' n)) -> NoDup (map fst sizes) ->
  Rearrange U os pattern sizes = Ok L ->
  exists L', Rearrange_setstate U os' (Rearrange_getstate L) = Ok L' /\ Rearrange_getstate L' = Rearrange_getstate L /\
    forall r x, runtime_ok r -> rt_unicode r = U -> call_layer r L' x = call_layer r L x.
Proof. exact (fun A U os os' p sizes L HU => rearrange_saved U HU os os' p sizes L). Qed.
Print Assumptions C21_rearrange.

Theorem C21_reduce : forall {A} (U : unicode) os os' pattern (red : reduction (tensor A)) sizes L,
  unicode_ok U -> (forall n, orders_ok (os n)) -> (forall n, orders_ok (os' n)) -> NoDup (map fst sizes) ->
  Reduce U os pattern red sizes = Ok L ->
  exists L', Reduce_setstate U os' (Reduce_getstate L) = Ok L' /\ Reduce_getstate L' = Reduce_getstate L /\
    forall r x, runtime_ok r -> rt_unicode r = U -> call_layer r L' x = call_layer r L x.
Proof. exact (fun A U os os' p red sizes L HU => reduce_saved U HU os os' p red sizes L). Qed.
Print Assumptions C21_reduce.

(** the same for the configuration of keras layers *)
Theorem C21_rearrange_config : forall {A} (U : unicode) os os' pattern sizes (L : layer (tensor A)),
  unicode_ok U -> (forall n, orders_ok (os n)) -> (forall n, orders_ok (os' n)) -> NoDup (map fst sizes) ->
  Rearrange U os pattern sizes = Ok L ->
  exists L', Rearrange_from_config U os' (Rearrange_config L) = Ok L' /\
    forall r x, runtime_ok r -> rt_unicode r = U -> call_layer r L' x = call_layer r L x.
Proof. exact (fun A U os os' p sizes L HU => rearrange_config_saved U HU os os' p sizes L). Qed.
Print Assumptions C21_rearrange_config.

Theorem C21_reduce_config : forall {A} (U : unicode) os os' pattern (red : reduction (tensor A)) sizes L,
  unicode_ok U -> (forall n, orders_ok (os n)) -> (forall n, orders_ok (os' n)) -> NoDup (map fst sizes) ->
  Reduce U os pattern red sizes = Ok L ->
  exists L', Reduce_from_config U os' (Reduce_config L) = Ok L' /\
    forall r x, runtime_ok r -> rt_unicode r = U -> call_layer r L' x = call_layer r L x.
Proof. exact (fun A U os os' p red sizes L HU => reduce_config_saved U HU os os' p red sizes L). Qed.
Print Assumptions C21_reduce_config.

(** ** Concrete cases *)
(** a layer with an ellipsis: three different numbers of dimensions *)
Example C20_case : exists L, @Rearrange (tensor Z) ascii_unicode (fun _ => backward) (lit "(a b) ... -> ... b a") [(lit "a", 2%Z)] = Ok L /\
  map fst (ly_recipes L) = [1; 2; 3; 4; 5; 6; 7; 8] /\
  call_layer torch_like L (iota [6]) = Ok (mkT [3; 2] [0; 3; 1; 4; 2; 5]%Z) /\
  call_layer numpy_like L (iota [6]) = Ok (mkT [3; 2] [0; 3; 1; 4; 2; 5]%Z) /\
  call_layer torch_like L (iota [4; 1; 2]) = Ok (mkT [1; 2; 2; 2] [0; 4; 2; 6; 1; 5; 3; 7]%Z) /\
  call_layer torch_like L (iota []) = Err KeyError /\
  call_layer torch_like L (iota [2; 1; 1; 1; 1; 1; 1; 1; 1]) = Err KeyError /\
  (exists y, rearrange torch_like (One (iota [2; 1; 1; 1; 1; 1; 1; 1; 1])) (lit "(a b) ... -> ... b a") [(lit "a", 2%Z)] = Ok y) /\
  NoDup (map fst [(lit "a", 2%Z)]) /\ no_reserved [(lit "a", 2%Z)].
Proof.
  destruct (@Rearrange (tensor Z) ascii_unicode (fun _ => backward) (lit "(a b) ... -> ... b a") [(lit "a", 2%Z)]) as [L|] eqn:E; [|vm_compute in E; discriminate].
  exists L. split; [reflexivity|]. vm_compute in E. injection E as <-.
  split; [vm_compute; reflexivity|]. split; [vm_compute; reflexivity|]. split; [vm_compute; reflexivity|]. split; [vm_compute; reflexivity|].
  split; [vm_compute; reflexivity|]. split; [vm_compute; reflexivity|].
  split; [eexists; vm_compute; reflexivity|]. split; [repeat constructor; intros []|].
  intros s [<-|[]] [X|[X|[X|[]]]]; discriminate.
Qed.
Example C20_reduce_case : exists L, @Reduce (tensor Z) ascii_unicode (fun _ => backward) (lit "a b -> b") (RStr (lit "prod")) [] = Ok L /\
  call_layer torch_like L (iota [2; 3]) = Ok (mkT [3] [0; 4; 10]%Z) /\ torch_fits torch_like (RStr (lit "prod")).
Proof.
  destruct (@Reduce (tensor Z) ascii_unicode (fun _ => backward) (lit "a b -> b") (RStr (lit "prod")) []) as [L|] eqn:E; [|vm_compute in E; discriminate].
  exists L. split; [reflexivity|]. vm_compute in E. injection E as <-. split; [vm_compute; reflexivity|].
  intros _. exists (lit "prod"). repeat split; try discriminate.
Qed.
Example C20_made_case : @Rearrange (tensor Z) ascii_unicode (fun _ => forward) (lit "a b -> b") [] = Err EinopsError.
Proof. vm_compute. reflexivity. Qed.
(** names of parameters: what one takes as a size the other may not *)
Example C20_reserved_names :
  (exists L, @Rearrange (tensor Z) ascii_unicode (fun _ => forward) (lit "(tensor b) -> b tensor") [(lit "tensor", 2%Z)] = Ok L) /\
  rearrange numpy_like (One (iota [6])) (lit "(tensor b) -> b tensor") [(lit "tensor", 2%Z)] = Err TypeError /\
  @Rearrange (tensor Z) ascii_unicode (fun _ => forward) (lit "(self b) -> b self") [(lit "self", 2%Z)] = Err TypeError /\
  rearrange numpy_like (One (iota [6])) (lit "(self b) -> b self") [(lit "self", 2%Z)] = Ok (mkT [3; 2] [0; 3; 1; 4; 2; 5]%Z).
Proof. split; [eexists; vm_compute; reflexivity|]. vm_compute. auto. Qed.
Example C21_case : exists L, @Reduce (tensor Z) ascii_unicode (fun _ => backward) (lit "(a b) -> b") (RStr (lit "max")) [(lit "a", 2%Z)] = Ok L /\
  Reduce_getstate L = (lit "(a b) -> b", RStr (lit "max"), [(lit "a", 2%Z)]) /\
  Reduce_config L = [(lit "pattern", VStr (lit "(a b) -> b")); (lit "reduction", VStr (lit "max")); (lit "a", VInt 2)].
Proof. eexists. vm_compute. auto. Qed.
