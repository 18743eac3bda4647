(** * Lengths that are integers of numpy *)
From Coq Require Import Permutation.
From Verif Require Import Py Tensor SpecSem SpecGrammar SpecPattern Parsing Recipe Ops Backends Api Layers Packing Einsum EinMix Cache NumpyInts NumpyIntLayers NumpyIntMix
  NumpyIntFacts2 NumpyIntFacts3 NumpyIntLayerFacts NumpyIntMixFacts NumpyIntCases EinsumFacts4 MixFacts9 Instances.

(** ** C91: a call whose lengths are integers of numpy gives what the same call with
    Python's ints gives, unless that one is refused: then the length of an axis does
    not fit, and the call with integers of numpy may be refused, or may not. *)
Theorem C91_same_outcome : forall {A} (r : runtime A) x pattern red (sizes : list (pystr * anyint)),
  np_reduce r x pattern red sizes = reduce r x pattern red (as_ints sizes) \/
  reduce r x pattern red (as_ints sizes) = Err EinopsError \/ reduce r x pattern red (as_ints sizes) = Err ZeroDivisionError.
Proof. exact @same_outcome. Qed.
Print Assumptions C91_same_outcome.

(** In particular every call that is right with ints is right with integers of numpy. *)
Theorem C91_right_stays_right : forall {A} (r : runtime A) x pattern red (sizes : list (pystr * anyint)) y,
  reduce r x pattern red (as_ints sizes) = Ok y -> np_reduce r x pattern red sizes = Ok y.
Proof. exact @right_stays_right. Qed.
Print Assumptions C91_right_stays_right.

(** Nothing changes if integers of numpy are given for new axes only, and if there are
    none. *)
Theorem C91_new_axes : forall {A} (r : runtime A), runtime_ok r -> forall x pattern red (sizes : list (pystr * anyint)),
  (forall L R s z, reads (rt_unicode r) pattern L R -> In (s, NpInt z) sizes -> ~ In s (keys L)) ->
  np_reduce r x pattern red sizes = reduce r x pattern red (as_ints sizes).
Proof. exact @new_axes_outcome. Qed.
Print Assumptions C91_new_axes.

(** Whatever rearrange lets pass, no element is lost, repeated or made up. *)
Theorem C91_elements : forall {A} (r : runtime A), runtime_ok r -> forall x pattern (sizes : list (pystr * anyint)) y,
  wf x -> np_rearrange r (One x) pattern sizes = Ok y -> Permutation (dat x) (dat y).
Proof. exact @one_elements. Qed.
Print Assumptions C91_elements.
Theorem C91_elements_of_lists : forall {A} (r : runtime A), runtime_ok r -> forall ts pattern (sizes : list (pystr * anyint)) y,
  (forall t, In t ts -> wf t) -> np_rearrange r (Many ts) pattern sizes = Ok y -> Permutation (flat_map dat ts) (dat y).
Proof. exact @many_elements. Qed.
Print Assumptions C91_elements_of_lists.

(** With the caches of a process, whatever calls came before, some with ints and some
    with integers of numpy: a call that is right with ints and empty caches gets the
    same answer. *)
Theorem C91_any_process : forall (lim : limits) {A} (r : runtime A), runtime_ok r -> forall x pattern red id (sizes : list (pystr * anyint)) st v st',
  reachable_caches anyint_ops anyint_eqb lim (rt_unicode r) st -> NoDup (map fst sizes) -> opkey_of red id <> None ->
  cached_np_reduce r lim x pattern red id sizes st = (v, st') ->
  reachable_caches anyint_ops anyint_eqb lim (rt_unicode r) st' /\
  (v = reduce r x pattern red (as_ints sizes) \/ reduce r x pattern red (as_ints sizes) = Err EinopsError \/
   reduce r x pattern red (as_ints sizes) = Err ZeroDivisionError).
Proof. exact @cached_outcome. Qed.
Print Assumptions C91_any_process.

(** A layer is made, or refused, as with ints, and each call of it is related to the call
    of the layer with ints as above. *)
Theorem C91_Reduce : forall {A} (r : runtime A) os pattern red (sizes : list (pystr * anyint)),
  match np_Reduce (rt_unicode r) os pattern red sizes, Reduce (rt_unicode r) os pattern red (as_ints sizes) with
  | Ok L, Ok L' => forall x, np_call_layer r L x = call_layer r L' x \/ call_layer r L' x = Err EinopsError \/ call_layer r L' x = Err ZeroDivisionError
  | Err e, Err e' => e = e'
  | _, _ => False
  end.
Proof. exact @Reduce_outcome. Qed.
Print Assumptions C91_Reduce.
Theorem C91_Rearrange : forall {A} (r : runtime A) os pattern (sizes : list (pystr * anyint)),
  match np_Rearrange (rt_unicode r) os pattern sizes, Rearrange (rt_unicode r) os pattern (as_ints sizes) with
  | Ok L, Ok L' => forall x, np_call_layer r L x = call_layer r L' x \/ call_layer r L' x = Err EinopsError \/ call_layer r L' x = Err ZeroDivisionError
  | Err e, Err e' => e = e'
  | _, _ => False
  end.
Proof. exact @Rearrange_outcome. Qed.
Print Assumptions C91_Rearrange.
Theorem C91_layer_elements : forall {A} (r : runtime A), runtime_ok r -> forall os pattern (sizes : list (pystr * anyint)) (L : np_layer (tensor A)) x y,
  (forall n, orders_ok (os n)) -> np_Rearrange (rt_unicode r) os pattern sizes = Ok L -> wf x -> np_call_layer r L x = Ok y -> Permutation (dat x) (dat y).
Proof. exact @layer_elements. Qed.
Print Assumptions C91_layer_elements.

(** EinMix: made or refused as with ints, with parameters of the same shapes and the same
    number under the roots of the bounds, and with calls related as above, but for one case:
    if that number is the zero of numpy, the bounds are infinite instead of
    ZeroDivisionError, and what happens is up to [_create_parameters] ([infinite]). Nothing
    is assumed of the einsum and the addition of the library. *)
Theorem C91_EinMix : forall {A} (r : runtime A) (lib_einsum : pystr -> list (tensor A) -> result (tensor A)) (iadd : tensor A -> tensor A -> result (tensor A))
    os os' infinite pattern weight_text bias_text (sizes : list (pystr * anyint)),
  match np_EinMix (rt_unicode r) os os' infinite pattern weight_text bias_text sizes, EinMix (rt_unicode r) os os' pattern weight_text bias_text (as_ints sizes) with
  | Ok M, Ok M' => em_weight M' = map int_value (nm_weight M) /\ em_bias M' = option_map (map int_value) (nm_bias M) /\
      em_fan_in M' = int_value (nm_fan_in M) /\
      forall w b x, np_call_einmix r lib_einsum iadd M w b x = call_einmix r lib_einsum iadd M' w b x \/
        call_einmix r lib_einsum iadd M' w b x = Err EinopsError \/ call_einmix r lib_einsum iadd M' w b x = Err ZeroDivisionError
  | Ok M, Err e => e = ZeroDivisionError /\ nm_fan_in M = NpInt 0 /\ infinite = Ok tt /\ exists s z, In (s, NpInt z) sizes
  | Err e, Err e' => e = e' \/ e' = ZeroDivisionError /\ exists s z, In (s, NpInt z) sizes
  | Err _, Ok _ => False
  end.
Proof. exact @EinMix_outcome. Qed.
Print Assumptions C91_EinMix.
Theorem C91_EinMix_right : forall {A} (r : runtime A) (lib_einsum : pystr -> list (tensor A) -> result (tensor A)) (iadd : tensor A -> tensor A -> result (tensor A))
    os os' infinite pattern weight_text bias_text (sizes : list (pystr * anyint)) M',
  EinMix (rt_unicode r) os os' pattern weight_text bias_text (as_ints sizes) = Ok M' ->
  exists M, np_EinMix (rt_unicode r) os os' infinite pattern weight_text bias_text sizes = Ok M /\
    forall w b x y, call_einmix r lib_einsum iadd M' w b x = Ok y -> np_call_einmix r lib_einsum iadd M w b x = Ok y.
Proof. exact @EinMix_right. Qed.
Print Assumptions C91_EinMix_right.
(** If all lengths are integers of numpy, that is what always happens instead of
    ZeroDivisionError: if the framework refuses infinite bounds, its error is raised. *)
Theorem C91_EinMix_zero : forall {T} (U : unicode), unicode_ok U -> forall os os', (forall n, orders_ok (os n)) -> (forall n, orders_ok (os' n)) ->
  forall pattern weight_text bias_text (sizes : list (pystr * anyint)) e, (forall s n, In (s, n) sizes -> exists z, n = NpInt z) ->
  EinMix (T := T) U os os' pattern weight_text bias_text (as_ints sizes) = Err ZeroDivisionError ->
  np_EinMix (T := T) U os os' (Err e) pattern weight_text bias_text sizes = Err e.
Proof. exact @EinMix_zero. Qed.
Print Assumptions C91_EinMix_zero.

(** ** What the missing checks let pass *)
(** [(a b) (c d) -> (a c) (b d)] with a = c = 2 and b = d = 3: the axes of a 4 x 9 tensor
    are taken for 6 x 6 *)
Theorem C91_silent_refuted :
  ~ (forall {A} (r : runtime A), runtime_ok r -> forall x pattern (sizes : list (pystr * anyint)) y,
     np_rearrange r (One x) pattern sizes = Ok y -> exists y', rearrange r (One x) pattern (as_ints sizes) = Ok y').
Proof. exact silent. Qed.
Print Assumptions C91_silent_refuted.
(** ... and it is remembered: 2 and np.int64(2) are the same key, so that a call with
    ints, which is refused by a fresh process, gets a tensor after the call above. *)
Theorem C91_remembered_refuted :
  ~ (forall (lim : limits) {A} (r : runtime A), runtime_ok r -> forall x pattern red id (sizes : list (pystr * Z)) st v st',
     reachable_caches anyint_ops anyint_eqb lim (rt_unicode r) st -> NoDup (map fst sizes) -> opkey_of red id <> None ->
     cached_np_reduce r lim x pattern red id (map (fun '(s, z) => (s, PyInt z)) sizes) st = (v, st') -> v = reduce r x pattern red sizes).
Proof. exact remembered. Qed.
Print Assumptions C91_remembered_refuted.

(** ** Cases *)
(** lengths that fit; of the two factors of 12, one is given *)
Example C91_case_right :
  np_rearrange numpy_like (One (iota [2; 12])) (lit "a (b c) -> c a b") [(lit "b", NpInt 3); (lit "a", PyInt 2)] =
  rearrange numpy_like (One (iota [2; 12])) (lit "a (b c) -> c a b") [(lit "b", 3%Z); (lit "a", 2%Z)] /\
  exists y, rearrange numpy_like (One (iota [2; 12])) (lit "a (b c) -> c a b") [(lit "b", 3%Z); (lit "a", 2%Z)] = Ok y /\ shp y = [4; 2; 3].
Proof. split; [vm_compute; reflexivity|]. eexists. split; [vm_compute; reflexivity|reflexivity]. Qed.
(** a length that is wrong for an axis of its own is not noticed at all *)
Example C91_case_ignored :
  np_rearrange numpy_like (One (iota [3; 4])) (lit "a b -> b a") [(lit "a", NpInt 5)] = rearrange numpy_like (One (iota [3; 4])) (lit "a b -> b a") [] /\
  rearrange numpy_like (One (iota [3; 4])) (lit "a b -> b a") [(lit "a", 5%Z)] = Err EinopsError.
Proof. split; vm_compute; reflexivity. Qed.
(** one that does not divide is noticed by the library's reshape *)
Example C91_case_library :
  np_rearrange numpy_like (One (iota [3; 4])) (lit "a (b c) -> c b a") [(lit "b", NpInt 3)] = Err BackendError /\
  rearrange numpy_like (One (iota [3; 4])) (lit "a (b c) -> c b a") [(lit "b", 3%Z)] = Err EinopsError.
Proof. split; vm_compute; reflexivity. Qed.
(** the 4 x 9 tensor *)
Example C91_case_crossed : exists y, np_rearrange numpy_like (One (iota [4; 9])) p_crossed crossed = Ok y /\ shp y = [4; 9] /\ dat y <> dat (iota [4; 9]).
Proof. eexists. split; [vm_compute; reflexivity|]. split; [reflexivity|]. cbn. discriminate. Qed.
(** a new axis *)
Example C91_case_new : exists y, np_repeat numpy_like (One (iota [2])) (lit "a -> a b") [(lit "b", NpInt 3)] = Ok y /\ dat y = [0; 0; 0; 1; 1; 1]%Z.
Proof. eexists. split; [vm_compute; reflexivity|reflexivity]. Qed.
(** layers of both kinds of library, with the 4 x 9 tensor and with one that fits *)
Example C91_case_layer : forall f, In f [Numpy; Torch] -> let r := with_framework numpy_like f in
  exists L L', np_Rearrange (rt_unicode r) (fun _ => rt_orders r) p_crossed crossed = Ok L /\ Rearrange (rt_unicode r) (fun _ => rt_orders r) p_crossed (as_ints crossed) = Ok L' /\
  (exists y, np_call_layer r L (iota [4; 9]) = Ok y /\ shp y = [4; 9]) /\ call_layer r L' (iota [4; 9]) = Err EinopsError /\
  (exists y, np_call_layer r L (iota [6; 6]) = Ok y /\ call_layer r L' (iota [6; 6]) = Ok y /\ dat y <> dat (iota [6; 6])).
Proof.
  intros f [<-|[<-|[]]]; cbv zeta; (eexists; eexists; split; [vm_compute; reflexivity|]; split; [vm_compute; reflexivity|];
    split; [eexists; split; vm_compute; reflexivity|]; split; [vm_compute; reflexivity|]; eexists; split; [vm_compute; reflexivity|]; split; [vm_compute; reflexivity|]; cbn; discriminate).
Qed.
(** EinMix: a tensor that fits, a 4 x 9 tensor taken for 6 x 6, and a contraction over nothing *)
Example C91_case_einmix :
  let make := np_EinMix ascii_unicode (fun _ => forward) (fun _ => backward) (Ok tt) in
  let make' := EinMix ascii_unicode (fun _ => forward) (fun _ => backward) in
  let call := np_call_einmix numpy_like (ref_einsum Z.add Z.mul 0%Z 1%Z) (ref_iadd Z.add 0%Z) in
  let call' := call_einmix numpy_like (ref_einsum Z.add Z.mul 0%Z 1%Z) (ref_iadd Z.add 0%Z) in
  let sizes := [(lit "c", NpInt 3); (lit "d", PyInt 2); (lit "h", NpInt 2)] in
  (exists M, make (lit "... (h c) -> ... (d h)") (lit "h c d") (Some (lit "d")) sizes = Ok M /\
     nm_weight M = [NpInt 2; NpInt 3; PyInt 2] /\ nm_bias M = Some [PyInt 2; PyInt 1] /\ nm_fan_in M = NpInt 3 /\
     call M (iota [2; 3; 2]) (Some (iota [2; 1])) (iota [2; 6]) = Ok (mkT [2; 4] [10; 100; 14; 113; 46; 244; 68; 275]%Z)) /\
  (exists M M' y, make (lit "(a b) (c d) -> a c") (lit "b d") None crossed = Ok M /\ make' (lit "(a b) (c d) -> a c") (lit "b d") None (as_ints crossed) = Ok M' /\
     call M (iota [3; 3]) None (iota [4; 9]) = Ok y /\ shp y = [2; 2] /\ call' M' (iota [3; 3]) None (iota [4; 9]) = Err EinopsError) /\
  (exists M, make (lit "b c -> b d") (lit "c d") None [(lit "c", NpInt 0); (lit "d", PyInt 2)] = Ok M /\
     call M (mkT [0; 2] []) None (mkT [3; 0] []) = Ok (mkT [3; 2] [0; 0; 0; 0; 0; 0]%Z)) /\
  make' (lit "b c -> b d") (lit "c d") None [(lit "c", 0%Z); (lit "d", 2%Z)] = Err ZeroDivisionError.
Proof.
  cbv zeta. split; [|split; [|split]].
  - eexists. split; [vm_compute; reflexivity|]. repeat (split; [reflexivity|]). vm_compute. reflexivity.
  - eexists. eexists. eexists. split; [vm_compute; reflexivity|]. split; [vm_compute; reflexivity|]. split; [vm_compute; reflexivity|]. split; vm_compute; reflexivity.
  - eexists. split; [vm_compute; reflexivity|]. vm_compute. reflexivity.
  - vm_compute. reflexivity.
Qed.
(** a library that refuses infinite bounds *)
Example C91_case_zero :
  np_EinMix (T := tensor Z) ascii_unicode (fun _ => forward) (fun _ => backward) (Err BackendError) (lit "b c -> b d") (lit "c d") None [(lit "c", NpInt 0); (lit "d", NpInt 2)] = Err BackendError /\
  EinMix (T := tensor Z) ascii_unicode (fun _ => forward) (fun _ => backward) (lit "b c -> b d") (lit "c d") None [(lit "c", 0%Z); (lit "d", 2%Z)] = Err ZeroDivisionError.
Proof. split; vm_compute; reflexivity. Qed.
