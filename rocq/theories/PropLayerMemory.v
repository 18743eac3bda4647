(** * C79: layers in memory *)
From Verif Require Import Py Tensor SpecGrammar SpecSem SpecPattern SpecOps SpecCalls SpecElements Parsing Recipe Ops Backends Api Layers EinMix CallsFacts Strides SpecStrides StrideFacts5 EinsumFacts4 MixFacts9
  LayerMemory SpecLayerMemory LayerMemoryFacts LayerMemoryFacts2 LayerMemoryFacts3 Instances.

(** Whatever is shared or copied, a layer shows the elements that the same layer
    computes for tensors as values, and the exceptions are the same. *)
Theorem C79_rearrange_values : forall (A : Type) (mem : memory A) nocopy (r : runtime A) U os pattern sizes x x',
  nocopy_ok nocopy -> shows mem x x' ->
  both (shows mem) (let* L := Rearrange U os pattern sizes in v_call_layer mem nocopy r L x) (let* L := Rearrange U os pattern sizes in call_layer r L x').
Proof.
  exact (fun A mem nocopy r U os p sizes x x' Hnc Hx =>
    ElementFacts.both_bind _ _ _ _ _ _ (Rearrange_show mem U os p sizes) (fun L L' HL => layer_values mem nocopy Hnc r L L' x x' HL Hx)).
Qed.
Print Assumptions C79_rearrange_values.
Theorem C79_reduce_values : forall (A : Type) (mem : memory A) nocopy (r : runtime A) U os pattern red red' sizes x x',
  nocopy_ok nocopy -> reds_show mem red red' -> shows mem x x' ->
  both (shows mem) (let* L := Reduce U os pattern red sizes in v_call_layer mem nocopy r L x) (let* L := Reduce U os pattern red' sizes in call_layer r L x').
Proof.
  exact (fun A mem nocopy r U os p red red' sizes x x' Hnc Hr Hx =>
    ElementFacts.both_bind _ _ _ _ _ _ (Reduce_show mem U os p red red' sizes Hr) (fun L L' HL => layer_values mem nocopy Hnc r L L' x x' HL Hx)).
Qed.
Print Assumptions C79_reduce_values.

(** If nothing is reduced, a layer returns the array that the function returns: the
    same buffer, offset, shape and strides.  So what C67 says about views holds for
    layers. *)
Theorem C79_views : forall (A : Type) (mem : memory A) nocopy (r : runtime A) os pattern (red : reduction (array A)) sizes M x w L R e len,
  runtime_ok r -> (forall n, orders_ok (os n)) -> NoDup (map fst sizes) -> no_reserved sizes ->
  Reduce (rt_unicode r) os pattern red sizes = Ok M -> runs_as red w ->
  call_ok (rt_unicode r) w pattern sizes (a_shp x) L R e len -> e < 8 -> missing (left_groups e L) (right_groups e L R) = [] ->
  v_call_layer mem nocopy r M x = v_reduce mem nocopy r (One x) pattern red sizes.
Proof.
  exact (fun A mem nocopy r os p red sizes M x w L R e len Hok Hos Hn Hres HM Hw Hc He Hm =>
    layer_is_function mem nocopy r Hok os p red sizes M x w L R e len Hos Hn Hres (Reduce_made _ os p red sizes M HM) (runs_as_role red w Hw) Hc He Hm).
Qed.
Print Assumptions C79_views.
Theorem C79_rearrange_views : forall (A : Type) (mem : memory A) nocopy (r : runtime A) os pattern sizes (M : layer (array A)) x L R e len,
  runtime_ok r -> (forall n, orders_ok (os n)) -> NoDup (map fst sizes) -> no_reserved sizes ->
  Rearrange (rt_unicode r) os pattern sizes = Ok M ->
  call_ok (rt_unicode r) Rearranging pattern sizes (a_shp x) L R e len -> e < 8 ->
  v_call_layer mem nocopy r M x = v_rearrange mem nocopy r (One x) pattern sizes.
Proof.
  exact (fun A mem nocopy r os p sizes M x L R e len Hok Hos Hn Hres HM Hc He =>
    rearrange_is_function mem nocopy r Hok os p sizes M x L R e len Hos Hn Hres HM Hc He).
Qed.
Print Assumptions C79_rearrange_views.
(** If something is reduced, the result is in a new buffer. *)
Theorem C79_copy : forall (A : Type) (mem : memory A) nocopy (r : runtime A) os pattern s sizes (M : layer (array A)) x y w L R e len,
  runtime_ok r -> (forall n, orders_ok (os n)) -> NoDup (map fst sizes) ->
  Reduce (rt_unicode r) os pattern (RStr s) sizes = Ok M -> runs_as (RStr (T := array A) s) w ->
  call_ok (rt_unicode r) w pattern sizes (a_shp x) L R e len -> missing (left_groups e L) (right_groups e L R) <> [] ->
  v_call_layer mem nocopy r M x = Ok y -> own_buffer y.
Proof.
  exact (fun A mem nocopy r os p s sizes M x y w L R e len Hok Hos Hn HM Hw Hc Hm =>
    layer_new mem nocopy r Hok os p s sizes M x y w L R e len Hos Hn (Reduce_made _ os p _ sizes M HM) (runs_as_role (RStr s) w Hw) Hc Hm).
Qed.
Print Assumptions C79_copy.

(** EinMix adds the bias with [+=], which may write into the result of the library's
    einsum.  If that is a new array, a call computes what it computes for values, leaves the
    memory as it was (the input, the weight and the bias are not changed), and its
    result shares memory with none of them. *)
Theorem C79_einmix : forall (A : Type) (mem : memory A) nocopy (r : runtime A) in_place lib ref iadd U os os' pattern weight bias sizes (M : einmix (array A)) (M' : einmix (tensor A)) w w' b b' x x',
  nocopy_ok nocopy -> einsum_in_memory lib ref -> keeps_shape iadd ->
  EinMix U os os' pattern weight bias sizes = Ok M -> EinMix U os os' pattern weight bias sizes = Ok M' ->
  shows mem x x' -> shows mem w w' -> option_shows mem b b' ->
  both (fun '(mem', y) y' => mem' = mem /\ shows mem y y' /\ own_buffer y)
    (v_call_einmix mem nocopy r in_place lib iadd M w b x) (call_einmix r ref iadd M' w' b' x').
Proof.
  exact (fun A mem nocopy r ip lib ref iadd U os os' p wt bt sizes M M' w w' b b' x x' Hnc Hl Ha HM HM' =>
    einmix_call_memory mem nocopy Hnc r ip lib ref iadd Hl Ha U os os' p wt bt sizes M M' w w' b b' x x' HM HM').
Qed.
Print Assumptions C79_einmix.
(** If all that is known is that einsum's result has the right elements at places of
    their own, perhaps in memory that is in use, the result of the layer still has the
    right elements when it is returned, and nothing is changed but the buffer of einsum's
    result. *)
Theorem C79_einmix_values : forall (A : Type) (mem : memory A) nocopy (r : runtime A) in_place lib ref iadd U os os' pattern weight bias sizes (M : einmix (array A)) (M' : einmix (tensor A)) w w' b b' x x',
  nocopy_ok nocopy -> einsum_shows lib ref -> keeps_shape iadd ->
  EinMix U os os' pattern weight bias sizes = Ok M -> EinMix U os os' pattern weight bias sizes = Ok M' ->
  shows mem x x' -> shows mem w w' -> option_shows mem b b' ->
  both (fun '(mem', y) y' => shows mem' y y' /\ forall id, mem' id <> mem id -> exists eq vs v, lib mem eq vs = Ok v /\ a_buf v = Old id)
    (v_call_einmix mem nocopy r in_place lib iadd M w b x) (call_einmix r ref iadd M' w' b' x').
Proof.
  exact (fun A mem nocopy r ip lib ref iadd U os os' p wt bt sizes M M' w w' b b' x x' Hnc Hl Ha HM HM' =>
    einmix_call_values mem nocopy Hnc r ip lib ref iadd Hl Ha U os os' p wt bt sizes M M' w w' b b' x x' HM HM').
Qed.
Print Assumptions C79_einmix_values.
(** The constructor on arrays and the one on tensors accept the same. *)
Theorem C79_made : forall (A : Type) (mem : memory A) U os os' pattern weight bias sizes,
  both (fun M M' => em_einsum M = em_einsum M' /\ em_weight M = em_weight M' /\ em_bias M = em_bias M')
    (EinMix (T := array A) U os os' pattern weight bias sizes) (EinMix (T := tensor A) U os os' pattern weight bias sizes).
Proof. exact (fun A mem U os os' => einmix_made_both mem U os os'). Qed.
Print Assumptions C79_made.
(** Such libraries exist. *)
Theorem C79_library : forall (A : Type) (add mul : A -> A -> A) zero one,
  einsum_in_memory (new_einsum (ref_einsum add mul zero one)) (ref_einsum add mul zero one) /\ keeps_shape (ref_iadd add zero).
Proof. exact (fun A add mul zero one => conj (new_einsum_ok _ (fun eq ts t _ => ref_einsum_wf add mul zero one eq ts t)) (ref_iadd_keeps add zero)). Qed.
Print Assumptions C79_library.

(** Right elements alone are not enough: with an einsum that returns its operand when
    that already is the result, the call computes the right values but changes its
    input.  Here: 'a -> a' with a weight that is the number 1, and a bias. *)
Theorem C79_alias_refuted :
  let ref := ref_einsum Z.add Z.mul 0%Z 1%Z in let f := alias_einsum ref in
  einsum_shows f ref /\
  exists M mem' y, EinMix (rt_unicode torch_like) (fun _ => rt_orders torch_like) (fun _ => rt_orders torch_like) (lit "a -> a") (lit "") (Some (lit "a")) [(lit "a", 2%Z)] = Ok M /\
    v_call_einmix four simple_nocopy torch_like true f (ref_iadd Z.add 0%Z) M in_w (Some in_b) in_x = Ok (mem', y) /\
    read mem' y = Ok (mkT [2] [13; 24]%Z) /\ read four in_x = Ok (mkT [2] [10; 20]%Z) /\ read mem' in_x = Ok (mkT [2] [13; 24]%Z).
Proof. exact (conj (alias_values _ (fun eq ts t _ => ref_einsum_wf Z.add Z.mul 0%Z 1%Z eq ts t)) alias_changes). Qed.
Print Assumptions C79_alias_refuted.

(** Non-vacuity *)
Definition twelve79 : memory Z := fun _ => map Z.of_nat (seq 0 12).
Definition tilted79 : array Z := mkArr (Old 0) 0 [4; 3] [1; 4]%Z.
Example C79_views_case :
  let L := [grp [lit "a"; lit "b"]; nm "c"] in let R := [nm "b"; grp []; nm "c"; nm "a"] in
  let len := lens [(lit "a", 2); (lit "b", 2); (lit "c", 3)] in
  call_ok ascii_unicode Rearranging (lit "(a b) c -> b () c a") [(lit "a", 2%Z)] (a_shp tilted79) L R 0 len /\
  forall r, In r [numpy_like; torch_like] ->
  (let* M := Rearrange (rt_unicode r) (fun _ => rt_orders r) (lit "(a b) c -> b () c a") [(lit "a", 2%Z)] in v_call_layer twelve79 simple_nocopy r M tilted79) =
  Ok (mkArr (Old 0) 0 [2; 1; 3; 2] [1; 12; 4; 2]%Z).
Proof. cbv zeta. split; [solve_call (lit "(a b) c ") (lit " b () c a")|]. intros r [<-|[<-|[]]]; vm_compute; reflexivity. Qed.
Example C79_copy_case :
  (let* M := Reduce (rt_unicode torch_like) (fun _ => rt_orders torch_like) (lit "a b -> b") (RStr (lit "max")) [] in v_call_layer twelve79 simple_nocopy torch_like M tilted79) =
  Ok (mkArr (New [3; 7; 11]%Z) 0 [3] [1]%Z).
Proof. vm_compute. reflexivity. Qed.
(** the sum is written into the new array, the input stays *)
Example C79_einmix_case : forall r ip, In (r, ip) [(torch_like, true); (runtime_for Paddle, true); (runtime_for Tensorflow, false)] ->
  (let* M := EinMix (rt_unicode r) (fun _ => rt_orders r) (fun _ => rt_orders r) (lit "a b -> b c a") (lit "b c") (Some (lit "c")) [(lit "b", 3%Z); (lit "c", 2%Z)] in
   let* (mem', y) := v_call_einmix twelve79 simple_nocopy r ip (new_einsum (ref_einsum Z.add Z.mul 0%Z 1%Z)) (ref_iadd Z.add 0%Z) M (mkArr (Old 0) 6 [3; 2] [1; 3]%Z) (Some (mkArr (Old 1) 5 [2; 1] [1; 1]%Z)) tilted79 in
   let* t := read mem' y in let* x := read mem' tilted79 in Ok (a_buf y, shp t, x)) =
  Ok (New [5; 11; 17; 23; 6; 15; 24; 33; 33; 40; 47; 54; 46; 56; 66; 76; 69; 77; 85; 93; 94; 105; 116; 127]%Z, [3; 2; 4], mkT [4; 3] [0; 4; 8; 1; 5; 9; 2; 6; 10; 3; 7; 11]%Z).
Proof. intros r ip [E|[E|[E|[]]]]; injection E as <- <-; vm_compute; reflexivity. Qed.
(** the operand is returned by einsum, changed in place, and copied by the layer after it *)
Definition turned79 : array Z := mkArr (Old 0) 0 [2; 3] [1; 2]%Z.
Definition some79 : memory Z := fun id => match id with 0 => [10; 20; 30; 40; 50; 60]%Z | 1 => [1]%Z | _ => [3; 4; 5]%Z end.
Example C79_einmix_values_case :
  (let* M := EinMix (rt_unicode torch_like) (fun _ => rt_orders torch_like) (fun _ => rt_orders torch_like) (lit "a b -> (a b)") (lit "") (Some (lit "b")) [(lit "b", 3%Z)] in
   let* (mem', y) := v_call_einmix some79 simple_nocopy torch_like true (alias_einsum (ref_einsum Z.add Z.mul 0%Z 1%Z)) (ref_iadd Z.add 0%Z) M in_w (Some (mkArr (Old 2) 0 [1; 3] [3; 1]%Z)) turned79 in
   let* t := read mem' y in Ok (a_buf y, t, mem' 0)) =
  Ok (New [13; 34; 55; 23; 44; 65]%Z, mkT [6] [13; 34; 55; 23; 44; 65]%Z, [13; 23; 34; 44; 55; 65]%Z).
Proof. vm_compute. reflexivity. Qed.
