(** * C102: sizes of the tensors made by layers, einsum and EinMix *)
From Verif Require Import Py Tensor SpecSem SpecGrammar SpecPattern SpecOps SpecCalls SpecElements Parsing Recipe Ops Backends Api Layers Einsum EinMix Footprint LayerFootprint
  SpecFootprint SpecLayerFootprint LayerFootprintFacts LayerFootprintFacts2 Instances SpecEinsum EinsumFacts4 MixFacts9 SpecEinMix MixShapes.

(** Noting the shapes of all tensors that are made changes no result and no error. *)
Theorem C102_same_reduce : forall (A : Type) (r : runtime A) (os : nat -> orders) (pattern : pystr) (red : reduction (logged A)) (red' : reduction (tensor A)) (sizes : list (pystr * Z)),
  erases_to red red' ->
  both (fun L L' => forall x, erase (logged_call_layer r L x) = call_layer r L' (fst x))
    (Reduce (rt_unicode r) os pattern red sizes) (Reduce (rt_unicode r) os pattern red' sizes).
Proof. exact (fun A r os pattern red red' sizes H => reduce_layer_same r os pattern red red' sizes H). Qed.
Print Assumptions C102_same_reduce.
Theorem C102_same_rearrange : forall (A : Type) (r : runtime A) (os : nat -> orders) (pattern : pystr) (sizes : list (pystr * Z)),
  both (fun L L' => forall x, erase (logged_call_layer r L x) = call_layer r L' (fst x))
    (Rearrange (rt_unicode r) os pattern sizes) (Rearrange (rt_unicode r) os pattern sizes).
Proof. exact (fun A r os pattern sizes => rearrange_layer_same r os pattern sizes). Qed.
Print Assumptions C102_same_rearrange.
Theorem C102_same_einsum : forall (A : Type) (r : runtime A) lib (args : list (logged A + pystr)),
  erase (logged_einsum r lib args) = einsum_with (rt_unicode r) lib (map without_log args).
Proof. exact (fun A r lib args => erase_einsum r lib args). Qed.
Print Assumptions C102_same_einsum.
Theorem C102_same_einmix : forall (A : Type) (r : runtime A) lib iadd (os os' : nat -> orders) (pattern wt : pystr) (bt : option pystr) (sizes : list (pystr * Z)),
  both (fun M M' => forall w b x, erase (logged_call_einmix r lib iadd M w b x) = call_einmix r lib iadd M' (fst w) (option_map fst b) (fst x))
    (EinMix (rt_unicode r) os os' pattern wt bt sizes) (EinMix (rt_unicode r) os os' pattern wt bt sizes).
Proof. exact (fun A r lib iadd os os' pattern wt bt sizes => einmix_same r lib iadd os os' pattern wt bt sizes). Qed.
Print Assumptions C102_same_einmix.

(** Unless the input is empty, no tensor that a layer makes has more elements than the
    input or the result. *)
Theorem C102_reduce : forall (A : Type) (r : runtime A) (os : nat -> orders) pattern red sizes (L : layer (logged A)) x y log, modest red ->
  Reduce (rt_unicode r) os pattern red sizes = Ok L -> logged_call_layer r L (new x) = Ok (y, log) -> size x <> 0 ->
  forall s, In s log -> prodn s <= Nat.max (size x) (size y).
Proof. exact (fun A r os pattern red sizes L x y log => reduce_layer_bound r os pattern red sizes L x y log). Qed.
Print Assumptions C102_reduce.
(** A Rearrange layer makes at most three tensors, all with as many elements as the
    input (also if that is empty). *)
Theorem C102_rearrange : forall (A : Type) (r : runtime A) (os : nat -> orders) pattern sizes (L : layer (logged A)) x y log,
  runtime_ok r -> (forall n, orders_ok (os n)) ->
  Rearrange (rt_unicode r) os pattern sizes = Ok L -> logged_call_layer r L (new x) = Ok (y, log) ->
  length log <= 3 /\ all_of_size (size x) log /\ size y = size x.
Proof. exact (fun A r os pattern sizes L x y log Hr Ho => rearrange_layer_made r os pattern sizes L x y log Hr Ho). Qed.
Print Assumptions C102_rearrange.
(** The shapes that a layer makes are those that the function makes (C87_shapes), in the
    same order. *)
Theorem C102_shapes : forall (A : Type) (r : runtime A) (os : nat -> orders) pattern (op : pystr) sizes (M : layer (logged A)) x y log w L R e len,
  runtime_ok r -> (forall n, orders_ok (os n)) -> NoDup (map fst sizes) ->
  Reduce (rt_unicode r) os pattern (RStr op) sizes = Ok M \/ op = lit "rearrange" /\ Rearrange (rt_unicode r) os pattern sizes = Ok M ->
  call_ok (rt_unicode r) w pattern sizes (shp x) L R e len -> @runs_as (logged A) (RStr op) w ->
  logged_call_layer r M (new x) = Ok (y, log) ->
  rev log = shapes_made (manner_of (rt_framework r) op) (left_groups e L) (right_groups e L R) len.
Proof. exact (fun A r os pattern op sizes M x y log w L R e len => any_layer_shapes r os pattern op sizes M x y log w L R e len). Qed.
Print Assumptions C102_shapes.

(** einsum makes one tensor, its result (of what the library makes inside nothing is said). *)
Theorem C102_einsum : forall (A : Type) (r : runtime A) lib (args : list (tensor A + pystr)) y log,
  logged_einsum r lib (map with_new args) = Ok (y, log) -> log = [shp y].
Proof. exact (fun A r lib args y log => einsum_makes r lib args y log). Qed.
Print Assumptions C102_einsum.

(** EinMix makes nothing of a third size: first up to three tensors with as many elements
    as the input, then up to five with as many as the result. *)
Theorem C102_einmix : forall (A : Type) (r : runtime A) lib iadd (os os' : nat -> orders) pattern wt bt sizes (M : einmix (logged A)) w b x y log,
  runtime_ok r -> (forall n, orders_ok (os n)) -> (forall n, orders_ok (os' n)) -> keeps_shape iadd ->
  EinMix (rt_unicode r) os os' pattern wt bt sizes = Ok M ->
  logged_call_einmix r lib iadd M (new w) (option_map new b) (new x) = Ok (y, log) ->
  exists before after, log = after ++ before /\ length before <= 3 /\ 1 <= length after <= 5 /\ all_of_size (size x) before /\ all_of_size (size y) after.
Proof. exact (fun A r lib iadd os os' pattern wt bt sizes M w b x y log Hr => mix_made r lib iadd os os' pattern wt bt sizes M w b x y log (ro_unicode _ Hr)). Qed.
Print Assumptions C102_einmix.

(** Precisely: at most one tensor before the contraction, its result, one more if there is
    a bias, and at most one after. *)
Theorem C102_einmix_made : forall (A : Type) (r : runtime A) lib iadd (os os' : nat -> orders) pattern wt bt sizes (M : einmix (logged A)) w b x y log L R W,
  runtime_ok r -> (forall n, orders_ok (os n)) -> (forall n, orders_ok (os' n)) -> NoDup (map fst sizes) -> keeps_shape iadd ->
  reads (rt_unicode r) pattern L R -> written (rt_unicode r) wt W -> SpecGrammar.plain L -> SpecGrammar.plain R -> SpecGrammar.plain W ->
  EinMix (rt_unicode r) os os' pattern wt bt sizes = Ok M ->
  logged_call_einmix r lib iadd M (new w) (option_map new b) (new x) = Ok (y, log) ->
  exists before middle after, log = after ++ middle ++ before /\ length before <= 1 /\ length after <= 1 /\
    length middle = match b with Some _ => 2 | None => 1 end /\ all_of_size (size x) before /\ all_of_size (size y) (after ++ middle).
Proof.
  exact (fun A r lib iadd os os' pattern wt bt sizes M w b x y log L R W Hr => mix_once r (ro_unicode _ Hr) lib iadd os os' pattern wt bt sizes M w b x y log L R W).
Qed.
Print Assumptions C102_einmix_made.

(** With a library that contracts as it should, all shapes are known: the single axes of the
    left side if it has a group, those of the right side, once more if there is a bias, and the
    result if the right side has a group. *)
Theorem C102_einmix_shapes : forall (A : Type) (r : runtime A) (add mul : A -> A -> A) (zero one : A) lib iadd (os os' : nat -> orders) pattern wt bt sizes
    (L R W : expr) (M : einmix (logged A)) (e : nat) (len : label -> nat) x w b y log,
  runtime_ok r -> (forall a b, add a b = add b a) -> (forall a b c, add a (add b c) = add (add a b) c) -> (forall a, mul a one = a) ->
  einsum_contract add mul zero one lib -> keeps_shape iadd -> (forall n, orders_ok (os n)) -> (forall n, orders_ok (os' n)) -> NoDup (map fst sizes) ->
  reads (rt_unicode r) pattern L R -> written (rt_unicode r) wt W -> SpecGrammar.plain L -> SpecGrammar.plain R -> SpecGrammar.plain W ->
  EinMix (rt_unicode r) os os' pattern wt bt sizes = Ok M ->
  wf x -> wf w -> rank_fits L (length (shp x)) e -> fits len (left_groups e L) (right_groups e L R) (shp x) sizes ->
  (forall g, In g (left_groups e L) -> filter (unknown (map fst sizes)) g <> [] ->
     prodn (map len (filter (fun a => negb (unknown (map fst sizes) a)) g)) <> 0) ->
  (em_pre M <> None \/ em_post M <> None -> e < 8) -> map Z.of_nat (shp w) = em_weight M ->
  logged_call_einmix r lib iadd M (new w) (option_map new b) (new x) = Ok (y, log) ->
  rev log = (if singles (left_groups e L) then [] else [map len (concat (left_groups e L))]) ++
            List.repeat (map len (concat (right_groups e L R))) (match b with Some _ => 2 | None => 1 end) ++
            (if singles (right_groups e L R) then [] else [gshape len (right_groups e L R)]).
Proof.
  exact (fun A r add mul zero one lib iadd os os' pattern wt bt sizes L R W M e len x w b y log Hok Hc Ha H1 HC HI Ho Ho' Hn Hr HW PL PR PW HM Wx Ww Hk Hf Hd He Sw =>
    mix_shapes_made add mul zero one Hc Ha H1 lib HC iadd HI r Hok os os' Ho Ho' pattern wt bt sizes L R W Hr HW PL PR PW Hn M HM e len x w Wx Ww Hk Hf Hd He Sw b y log).
Qed.
Print Assumptions C102_einmix_shapes.

(** Non-vacuity *)
Example C102_layer_case :
  exists L N : layer (logged Z),
  Reduce ascii_unicode (fun _ => forward) (lit "a (b c d) -> (d c)") (RStr (lit "prod")) [(lit "b", 3%Z); (lit "c", 2%Z)] = Ok L /\
  Rearrange ascii_unicode (fun _ => forward) (lit "a (b c) -> (c a) b") [(lit "b", 3%Z)] = Ok N /\
  logged_call_layer torch_like L (new (iota [2; 6])) = Ok (mkT [2] [0; 10395]%Z, [[2]; [1; 2]; [1; 2; 2]; [1; 2; 2; 3]; [2; 3; 2; 1]]) /\
  logged_call_layer (runtime_for Keras) L (new (iota [2; 6])) = Ok (mkT [2] [0; 10395]%Z, [[2]; [1; 2]; [1; 2; 2; 3]; [2; 3; 2; 1]]) /\
  logged_call_layer torch_like N (new (iota [2; 6])) = Ok (mkT [4; 3] [0; 2; 4; 6; 8; 10; 1; 3; 5; 7; 9; 11]%Z, [[4; 3]; [2; 2; 3]; [2; 3; 2]]).
Proof. do 2 eexists. split; [vm_compute; reflexivity|]. split; [vm_compute; reflexivity|]. repeat split; vm_compute; reflexivity. Qed.
Example C102_einmix_case :
  let lib := ref_einsum Z.add Z.mul 0%Z 1%Z in let add := ref_iadd Z.add 0%Z in
  exists M : einmix (logged Z),
  EinMix ascii_unicode (fun _ => forward) (fun _ => forward) (lit "(a c) -> (a d)") (lit "c d") (Some (lit "d")) [(lit "c", 3%Z); (lit "d", 4%Z)] = Ok M /\
  (exists y, logged_call_einmix torch_like lib add M (new (iota [3; 4])) (Some (new (iota [1; 4]))) (new (iota [6])) = Ok (y, [[8]; [2; 4]; [2; 4]; [2; 3]])) /\
  (exists y, logged_einsum torch_like lib (map with_new [inl (iota [2; 3]); inl (iota [3; 4]); inr (lit "a c, c d -> a d")]) = Ok (y, [[2; 4]])) /\
  keeps_shape add.
Proof.
  cbv zeta. eexists. split; [vm_compute; reflexivity|]. split; [eexists; vm_compute; reflexivity|]. split; [eexists; vm_compute; reflexivity|].
  intros t b y H. injection H as <-. reflexivity.
Qed.
(** the hypothesis on the size of the input is needed: C87_empty_case as a layer *)
Example C102_empty_case :
  exists L : layer (logged Z), Reduce ascii_unicode (fun _ => forward) (lit "a b c ->") (RStr (lit "prod")) [] = Ok L /\
  logged_call_layer torch_like L (new (mkT [100; 0; 7] [])) = Ok (mkT [] [1%Z], [[]; [100]; [100; 0]]).
Proof. eexists. split; vm_compute; reflexivity. Qed.
(** the layer and the lengths of C31_case, where the hypotheses are shown *)
Example C102_einmix_shapes_case :
  let len := fun a => match a with SpecPattern.LName s => if str_eqb s (lit "c") then 3 else 2 | _ => 2 end in
  let gl := left_groups 1 [Atom ADots; Group [AName (lit "h"); AName (lit "c")]] in
  let gr := right_groups 1 [Atom ADots; Group [AName (lit "h"); AName (lit "c")]] [Atom ADots; Group [AName (lit "d"); AName (lit "h")]] in
  exists (M : einmix (logged Z)) y log,
  EinMix ascii_unicode (fun _ => forward) (fun _ => backward) (lit "... (h c) -> ... (d h)") (lit "h c d") (Some (lit "d")) [(lit "c", 3%Z); (lit "d", 2%Z); (lit "h", 2%Z)] = Ok M /\
  logged_call_einmix numpy_like (ref_einsum Z.add Z.mul 0%Z 1%Z) (ref_iadd Z.add 0%Z) M (new (iota [2; 3; 2])) (Some (new (iota [2; 1]))) (new (iota [2; 6])) = Ok (y, log) /\
  log = [[2; 4]; [2; 2; 2]; [2; 2; 2]; [2; 2; 3]] /\
  rev log = (if singles gl then [] else [map len (concat gl)]) ++ List.repeat (map len (concat gr)) 2 ++ (if singles gr then [] else [gshape len gr]).
Proof. cbv zeta. do 3 eexists. split; [vm_compute; reflexivity|]. split; [vm_compute; reflexivity|]. split; [reflexivity|vm_compute; reflexivity]. Qed.
