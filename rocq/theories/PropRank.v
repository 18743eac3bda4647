(** * C105: dimensions of the tensors made on the way *)
From Verif Require Import Py Tensor SpecSem SpecGrammar SpecPattern SpecOps SpecCalls Parsing Recipe Ops Backends Api Packing
  Layers Footprint SpecFootprint LayerFootprint SpecLayerFootprint SpecRank RankFacts Einsum EinMix SpecEinsum SpecEinMix EinsumFacts4 MixFacts9 MixShapes Instances.

(** No tensor that reduce, rearrange or repeat makes has more dimensions than the input,
    the result, or the number of axes on one side of the pattern. *)
Theorem C105_reduce : forall (A : Type) (r : runtime A) (x : input (tensor A)) pattern sizes (op : pystr) y log sh w L R e len, runtime_ok r ->
  NoDup (map fst sizes) -> no_reserved sizes -> call_ok (rt_unicode r) w pattern sizes sh L R e len -> @runs_as (logged A) (RStr op) w ->
  input_shape sh x -> logged_reduce r (fresh x) pattern (RStr op) sizes = Ok (y, log) ->
  forall s, In s log -> length s <= most_dims (left_groups e L) (right_groups e L R).
Proof. exact (fun A r x pattern sizes op y log sh w L R e len Hr Hns Hres Hok Hw => reduce_ranks r Hr pattern sizes sh w L R e len Hns Hok x op y log Hres Hw). Qed.
Print Assumptions C105_reduce.
Theorem C105_array_api : forall (A : Type) (r : runtime A) (x : input (tensor A)) pattern sizes (op : pystr) y log sh w L R e len, runtime_ok r ->
  NoDup (map fst sizes) -> no_reserved sizes -> call_ok (rt_unicode r) w pattern sizes sh L R e len -> @runs_as (logged A) (RStr op) w ->
  input_shape sh x -> logged_xp_reduce r (fresh x) pattern (RStr op) sizes = Ok (y, log) ->
  forall s, In s log -> length s <= most_dims (left_groups e L) (right_groups e L R).
Proof. exact (fun A r x pattern sizes op y log sh w L R e len Hr Hns Hres Hok Hw => xp_ranks r Hr pattern sizes sh w L R e len Hns Hok x op y log Hres Hw). Qed.
Print Assumptions C105_array_api.
(** The same for the layers. *)
Theorem C105_layer : forall (A : Type) (r : runtime A) (os : nat -> orders) pattern (op : pystr) sizes (M : layer (logged A)) x y log w L R e len,
  runtime_ok r -> (forall n, orders_ok (os n)) -> NoDup (map fst sizes) ->
  Reduce (rt_unicode r) os pattern (RStr op) sizes = Ok M \/ op = lit "rearrange" /\ Rearrange (rt_unicode r) os pattern sizes = Ok M ->
  call_ok (rt_unicode r) w pattern sizes (shp x) L R e len -> @runs_as (logged A) (RStr op) w ->
  logged_call_layer r M (new x) = Ok (y, log) ->
  forall s, In s log -> length s <= most_dims (left_groups e L) (right_groups e L R).
Proof. exact (fun A r os pattern op sizes M x y log w L R e len => layer_ranks r os pattern op sizes M x y log w L R e len). Qed.
Print Assumptions C105_layer.
(** And for EinMix, with a library that contracts as it should (C102_einmix_shapes has the
    shapes themselves). *)
Theorem C105_einmix : forall (A : Type) (r : runtime A) (add mul : A -> A -> A) (zero one : A) lib iadd (os os' : nat -> orders) pattern wt bt sizes
    (L R W : expr) (M : einmix (logged A)) (e : nat) (len : label -> nat) x w b y log,
  runtime_ok r -> (forall a b, add a b = add b a) -> (forall a b c, add a (add b c) = add (add a b) c) -> (forall a, mul a one = a) ->
  einsum_contract add mul zero one lib -> keeps_shape iadd -> (forall n, orders_ok (os n)) -> (forall n, orders_ok (os' n)) -> NoDup (map fst sizes) ->
  reads (rt_unicode r) pattern L R -> written (rt_unicode r) wt W -> SpecGrammar.plain L -> SpecGrammar.plain R -> SpecGrammar.plain W ->
  EinMix (rt_unicode r) os os' pattern wt bt sizes = Ok M ->
  wf x -> wf w -> rank_fits L (length (shp x)) e -> fits len (left_groups e L) (right_groups e L R) (shp x) sizes ->
  (forall g, In g (left_groups e L) -> filter (unknown (map fst sizes)) g <> [] ->
     prodn (map len (filter (fun a => negb (unknown (map fst sizes) a)) g)) <> 0) ->
  (em_pre M <> None \/ em_post M <> None -> e < 8) -> map Z.of_nat (shp w) = em_weight M ->
  logged_call_einmix r lib iadd M (new w) (option_map new b) (new x) = Ok (y, log) ->
  forall s, In s log -> length s <= most_dims (left_groups e L) (right_groups e L R).
Proof.
  exact (fun A r add mul zero one lib iadd os os' pattern wt bt sizes L R W M e len x w b y log Hok Hc Ha H1 HC HI Ho Ho' Hn Hr HW PL PR PW HM Wx Ww Hk Hf Hd He Sw =>
    mix_ranks add mul zero one Hc Ha H1 lib HC iadd HI r Hok os os' Ho Ho' pattern wt bt sizes L R W Hr HW PL PR PW Hn M HM e len x w Wx Ww Hk Hf Hd He Sw b y log).
Qed.
Print Assumptions C105_einmix.
(** All tensors that pack makes have as many dimensions as its result; unpack makes for each
    piece one with as many as its argument and then the piece. *)
Theorem C105_pack : forall (A : Type) (r : runtime A) (ts : list (tensor A)) pattern y log shapes,
  logged_pack r (map (fun t => (t, [])) ts) pattern = Ok ((y, log), shapes) -> forall s, In s log -> length s = rank y.
Proof. exact (fun A r ts pattern y log shapes => pack_ranks r ts pattern y log shapes). Qed.
Print Assumptions C105_pack.
Theorem C105_unpack : forall (A : Type) (r : runtime A) (x : tensor A) shapes pattern ys,
  logged_unpack r (x, []) shapes pattern = Ok ys -> forall y log, In (y, log) ys -> exists s, log = [shp y; s] /\ length s = rank x.
Proof. exact (fun A r x shapes pattern ys => unpack_ranks r x shapes pattern ys). Qed.
Print Assumptions C105_unpack.

(** Non-vacuity: four axes on the left, of a tensor with two dimensions; nothing made has
    more than four dimensions, and one has four. *)
Example C105_case :
  let gl := [[SpecPattern.LName (lit "a")]; [SpecPattern.LName (lit "b"); SpecPattern.LName (lit "c"); SpecPattern.LName (lit "d")]] in
  let gr := [[SpecPattern.LName (lit "d"); SpecPattern.LName (lit "c")]] in
  exists log, logged_reduce torch_like (fresh (One (iota [2; 6]))) (lit "a (b c d) -> (d c)") (RStr (lit "prod")) [(lit "b", 3%Z); (lit "c", 2%Z)] = Ok (mkT [2] [0; 10395]%Z, log) /\
    Forall (fun s => length s <= most_dims gl gr) log /\ Exists (fun s => length s = most_dims gl gr) log /\ most_dims gl gr = 4.
Proof.
  cbv zeta. eexists. split; [vm_compute; reflexivity|]. split; [repeat constructor|]. split; [|reflexivity].
  apply Exists_exists. exists [2; 3; 2; 1]. split; [|reflexivity]. cbn. tauto.
Qed.
Example C105_pack_case :
  (exists y ps, logged_pack torch_like (map (fun t => (t, [])) [iota [2; 3; 4]; iota [2; 4]]) (lit "a * c") = Ok ((y, [[2; 4; 4]; [2; 3; 4]; [2; 1; 4]]), ps)) /\
  (exists ys, logged_unpack torch_like (iota [2; 4; 4], []) [[3%Z]; []] (lit "a * c") = Ok ys /\ map snd ys = [[[2; 3; 4]; [2; 3; 4]]; [[2; 4]; [2; 1; 4]]]).
Proof. split; [do 2 eexists; vm_compute; reflexivity|eexists; split; vm_compute; reflexivity]. Qed.
