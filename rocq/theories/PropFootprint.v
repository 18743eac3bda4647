(** * C87: sizes of the tensors made on the way *)
From Verif Require Import Py Tensor SpecSem SpecGrammar SpecPattern SpecOps SpecCalls Parsing Recipe Ops Backends Api Packing Footprint SpecFootprint FootprintFacts FootprintShapes Instances.

(** Noting the shapes of all tensors that are made changes no result and no error. *)
Theorem C87_same : forall (A : Type) (r : runtime A) (x : input (logged A)) pattern red red' sizes, erases_to red red' ->
  erase (logged_reduce r x pattern red sizes) = reduce r (plain x) pattern red' sizes /\
  erase (logged_xp_reduce r x pattern red sizes) = xp_reduce_ r (plain x) pattern red' sizes.
Proof. exact (fun A r x pattern red red' sizes H => conj (erase_reduce r x pattern red red' sizes H) (erase_xp_reduce r x pattern red red' sizes H)). Qed.
Print Assumptions C87_same.
Theorem C87_same_packing : forall (A : Type) (r : runtime A) (x : logged A) (xs : list (logged A)) shapes pattern,
  (let* (t, ps) := logged_pack r xs pattern in Ok (fst t, ps)) = pack r (map fst xs) pattern /\
  (let* ts := logged_unpack r x shapes pattern in Ok (map fst ts)) = unpack r (fst x) shapes pattern.
Proof. exact (fun A r x xs shapes pattern => conj (erase_pack r xs pattern) (erase_unpack r x shapes pattern)). Qed.
Print Assumptions C87_same_packing.

(** Unless the input is empty, no tensor that reduce, rearrange or repeat makes on the way
    has more elements than the input or the result, in any library. *)
Theorem C87_reduce : forall (A : Type) (r : runtime A) (x : input (tensor A)) pattern red sizes y log, modest red ->
  logged_reduce r (fresh x) pattern red sizes = Ok (y, log) -> input_size x <> 0 ->
  forall s, In s log -> prodn s <= Nat.max (input_size x) (size y).
Proof. exact (fun A r x pattern red sizes y log => reduce_bound r x pattern red sizes y log). Qed.
Print Assumptions C87_reduce.
Theorem C87_array_api : forall (A : Type) (r : runtime A) (x : input (tensor A)) pattern red sizes y log, modest red ->
  logged_xp_reduce r (fresh x) pattern red sizes = Ok (y, log) -> input_size x <> 0 ->
  forall s, In s log -> prodn s <= Nat.max (input_size x) (size y).
Proof. exact (fun A r x pattern red sizes y log => xp_reduce_bound r x pattern red sizes y log). Qed.
Print Assumptions C87_array_api.
(** All that pack makes has at most as many elements as its result, all that unpack makes
    at most as many as its argument. *)
Theorem C87_pack : forall (A : Type) (r : runtime A) (ts : list (tensor A)) pattern y log shapes,
  logged_pack r (map (fun t => (t, [])) ts) pattern = Ok ((y, log), shapes) -> forall s, In s log -> prodn s <= size y.
Proof. exact (fun A r ts pattern y log shapes => pack_bound r ts pattern y log shapes). Qed.
Print Assumptions C87_pack.
Theorem C87_unpack : forall (A : Type) (r : runtime A) (x : tensor A) shapes pattern ys,
  logged_unpack r (x, []) shapes pattern = Ok ys -> forall y log s, In (y, log) ys -> In s log -> prodn s <= size x.
Proof. exact (fun A r x shapes pattern ys => unpack_bound r x shapes pattern ys). Qed.
Print Assumptions C87_unpack.

(** For a correct call these shapes are known exactly: each step that is run makes one
    tensor, a reduction one axis at a time one for each axis, and new axes are inserted
    one by one before the one repetition. *)
Theorem C87_shapes : forall (A : Type) (r : runtime A), runtime_ok r ->
  forall (x : input (tensor A)) pattern sizes (op : pystr) y log sh w L R e len,
  NoDup (map fst sizes) -> no_reserved sizes -> call_ok (rt_unicode r) w pattern sizes sh L R e len -> @runs_as (logged A) (RStr op) w ->
  input_shape sh x -> logged_reduce r (fresh x) pattern (RStr op) sizes = Ok (y, log) ->
  rev log = stacked sh x ++ shapes_made (manner_of (rt_framework r) op) (left_groups e L) (right_groups e L R) len.
Proof.
  exact (fun A r Hr x pattern sizes op y log sh w L R e len Hns Hres Hok Hw =>
    shapes_known r Hr pattern sizes sh w L R e len op Hns Hres Hok Hw x y log).
Qed.
Print Assumptions C87_shapes.
Theorem C87_shapes_array_api : forall (A : Type) (r : runtime A), runtime_ok r ->
  forall (x : input (tensor A)) pattern sizes (op : pystr) y log sh w L R e len,
  NoDup (map fst sizes) -> no_reserved sizes -> call_ok (rt_unicode r) w pattern sizes sh L R e len -> @runs_as (logged A) (RStr op) w ->
  input_shape sh x -> logged_xp_reduce r (fresh x) pattern (RStr op) sizes = Ok (y, log) ->
  rev log = stacked sh x ++ shapes_made Together (left_groups e L) (right_groups e L R) len.
Proof.
  exact (fun A r Hr x pattern sizes op y log sh w L R e len Hns Hres Hok Hw =>
    shapes_known_xp r Hr pattern sizes sh w L R e len op Hns Hres Hok Hw x y log).
Qed.
Print Assumptions C87_shapes_array_api.
(** pack makes one tensor for each of its arguments and the result, unpack makes two for each piece *)
Theorem C87_pack_shapes : forall (A : Type) (r : runtime A) (ts : list (tensor A)) pattern y log shapes,
  logged_pack r (map (fun t => (t, [])) ts) pattern = Ok ((y, log), shapes) ->
  exists ss, log = shp y :: ss /\ Forall2 (fun t s => prodn s = size t) ts ss.
Proof. exact (fun A r ts pattern y log shapes => pack_shapes r ts pattern y log shapes). Qed.
Print Assumptions C87_pack_shapes.
Theorem C87_unpack_shapes : forall (A : Type) (r : runtime A) (x : tensor A) shapes pattern ys,
  logged_unpack r (x, []) shapes pattern = Ok ys ->
  length ys = length shapes /\ forall y log, In (y, log) ys -> exists s, log = [shp y; s] /\ prodn s = size y.
Proof. exact (fun A r x shapes pattern ys => unpack_shapes r x shapes pattern ys). Qed.
Print Assumptions C87_unpack_shapes.

(** Non-vacuity *)
Definition x87 : tensor Z := mkT [2; 6] [1; 2; 3; 4; 5; 6; 7; 8; 9; 10; 11; 12]%Z.
(** torch: a product is taken one axis at a time; each of the tensors made is
    at most as large as the input. *)
Example C87_reduce_case :
  logged_reduce torch_like (fresh (One x87)) (lit "a (b c d) -> (d c)")
    (RStr (lit "prod")) [(lit "b", 3%Z); (lit "c", 2%Z)]
  = Ok (mkT [2] [10395%Z; 46080%Z],
        [[2]; [1; 2]; [1; 2; 2]; [1; 2; 2; 3]; [2; 3; 2; 1]]).
Proof. vm_compute. reflexivity. Qed.

Example C87_shapes_case :
  let L := [nm "a"; grp [lit "b"; lit "c"; lit "d"]] in
  let R := [grp [lit "d"; lit "c"]] in
  let len := lens [(lit "a", 2); (lit "b", 3); (lit "c", 2); (lit "d", 1)] in
  let sizes := [(lit "b", 3%Z); (lit "c", 2%Z)] in
  call_ok ascii_unicode Reducing (lit "a (b c d) -> (d c)") sizes [2; 6] L R 0 len /\
  shapes_made (manner_of Torch (lit "prod")) (left_groups 0 L) (right_groups 0 L R) len =
    [[2; 3; 2; 1]; [1; 2; 2; 3]; [1; 2; 2]; [1; 2]; [2]] /\
  shapes_made (manner_of Torch (lit "sum")) (left_groups 0 L) (right_groups 0 L R) len =
    [[2; 3; 2; 1]; [1; 2; 2; 3]; [1; 2]; [2]].
Proof.
  cbv zeta. split; [solve_call (lit "a (b c d) ") (lit " (d c)")|]. split; vm_compute; reflexivity.
Qed.

(** A list of two tensors, repeated twice: stacked, split, transposed,
    given an axis of size one, expanded, and merged. *)
Example C87_repeat_case :
  exists y,
    logged_reduce torch_like (fresh (Many [x87; x87]))
      (lit "s a (b c) -> a (c n) (s b)") (RStr (lit "repeat"))
      [(lit "b", 3%Z); (lit "n", 2%Z)]
    = Ok (y, [[2; 4; 6]; [2; 2; 2; 2; 3]; [2; 2; 1; 2; 3]; [2; 2; 2; 3];
              [2; 2; 3; 2]; [2; 2; 6]]).
Proof. eexists. vm_compute. reflexivity. Qed.

(** That the input has an element is needed: after an empty axis has been
    multiplied away the tensor has a hundred elements, although the input has
    none and the result one. *)
Example C87_empty_case :
  logged_reduce torch_like (fresh (One (mkT [100; 0; 7] []))) (lit "a b c ->")
    (RStr (lit "prod")) []
  = Ok (mkT [] [1%Z], [[]; [100]; [100; 0]]).
Proof. vm_compute. reflexivity. Qed.

Example C87_array_api_case :
  exists y,
    logged_xp_reduce torch_like (fresh (One x87)) (lit "a (b c) -> n (a c b)")
      (RStr (lit "repeat")) [(lit "c", 1%Z); (lit "n", 2%Z)]
    = Ok (y, [[2; 12]; [2; 2; 1; 6]; [1; 2; 1; 6]; [2; 1; 6]; [2; 6; 1]]).
Proof. eexists. vm_compute. reflexivity. Qed.

Example C87_pack_case :
  exists y,
    logged_pack torch_like [(x87, []); (mkT [2; 1; 1] [1%Z; 2%Z], [])] (lit "a *")
    = Ok ((y, [[2; 7]; [2; 6]; [2; 1]]), [[6%Z]; [1%Z; 1%Z]]).
Proof. eexists. vm_compute. reflexivity. Qed.

Example C87_unpack_case :
  exists y1 y2,
    logged_unpack torch_like (x87, []) [[2%Z]; [2%Z; 2%Z]] (lit "a *")
    = Ok [(y1, [[2; 2]; [2; 2]]); (y2, [[2; 2; 2]; [2; 4]])].
Proof. do 2 eexists. vm_compute. reflexivity. Qed.
