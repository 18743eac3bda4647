(** * C67: arrays in memory *)
From Verif Require Import Py Tensor SpecGrammar SpecSem SpecPattern SpecOps SpecCalls SpecElements Parsing Recipe Ops Backends Api Packing CallsFacts Strides SpecStrides StrideFacts StrideFacts2 StrideFacts3 StrideFacts4 StrideFacts5 Instances.

(** Whatever is shared or copied, the results show the elements that the functions
    return for tensors as values, and the exceptions are the same. *)
Theorem C67_values : forall (A : Type) (mem : memory A) nocopy (r : runtime A) x x' pattern red red' sizes,
  nocopy_ok nocopy -> inputs_show mem x x' ->
  both (shows mem) (v_rearrange mem nocopy r x pattern sizes) (rearrange r x' pattern sizes) /\
  both (shows mem) (v_repeat mem nocopy r x pattern sizes) (repeat_ r x' pattern sizes) /\
  (reds_show mem red red' -> both (shows mem) (v_reduce mem nocopy r x pattern red sizes) (reduce r x' pattern red' sizes)).
Proof.
  exact (fun A mem nocopy r x x' p red red' sizes Hnc Hx =>
    conj (reduce_values mem nocopy Hnc r x x' p (RStr (lit "rearrange")) (RStr (lit "rearrange")) sizes Hx eq_refl)
   (conj (reduce_values mem nocopy Hnc r x x' p (RStr (lit "repeat")) (RStr (lit "repeat")) sizes Hx eq_refl)
         (reduce_values mem nocopy Hnc r x x' p red red' sizes Hx))).
Qed.
Print Assumptions C67_values.
Theorem C67_pack_unpack_values : forall (A : Type) (mem : memory A) nocopy (r : runtime A) xs ts x t packed_shapes pattern,
  nocopy_ok nocopy ->
  (Forall2 (shows mem) xs ts -> both (packed_shows mem) (v_pack mem nocopy r xs pattern) (pack r ts pattern)) /\
  (shows mem x t -> both (Forall2 (shows mem)) (v_unpack mem nocopy r x packed_shapes pattern) (unpack r t packed_shapes pattern)).
Proof. exact (fun A mem nocopy r xs ts x t s p Hnc => conj (pack_values mem nocopy Hnc r xs ts p) (unpack_values mem nocopy Hnc r x t s p)). Qed.
Print Assumptions C67_pack_unpack_values.

(** No axis is summed away, none is copied by tile, and no two axes end up in one
    dimension: the result is a view, whatever the strides of the input; its elements are
    at the places where the pattern says. *)
Theorem C67_view : forall (A : Type) (mem : memory A) nocopy (r : runtime A) x pattern (red : reduction (array A)) sizes w L R e len,
  nocopy_ok nocopy -> runtime_ok r -> NoDup (map fst sizes) -> no_reserved sizes -> length (a_str x) = length (a_shp x) ->
  runs_as red w -> call_ok (rt_unicode r) w pattern sizes (a_shp x) L R e len ->
  missing (left_groups e L) (right_groups e L R) = [] ->
  fresh_axes (left_groups e L) (right_groups e L R) = [] \/ expands (rt_framework r) = true ->
  flat_groups (right_groups e L R) ->
  exists y, v_reduce mem nocopy r (One x) pattern red sizes = Ok y /\ a_buf y = a_buf x /\
    length (a_str y) = length (a_shp y) /\ moves (left_groups e L) (right_groups e L R) len (places x) (places y).
Proof.
  exact (fun A mem nocopy r x p red sizes w L R e len Hnc Hok Hn Hres Hl Hw Hc Hm Hx Hf =>
    call_view mem nocopy Hnc r Hok p sizes x w L R e len Hn Hres Hc Hl Hm Hx red (runs_as_role red w Hw) Hf).
Qed.
Print Assumptions C67_view.
(** If axes are joined, the result is such a view or a copy, never something between. *)
Theorem C67_view_or_copy : forall (A : Type) (mem : memory A) nocopy (r : runtime A) x pattern (red : reduction (array A)) sizes w L R e len y,
  nocopy_ok nocopy -> runtime_ok r -> NoDup (map fst sizes) -> no_reserved sizes -> length (a_str x) = length (a_shp x) ->
  runs_as red w -> call_ok (rt_unicode r) w pattern sizes (a_shp x) L R e len ->
  missing (left_groups e L) (right_groups e L R) = [] ->
  fresh_axes (left_groups e L) (right_groups e L R) = [] \/ expands (rt_framework r) = true ->
  v_reduce mem nocopy r (One x) pattern red sizes = Ok y ->
  (a_buf y = a_buf x /\ moves (left_groups e L) (right_groups e L R) len (places x) (places y)) \/ own_buffer y.
Proof.
  exact (fun A mem nocopy r x p red sizes w L R e len y Hnc Hok Hn Hres Hl Hw Hc Hm Hx H =>
    call_either mem nocopy Hnc r Hok p sizes x w L R e len Hn Hres Hc Hl Hm Hx red y (runs_as_role red w Hw) H).
Qed.
Print Assumptions C67_view_or_copy.
(** Something is reduced, or copied by tile, or the input is a list: a new buffer. *)
Theorem C67_copy : forall (A : Type) (mem : memory A) nocopy (r : runtime A) x pattern s sizes w L R e len y,
  runtime_ok r -> NoDup (map fst sizes) -> no_reserved sizes ->
  runs_as (RStr (T := array A) s) w -> call_ok (rt_unicode r) w pattern sizes (a_shp x) L R e len ->
  v_reduce mem nocopy r (One x) pattern (RStr s) sizes = Ok y ->
  missing (left_groups e L) (right_groups e L R) <> [] \/
  (fresh_axes (left_groups e L) (right_groups e L R) <> [] /\ expands (rt_framework r) = false) ->
  own_buffer y.
Proof.
  exact (fun A mem nocopy r x p s sizes w L R e len y Hok Hn Hres Hw Hc H =>
    call_new mem nocopy r Hok p sizes x w L R e len Hn Hres Hc s y (runs_as_role (RStr s) w Hw) H).
Qed.
Print Assumptions C67_copy.
Theorem C67_copy_of_list : forall (A : Type) (mem : memory A) nocopy (r : runtime A) xs pattern s sizes y,
  v_reduce mem nocopy r (Many xs) pattern (RStr s) sizes = Ok y -> own_buffer y.
Proof. exact (fun A mem nocopy r xs p s sizes y => list_new mem nocopy r xs p (RStr s) sizes y (fun f E => ltac:(discriminate E))). Qed.
Print Assumptions C67_copy_of_list.

(** Writing an element of a view changes the input: exactly at the place the pattern
    says.  And it changes every copy of the element that the result has. *)
Theorem C67_write : forall (A : Type) (mem : memory A) nocopy (r : runtime A) x t id pattern s sizes w L R e len,
  nocopy_ok nocopy -> runtime_ok r -> NoDup (map fst sizes) -> no_reserved sizes -> a_buf x = Old id -> shows mem x t ->
  runs_as (RStr (T := array A) s) w -> call_ok (rt_unicode r) w pattern sizes (a_shp x) L R e len ->
  let gl := left_groups e L in let gr := right_groups e L R in
  missing gl gr = [] -> fresh_axes gl gr = [] \/ expands (rt_framework r) = true -> flat_groups gr ->
  exists y, v_reduce mem nocopy r (One x) pattern (RStr s) sizes = Ok y /\
    forall ix a, within len ix (concat gl ++ concat gr) ->
    let mem' := write mem y (gindex len ix gr) a in
    (exists t', shows mem' x t' /\ get t' (gindex len ix gl) = Some a /\
       forall j, get (places x) j <> get (places x) (gindex len ix gl) -> get t' j = get t j) /\
    (exists u', shows mem' y u' /\ forall ix', within len ix' (concat gl ++ concat gr) -> same_on (concat gl) ix ix' ->
       get u' (gindex len ix' gr) = Some a).
Proof.
  exact (fun A mem nocopy r x t id p s sizes w L R e len Hnc Hok Hn Hres Hb Ht Hw Hc Hm Hx Hf =>
    call_write mem nocopy Hnc r Hok p sizes x t w L R e len id Hn Hres Hc Hb Ht Hm Hx Hf s (runs_as_role (RStr s) w Hw)).
Qed.
Print Assumptions C67_write.

(** The pieces that unpack returns are views, at the places that unpack returns for the
    tensor of places; pack returns a new buffer. *)
Theorem C67_unpack : forall (A : Type) (mem : memory A) nocopy (r : runtime A) x packed_shapes pattern ys,
  nocopy_ok nocopy -> length (a_str x) = length (a_shp x) ->
  v_unpack mem nocopy r x packed_shapes pattern = Ok ys ->
  Forall (fun y => a_buf y = a_buf x) ys /\ unpack (place_runtime r) (places x) packed_shapes pattern = Ok (map places ys).
Proof. exact (fun A mem nocopy r x s p ys Hnc => unpack_pieces mem nocopy Hnc r x s p (place_runtime r) ys eq_refl eq_refl). Qed.
Print Assumptions C67_unpack.
Theorem C67_pack : forall (A : Type) (mem : memory A) nocopy (r : runtime A) xs pattern y packed_shapes,
  v_pack mem nocopy r xs pattern = Ok (y, packed_shapes) -> own_buffer y.
Proof. exact (fun A mem nocopy r => pack_new mem nocopy r). Qed.
Print Assumptions C67_pack.

(** The assumption about reshape can be met. *)
Theorem C67_library : nocopy_ok simple_nocopy.
Proof. exact simple_nocopy_ok. Qed.
Print Assumptions C67_library.

(** Non-vacuity: a 4x3 array, itself a transposed view of a 3x4 one. *)
Definition twelve : memory Z := fun _ => map Z.of_nat (seq 0 12).
Definition tilted : array Z := mkArr (Old 0) 0 [4; 3] [1; 4]%Z.
Example C67_tilted_shows : shows twelve tilted (mkT [4; 3] [0; 4; 8; 1; 5; 9; 2; 6; 10; 3; 7; 11]%Z).
Proof. split; [reflexivity|]. split; [reflexivity|]. repeat (apply Forall2_cons; [split; [vm_compute; discriminate|vm_compute; reflexivity]|]). constructor. Qed.
Example C67_view_case :
  let L := [grp [lit "a"; lit "b"]; nm "c"] in let R := [nm "b"; grp []; nm "c"; nm "a"] in
  let len := lens [(lit "a", 2); (lit "b", 2); (lit "c", 3)] in
  call_ok ascii_unicode Rearranging (lit "(a b) c -> b () c a") [(lit "a", 2%Z)] (a_shp tilted) L R 0 len /\
  missing (left_groups 0 L) (right_groups 0 L R) = [] /\ flat_groups (right_groups 0 L R) /\
  v_rearrange twelve simple_nocopy numpy_like (One tilted) (lit "(a b) c -> b () c a") [(lit "a", 2%Z)] = Ok (mkArr (Old 0) 0 [2; 1; 3; 2] [1; 12; 4; 2]%Z).
Proof.
  cbv zeta. split; [solve_call (lit "(a b) c ") (lit " b () c a")|]. split; [vm_compute; reflexivity|].
  split; [repeat (apply Forall_cons; [cbv; lia|]); constructor|]. vm_compute. reflexivity.
Qed.
(** joining axes: here a copy *)
Example C67_copy_case :
  match v_rearrange twelve simple_nocopy numpy_like (One tilted) (lit "a b -> (a b)") [] with
  | Ok y => a_buf y = New [0; 4; 8; 1; 5; 9; 2; 6; 10; 3; 7; 11]%Z
  | Err _ => False
  end.
Proof. vm_compute. reflexivity. Qed.
(** new axes: a view with stride 0 in torch, a copy in numpy *)
Example C67_repeat_case :
  v_repeat twelve simple_nocopy torch_like (One tilted) (lit "a b -> a n b") [(lit "n", 5%Z)] = Ok (mkArr (Old 0) 0 [4; 5; 3] [1; 0; 4]%Z) /\
  match v_repeat twelve simple_nocopy numpy_like (One tilted) (lit "a b -> a n b") [(lit "n", 2%Z)] with Ok y => own_buffer y | Err _ => False end.
Proof. split; [vm_compute; reflexivity|]. vm_compute. eexists. reflexivity. Qed.
Example C67_unpack_case :
  v_unpack twelve simple_nocopy numpy_like tilted [[2; 1]; [-1]]%Z (lit "* c") = Ok [mkArr (Old 0) 0 [2; 1; 3] [1; 12; 4]%Z; mkArr (Old 0) 2 [2; 3] [1; 4]%Z].
Proof. vm_compute. reflexivity. Qed.
