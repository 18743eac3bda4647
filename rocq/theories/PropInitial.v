(** * C77: the first values of the parameters of EinMix *)
From Coq Require Import QArith.
From Verif Require Import Py Tensor SpecSem SpecGrammar SpecForms SpecPattern SpecOps SpecElements SpecEinMix SpecLinear SpecInitial
  Parsing Recipe Ops Backends Einsum Api Layers EinMix Flax Initial EinsumFacts4 MixFacts9 InitialFacts InitialCases Instances PropEinMix.
From Verif Require SpecEinsum.
Open Scope Q_scope.

(** in every library: the shapes of C32, and no value beyond the roots of 3/fan_in (weight)
    and 1/fan_in (bias), where fan_in is positive *)
Theorem C77_ranges : forall (r : runtime Q) (os os' : nat -> orders) (p wt : pystr) (bt : option pystr) (sizes : list (pystr * Z)) (L R W : expr)
    (M : einmix (tensor Q)) (l : layer_library) (w : tensor Q) (b : option (tensor Q)),
  runtime_ok r -> (forall n, orders_ok (os n)) ->
  reads (rt_unicode r) p L R -> written (rt_unicode r) wt W -> plain L -> plain R -> plain W -> NoDup (map fst sizes) ->
  EinMix (rt_unicode r) os os' p wt bt sizes = Ok M ->
  answers (fst (mix_requests l M)) w -> answers_option (snd (mix_requests l M)) b ->
  (0 < em_fan_in M)%Z /\ wf w /\ map Z.of_nat (shp w) = em_weight M /\ bias_of (em_bias M) b /\
  Forall (fun q => q * q * inject_Z (em_fan_in M) <= 3) (dat w) /\
  match b with Some t => Forall (fun q => q * q * inject_Z (em_fan_in M) <= 1) (dat t) | None => True end.
Proof.
  exact (fun r os os' p wt bt sizes L R W M l w b Hok Hos Hr WW PL PR PW Hns HM Aw Ab =>
    first_ranges r Hok os os' Hos p wt bt sizes L R W Hr WW PL PR PW Hns M HM l w b Aw Ab).
Qed.
Print Assumptions C77_ranges.

(** the ranges are symmetric about 0 in all libraries but flax *)
Theorem C77_symmetric : forall (T : Type) (M : einmix T) (l : layer_library) (w b : tensor Q) (q : request), l <> InFlax ->
  (answers (fst (mix_requests l M)) w -> answers (fst (mix_requests l M)) (t_map Qopp w)) /\
  (snd (mix_requests l M) = Some q -> answers q b -> answers q (t_map Qopp b)).
Proof. exact (fun T M l w b q H => first_symmetric M l w b q H). Qed.
Print Assumptions C77_symmetric.
(** in flax no value is negative *)
Theorem C77_flax_sign : forall (F : flax_mix) (w b : tensor Q) (q : request),
  (answers (fst (flax_requests F)) w -> Forall (fun a => 0 <= a) (dat w)) /\
  (snd (flax_requests F) = Some q -> answers q b -> Forall (fun a => 0 <= a) (dat b)).
Proof. exact flax_sign. Qed.
Print Assumptions C77_flax_sign.
(** so the documented "Uniform He initialization" is not what flax does: there are layers whose
    weight could be drawn but not its opposite *)
Theorem C77_symmetric_refuted : exists (F : flax_mix) (w : tensor Q),
  flax_setup (mkR Q ascii_unicode forward Numpy true (fun _ _ => Err BackendError) (fun _ => true) (fun n => inject_Z (Z.of_nat n)))
    (lit "b c -> b d") (lit "c d") None [(lit "c", 3%Z); (lit "d", 2%Z)] = Ok F /\
  answers (fst (flax_requests F)) w /\ ~ answers (fst (flax_requests F)) (t_map Qopp w).
Proof. exact flax_one_sided. Qed.
Print Assumptions C77_symmetric_refuted.

(** "single output element is a combination of fan_in input elements": so many times fan_in
    as there are combinations of the axes that are summed over and do not belong to the weight *)
Theorem C77_products : forall (A : Type) (r : runtime A) (os os' : nat -> orders) (p wt : pystr) (bt : option pystr) (sizes : list (pystr * Z)) (L R W : expr)
    (M : einmix (tensor A)) (e : nat) (len : label -> nat) (shape : list nat),
  runtime_ok r -> (forall n, orders_ok (os n)) ->
  reads (rt_unicode r) p L R -> written (rt_unicode r) wt W -> plain L -> plain R -> plain W -> NoDup (map fst sizes) ->
  EinMix (rt_unicode r) os os' p wt bt sizes = Ok M -> fits len (left_groups e L) (right_groups e L R) shape sizes ->
  Z.of_nat (prodn (map len (missing (left_groups e L) (right_groups e L R)))) =
  (em_fan_in M * Z.of_nat (prodn (map len (unweighted W (missing (left_groups e L) (right_groups e L R))))))%Z.
Proof.
  exact (fun A r os os' p wt bt sizes L R W M e len shape Hok Hos Hr WW PL PR PW Hns HM =>
    products_count r Hok os os' Hos p wt bt sizes L R W Hr WW PL PR PW Hns M HM e len shape).
Qed.
Print Assumptions C77_products.
(** without that factor the comment is wrong *)
Theorem C77_products_refuted : exists (L R W : expr) (M : einmix (tensor Z)) (len : label -> nat),
  reads ascii_unicode (lit "b c d -> b") L R /\ written ascii_unicode (lit "c") W /\
  EinMix ascii_unicode (fun _ => forward) (fun _ => backward) (lit "b c d -> b") (lit "c") None [(lit "c", 3%Z)] = Ok M /\
  fits len (left_groups 0 L) (right_groups 0 L R) [1%nat; 3%nat; 2%nat] [(lit "c", 3%Z)] /\
  em_fan_in M = 3%Z /\ prodn (map len (missing (left_groups 0 L) (right_groups 0 L R))) = 6%nat.
Proof. exact more_products. Qed.
Print Assumptions C77_products_refuted.

(** a new layer: the square of an output element, without the bias, is at most three times
    the sum of the squares of the input elements it combines (times the number of combinations of
    axes that do not belong to the weight), however many these are *)
Theorem C77_outputs : forall (r : runtime Q) (lib : pystr -> list (tensor Q) -> result (tensor Q)) (iadd : tensor Q -> tensor Q -> result (tensor Q))
    (os os' : nat -> orders) (p wt : pystr) (bt : option pystr) (sizes : list (pystr * Z)) (L R W : expr)
    (M : einmix (tensor Q)) (l : layer_library) (e : nat) (len : label -> nat) (x w : tensor Q) (b : option (tensor Q)),
  SpecEinsum.einsum_contract Qplus Qmult 0 1 lib -> iadd_contract Qplus iadd ->
  runtime_ok r -> (forall n, orders_ok (os n)) -> (forall n, orders_ok (os' n)) ->
  reads (rt_unicode r) p L R -> written (rt_unicode r) wt W -> plain L -> plain R -> plain W -> NoDup (map fst sizes) ->
  EinMix (rt_unicode r) os os' p wt bt sizes = Ok M ->
  wf x -> rank_fits L (length (shp x)) e -> fits len (left_groups e L) (right_groups e L R) (shp x) sizes ->
  (forall g, In g (left_groups e L) -> filter (unknown (map fst sizes)) g <> [] -> prodn (map len (filter (fun a => negb (unknown (map fst sizes) a)) g)) <> 0%nat) ->
  (em_pre M <> None \/ em_post M <> None -> (e < 8)%nat) ->
  answers (fst (mix_requests l M)) w -> answers_option (snd (mix_requests l M)) b ->
  exists y, call_einmix r lib iadd M w b x = Ok y /\ wf y /\ shp y = gshape len (right_groups e L R) /\
    forall ix, within len ix (concat (right_groups e L R)) ->
      exists xs t c v, elements x len (left_groups e L) (missing (left_groups e L) (right_groups e L R)) ix = map Some xs /\
        get y (gindex len ix (right_groups e L R)) = Some v /\ v == t + c /\
        t * t <= 3 * inject_Z (Z.of_nat (prodn (map len (unweighted W (missing (left_groups e L) (right_groups e L R)))))) * sum_of_squares xs /\
        c * c * inject_Z (em_fan_in M) <= 1 /\ (em_bias M = None -> c == 0).
Proof.
  exact (fun r lib iadd os os' p wt bt sizes L R W M l e len x w b HC HI Hok Hos Hos' Hr WW PL PR PW Hns HM Wx Hrk Hf Hd He =>
    first_output lib HC iadd HI r Hok os os' Hos Hos' p wt bt sizes L R W Hr WW PL PR PW Hns M HM e len x Wx Hrk Hf Hd He l w b).
Qed.
Print Assumptions C77_outputs.

(** the parameters are drawn once, in the constructor or in the first call, and every call of
    the layer uses them *)
Theorem C77_once : forall (draw : nat -> request -> result (tensor Q)) (r : runtime Q)
    (lib : pystr -> list (tensor Q) -> result (tensor Q)) (iadd : tensor Q -> tensor Q -> result (tensor Q)) (l : layer_library) (M : einmix (tensor Q)) (n : nat),
  draws draw -> Forall (fun z => (0 <= z)%Z) (em_weight M ++ match em_bias M with Some s => s | None => [] end) ->
  exists o w b, new_object draw l M n = Ok o /\ answers (fst (mix_requests l M)) w /\ answers_option (snd (mix_requests l M)) b /\
    forall xs, xs <> [] -> call_objects draw r lib iadd l o xs =
      (map (call_einmix r lib iadd M w b) xs, mkObject M (Some (w, b)) (n + match em_bias M with Some _ => 2 | None => 1 end)).
Proof. exact (fun draw r lib iadd l M n Hd => objects_once draw Hd r lib iadd l M n). Qed.
Print Assumptions C77_once.
(** negative lengths: the layer cannot be made; in tensorflow it can, but not be used *)
Theorem C77_negative : forall (draw : nat -> request -> result (tensor Q)) (r : runtime Q)
    (lib : pystr -> list (tensor Q) -> result (tensor Q)) (iadd : tensor Q -> tensor Q -> result (tensor Q)) (l : layer_library) (M : einmix (tensor Q)) (n : nat),
  draws draw -> Exists (fun z => (z < 0)%Z) (em_weight M ++ match em_bias M with Some s => s | None => [] end) ->
  if match l with InTensorflow => true | _ => false end
  then exists o, new_object draw l M n = Ok o /\ forall xs, Forall (fun y => exists ex, y = Err ex) (fst (call_objects draw r lib iadd l o xs))
  else exists ex, new_object draw l M n = Err ex.
Proof. exact (fun draw r lib iadd l M n Hd => objects_negative draw Hd r lib iadd l M n). Qed.
Print Assumptions C77_negative.

(** a library that always draws 0 *)
Definition zeros (n : nat) (q : request) : result (tensor Q) :=
  if forallb (fun z => 0 <=? z)%Z (q_shape q)
  then Ok (mkT (map Z.to_nat (q_shape q)) (repeat 0 (prodn (map Z.to_nat (q_shape q)))))
  else Err BackendError.
Example C77_draws_case : draws zeros.
Proof.
  intros n q Hl Hh. unfold zeros. destruct (forallb _ _) eqn:E.
  - rewrite forallb_forall in E. split; [|split].
    + unfold wf. cbn. now rewrite repeat_length.
    + cbn. rewrite map_map. rewrite <- (map_id (q_shape q)) at 2. apply map_ext_in. intros z Hz. specialize (E z Hz). lia.
    + cbn. apply Forall_forall. intros a Ha. apply repeat_spec in Ha. subst a. auto.
  - apply not_true_iff_false in E. rewrite forallb_forall in E. 
    assert (H : Exists (fun z => (z < 0)%Z) (q_shape q)).
    { destruct (Exists_dec (fun z => (z < 0)%Z) (q_shape q)) as [H|H]; [intros z; apply Z_lt_dec|exact H|]. exfalso. apply E. intros z Hz.
      destruct (Z.leb_spec 0 z) as [X|X]; [reflexivity|]. exfalso. apply H. apply Exists_exists. eauto. }
    apply Exists_exists in H as (z & Hz & Hneg). eauto.
Qed.

(** a layer with three inputs per output, weights 1 and -1 (1 * 3 <= 3), biases 1/2 (1/4 * 3 <= 1) *)
Example C77_case :
  let r := mkR Q ascii_unicode forward Torch true (fun _ _ => Err BackendError) (fun _ => true) (fun n => inject_Z (Z.of_nat n)) in
  let sizes := [(lit "c", 3%Z); (lit "d", 2%Z)] in
  let w := mkT [3%nat; 2%nat] [1; -1; 1; 1; -1; 0] in let b := Some (mkT [1%nat; 2%nat] [1 # 2; - (1 # 2)]) in
  let x := mkT [1%nat; 3%nat] [2; 3; -1] in
  reads ascii_unicode (lit "b c -> b d") [nm "b"; nm "c"] [nm "b"; nm "d"] /\
  exists M : einmix (tensor Q), EinMix ascii_unicode (fun _ => forward) (fun _ => backward) (lit "b c -> b d") (lit "c d") (Some (lit "d")) sizes = Ok M /\
    em_fan_in M = 3%Z /\ answers (fst (mix_requests InTorch M)) w /\ answers_option (snd (mix_requests InTorch M)) b /\
    call_einmix r (ref_einsum Qplus Qmult 0 1) (ref_iadd Qplus 0) M w b x = Ok (mkT [1%nat; 2%nat] [13 # 2; 1 # 2]) /\
    sum_of_squares [2; 3; -1] == 14 /\ 6 * 6 <= 3 * 14.
Proof.
  cbv zeta. split; [solve_reads (lit "b c ") (lit " b d")|]. eexists. split; [vm_compute; reflexivity|]. split; [reflexivity|].
  split; [|split; [|split; [vm_compute; reflexivity|split; [reflexivity|discriminate]]]].
  - split; [reflexivity|]. split; [reflexivity|]. cbn [dat]. repeat (apply Forall_cons; [split; right; vm_compute; discriminate|]). apply Forall_nil.
  - split; [reflexivity|]. split; [reflexivity|]. cbn [dat]. repeat (apply Forall_cons; [split; right; vm_compute; discriminate|]). apply Forall_nil.
Qed.
