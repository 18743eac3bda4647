(** * C71: EinMix is linear; the transposed layer *)
From Verif Require Import Py Tensor SpecSem SpecGrammar SpecEinsum SpecPattern SpecOps SpecElements SpecEinMix SpecAdjoint SpecLinear
  Parsing Recipe Ops Backends Api Layers EinMix EinsumFacts4 MixFacts8 MixFacts9 MixLaws2 Instances PropEinsum PropEinMix.

(** ** in the input, jointly with the bias *)
Theorem C71_input : forall (A : Type) (r : runtime A) (add mul : A -> A -> A) (zero one : A)
    (lib_einsum : pystr -> list (tensor A) -> result (tensor A)) (iadd : tensor A -> tensor A -> result (tensor A))
    (os os' : nat -> orders) (pattern weight_text : pystr) (bias_text : option pystr) (sizes : list (pystr * Z)) (L R W : expr)
    (M : einmix (tensor A)) (e : nat) (len : label -> nat) (shape : list nat) (x u w : tensor A) (b c : option (tensor A)),
  runtime_ok r -> (forall a b, add a b = add b a) -> (forall a b c, add a (add b c) = add (add a b) c) -> (forall a, mul a one = a) ->
  einsum_contract add mul zero one lib_einsum -> iadd_contract add iadd ->
  (forall n, orders_ok (os n)) -> (forall n, orders_ok (os' n)) -> NoDup (map fst sizes) ->
  reads (rt_unicode r) pattern L R -> written (rt_unicode r) weight_text W -> plain L -> plain R -> plain W ->
  EinMix (rt_unicode r) os os' pattern weight_text bias_text sizes = Ok M ->
  rank_fits L (length shape) e -> fits len (left_groups e L) (right_groups e L R) shape sizes ->
  (forall g, In g (left_groups e L) -> filter (unknown (map fst sizes)) g <> [] ->
     prodn (map len (filter (fun a => negb (unknown (map fst sizes) a)) g)) <> 0) ->
  (em_pre M <> None \/ em_post M <> None -> e < 8) ->
  (forall a, add zero a = a) -> (forall a b c, mul (add a b) c = add (mul a c) (mul b c)) ->
  wf x -> wf u -> shp x = shape -> shp u = shape -> wf w -> map Z.of_nat (shp w) = em_weight M -> bias_of (em_bias M) b -> bias_of (em_bias M) c ->
  exists y y', call_einmix r lib_einsum iadd M w b x = Ok y /\ call_einmix r lib_einsum iadd M w c u = Ok y' /\
    call_einmix r lib_einsum iadd M w (bias_zip add b c) (t_zip add x u) = Ok (t_zip add y y').
Proof.
  exact (fun A r add mul zero one lib iadd os os' pattern wt bt sizes L R W M e len shape x u w b c Hok Hc Ha H1 HC HI Ho Ho' Hn Hr HW PL PR PW HM Hk Hf Hd He Hz Hdd =>
    einmix_inputs add mul zero one Hc Ha H1 lib HC iadd HI r Hok os os' Ho Ho' pattern wt bt sizes L R W Hr HW PL PR PW Hn M HM e len shape Hk Hf Hd He Hz Hdd x u w b c).
Qed.
Print Assumptions C71_input.

(** ** in the weight, jointly with the bias *)
Theorem C71_weight : forall (A : Type) (r : runtime A) (add mul : A -> A -> A) (zero one : A)
    (lib_einsum : pystr -> list (tensor A) -> result (tensor A)) (iadd : tensor A -> tensor A -> result (tensor A))
    (os os' : nat -> orders) (pattern weight_text : pystr) (bias_text : option pystr) (sizes : list (pystr * Z)) (L R W : expr)
    (M : einmix (tensor A)) (e : nat) (len : label -> nat) (shape : list nat) (x w v : tensor A) (b c : option (tensor A)),
  runtime_ok r -> (forall a b, add a b = add b a) -> (forall a b c, add a (add b c) = add (add a b) c) -> (forall a, mul a one = a) ->
  einsum_contract add mul zero one lib_einsum -> iadd_contract add iadd ->
  (forall n, orders_ok (os n)) -> (forall n, orders_ok (os' n)) -> NoDup (map fst sizes) ->
  reads (rt_unicode r) pattern L R -> written (rt_unicode r) weight_text W -> plain L -> plain R -> plain W ->
  EinMix (rt_unicode r) os os' pattern weight_text bias_text sizes = Ok M ->
  rank_fits L (length shape) e -> fits len (left_groups e L) (right_groups e L R) shape sizes ->
  (forall g, In g (left_groups e L) -> filter (unknown (map fst sizes)) g <> [] ->
     prodn (map len (filter (fun a => negb (unknown (map fst sizes) a)) g)) <> 0) ->
  (em_pre M <> None \/ em_post M <> None -> e < 8) ->
  (forall a, add zero a = a) -> (forall a b c, mul c (add a b) = add (mul c a) (mul c b)) ->
  wf x -> shp x = shape -> wf w -> map Z.of_nat (shp w) = em_weight M -> wf v -> map Z.of_nat (shp v) = em_weight M -> bias_of (em_bias M) b -> bias_of (em_bias M) c ->
  exists y y', call_einmix r lib_einsum iadd M w b x = Ok y /\ call_einmix r lib_einsum iadd M v c x = Ok y' /\
    call_einmix r lib_einsum iadd M (t_zip add w v) (bias_zip add b c) x = Ok (t_zip add y y').
Proof.
  exact (fun A r add mul zero one lib iadd os os' pattern wt bt sizes L R W M e len shape x w v b c Hok Hc Ha H1 HC HI Ho Ho' Hn Hr HW PL PR PW HM Hk Hf Hd He Hz Hdd =>
    einmix_weights add mul zero one Hc Ha H1 lib HC iadd HI r Hok os os' Ho Ho' pattern wt bt sizes L R W Hr HW PL PR PW Hn M HM e len shape Hk Hf Hd He Hz Hdd x w v b c).
Qed.
Print Assumptions C71_weight.

(** ** scalars: multiplied into the input, or into the weight *)
Theorem C71_scaled_input : forall (A : Type) (r : runtime A) (add mul : A -> A -> A) (zero one : A)
    (lib_einsum : pystr -> list (tensor A) -> result (tensor A)) (iadd : tensor A -> tensor A -> result (tensor A))
    (os os' : nat -> orders) (pattern weight_text : pystr) (bias_text : option pystr) (sizes : list (pystr * Z)) (L R W : expr)
    (M : einmix (tensor A)) (e : nat) (len : label -> nat) (shape : list nat) (h : A -> A) (x w : tensor A) (b : option (tensor A)),
  runtime_ok r -> (forall a b, add a b = add b a) -> (forall a b c, add a (add b c) = add (add a b) c) -> (forall a, mul a one = a) ->
  einsum_contract add mul zero one lib_einsum -> iadd_contract add iadd ->
  (forall n, orders_ok (os n)) -> (forall n, orders_ok (os' n)) -> NoDup (map fst sizes) ->
  reads (rt_unicode r) pattern L R -> written (rt_unicode r) weight_text W -> plain L -> plain R -> plain W ->
  EinMix (rt_unicode r) os os' pattern weight_text bias_text sizes = Ok M ->
  rank_fits L (length shape) e -> fits len (left_groups e L) (right_groups e L R) shape sizes ->
  (forall g, In g (left_groups e L) -> filter (unknown (map fst sizes)) g <> [] ->
     prodn (map len (filter (fun a => negb (unknown (map fst sizes) a)) g)) <> 0) ->
  (em_pre M <> None \/ em_post M <> None -> e < 8) ->
  scaling add zero h -> (forall a b, mul (h a) b = h (mul a b)) ->
  wf x -> shp x = shape -> wf w -> map Z.of_nat (shp w) = em_weight M -> bias_of (em_bias M) b ->
  exists y, call_einmix r lib_einsum iadd M w b x = Ok y /\
    call_einmix r lib_einsum iadd M w (option_map (t_map h) b) (t_map h x) = Ok (t_map h y).
Proof.
  exact (fun A r add mul zero one lib iadd os os' pattern wt bt sizes L R W M e len shape h x w b Hok Hc Ha H1 HC HI Ho Ho' Hn Hr HW PL PR PW HM Hk Hf Hd He =>
    einmix_scaled add mul zero one Hc Ha H1 lib HC iadd HI r Hok os os' Ho Ho' pattern wt bt sizes L R W Hr HW PL PR PW Hn M HM e len shape Hk Hf Hd He h x w b).
Qed.
Print Assumptions C71_scaled_input.

Theorem C71_scaled_weight : forall (A : Type) (r : runtime A) (add mul : A -> A -> A) (zero one : A)
    (lib_einsum : pystr -> list (tensor A) -> result (tensor A)) (iadd : tensor A -> tensor A -> result (tensor A))
    (os os' : nat -> orders) (pattern weight_text : pystr) (bias_text : option pystr) (sizes : list (pystr * Z)) (L R W : expr)
    (M : einmix (tensor A)) (e : nat) (len : label -> nat) (shape : list nat) (h : A -> A) (x w : tensor A) (b : option (tensor A)),
  runtime_ok r -> (forall a b, add a b = add b a) -> (forall a b c, add a (add b c) = add (add a b) c) -> (forall a, mul a one = a) ->
  einsum_contract add mul zero one lib_einsum -> iadd_contract add iadd ->
  (forall n, orders_ok (os n)) -> (forall n, orders_ok (os' n)) -> NoDup (map fst sizes) ->
  reads (rt_unicode r) pattern L R -> written (rt_unicode r) weight_text W -> plain L -> plain R -> plain W ->
  EinMix (rt_unicode r) os os' pattern weight_text bias_text sizes = Ok M ->
  rank_fits L (length shape) e -> fits len (left_groups e L) (right_groups e L R) shape sizes ->
  (forall g, In g (left_groups e L) -> filter (unknown (map fst sizes)) g <> [] ->
     prodn (map len (filter (fun a => negb (unknown (map fst sizes) a)) g)) <> 0) ->
  (em_pre M <> None \/ em_post M <> None -> e < 8) ->
  scaling add zero h -> (forall a b, mul a (h b) = h (mul a b)) ->
  wf x -> shp x = shape -> wf w -> map Z.of_nat (shp w) = em_weight M -> bias_of (em_bias M) b ->
  exists y, call_einmix r lib_einsum iadd M w b x = Ok y /\
    call_einmix r lib_einsum iadd M (t_map h w) (option_map (t_map h) b) x = Ok (t_map h y).
Proof.
  exact (fun A r add mul zero one lib iadd os os' pattern wt bt sizes L R W M e len shape h x w b Hok Hc Ha H1 HC HI Ho Ho' Hn Hr HW PL PR PW HM Hk Hf Hd He =>
    einmix_scaled' add mul zero one Hc Ha H1 lib HC iadd HI r Hok os os' Ho Ho' pattern wt bt sizes L R W Hr HW PL PR PW Hn M HM e len shape Hk Hf Hd He h x w b).
Qed.
Print Assumptions C71_scaled_weight.

(** ** the layer of the reversed pattern with the same weight is the transpose:
    it carries gradients of the outputs back to gradients of the inputs *)
Theorem C71_transposed : forall (A : Type) (r : runtime A) (add mul : A -> A -> A) (zero one : A)
    (lib_einsum : pystr -> list (tensor A) -> result (tensor A)) (iadd : tensor A -> tensor A -> result (tensor A))
    (os os' : nat -> orders) (pattern pattern' weight_text weight_text' : pystr) (sizes sizes' : list (pystr * Z)) (L R W : expr)
    (M M' : einmix (tensor A)) (e : nat) (len : label -> nat) (x z w : tensor A),
  runtime_ok r -> sums_and_products add mul zero -> (forall a b, mul a b = mul b a) -> (forall a b c, mul a (mul b c) = mul (mul a b) c) -> (forall a, mul a one = a) ->
  einsum_contract add mul zero one lib_einsum -> iadd_contract add iadd ->
  (forall n, orders_ok (os n)) -> (forall n, orders_ok (os' n)) ->
  reads (rt_unicode r) pattern L R -> reads (rt_unicode r) pattern' R L -> written (rt_unicode r) weight_text W -> written (rt_unicode r) weight_text' W ->
  plain L -> plain R -> plain W -> NoDup (map fst sizes) -> NoDup (map fst sizes') ->
  EinMix (rt_unicode r) os os' pattern weight_text None sizes = Ok M ->
  EinMix (rt_unicode r) os os' pattern' weight_text' None sizes' = Ok M' ->
  wf x -> rank_fits L (length (shp x)) e -> fits len (left_groups e L) (right_groups e L R) (shp x) sizes ->
  wf z -> fits len (left_groups e R) (right_groups e R L) (shp z) sizes' ->
  (forall g, In g (left_groups e L) -> filter (unknown (map fst sizes)) g <> [] ->
     prodn (map len (filter (fun a => negb (unknown (map fst sizes) a)) g)) <> 0) ->
  (forall g, In g (left_groups e R) -> filter (unknown (map fst sizes')) g <> [] ->
     prodn (map len (filter (fun a => negb (unknown (map fst sizes') a)) g)) <> 0) ->
  e < 8 -> wf w -> map Z.of_nat (shp w) = em_weight M -> em_weight M' = em_weight M ->
  exists y t, call_einmix r lib_einsum iadd M w None x = Ok y /\ call_einmix r lib_einsum iadd M' w None z = Ok t /\
    shp y = shp z /\ shp t = shp x /\ inner add mul zero y z = inner add mul zero x t.
Proof.
  exact (fun A r add mul zero one lib iadd os os' p p' wt wt' sizes sizes' L R W M M' e len x z w Hok Hsp Hmc Hma H1 HC HI Ho Ho' =>
    transposed add mul zero one Hsp Hmc Hma H1 lib HC iadd HI r Hok os os' Ho Ho' p p' wt wt' sizes sizes' L R W M M' e len x z w).
Qed.
Print Assumptions C71_transposed.

(** ** Cases *)
(** the hypotheses on the layer are those of [C31_case] *)
Example C71_case :
  let pattern := lit "... (h c) -> ... (d h)" in
  let sizes := [(lit "c", 3%Z); (lit "d", 2%Z); (lit "h", 2%Z)] in
  let u := mkT [2; 6] [3; 1; -4; 1; 5; 0; 2; -6; 5; 3; 5; 8]%Z in
  let b := Some (iota [2; 1]) in
  let c := Some (mkT [2; 1] [7; -1]%Z) in
  wf u /\ bias_of (Some [2; 1]%Z) b /\ bias_of (Some [2; 1]%Z) c /\ scaling Z.add 0%Z (Z.mul 5) /\
  exists M, EinMix ascii_unicode (fun _ => forward) (fun _ => backward) pattern (lit "h c d") (Some (lit "d")) sizes = Ok M /\
    em_bias M = Some [2; 1]%Z /\
    call_einmix numpy_like (ref_einsum Z.add Z.mul 0%Z 1%Z) (ref_iadd Z.add 0%Z) M (iota [2; 3; 2]) b (iota [2; 6]) =
      Ok (mkT [2; 4] [10; 100; 14; 113; 46; 244; 68; 275]%Z) /\
    call_einmix numpy_like (ref_einsum Z.add Z.mul 0%Z 1%Z) (ref_iadd Z.add 0%Z) M (iota [2; 3; 2]) c u =
      Ok (mkT [2; 4] [-7; 53; -15; 51; 15; 145; 8; 153]%Z) /\
    call_einmix numpy_like (ref_einsum Z.add Z.mul 0%Z 1%Z) (ref_iadd Z.add 0%Z) M (iota [2; 3; 2]) (bias_zip Z.add b c) (t_zip Z.add (iota [2; 6]) u) =
      Ok (mkT [2; 4] [3; 153; -1; 164; 61; 389; 76; 428]%Z).
Proof.
  cbn zeta. split; [reflexivity|]. split; [exists (iota [2; 1]); repeat split|]. split; [eexists; repeat split|].
  split; [split; [intros a b; lia|reflexivity]|].
  eexists. split; [vm_compute; reflexivity|]. repeat (split; [vm_compute; reflexivity|]). vm_compute. reflexivity.
Qed.

Example C71_transposed_case :
  let L := [dots3; grp [lit "h"; lit "c"]] in
  let R := [dots3; grp [lit "d"; lit "h"]] in
  let sizes := [(lit "c", 3%Z); (lit "d", 2%Z); (lit "h", 2%Z)] in
  let z := mkT [2; 4] [3; 1; -4; 1; 5; 0; 2; -6]%Z in
  reads ascii_unicode (lit "... (h c) -> ... (d h)") L R /\ reads ascii_unicode (lit "... (d h) -> ... (h c)") R L /\
  sums_and_products Z.add Z.mul 0%Z /\ wf z /\ fits mix_len (left_groups 1 R) (right_groups 1 R L) [2; 4] sizes /\
  (forall g, In g (left_groups 1 R) -> filter (unknown (map fst sizes)) g <> [] ->
     prodn (map mix_len (filter (fun a => negb (unknown (map fst sizes) a)) g)) <> 0) /\
  exists M M', EinMix ascii_unicode (fun _ => forward) (fun _ => backward) (lit "... (h c) -> ... (d h)") (lit "h c d") None sizes = Ok M /\
    EinMix ascii_unicode (fun _ => forward) (fun _ => backward) (lit "... (d h) -> ... (h c)") (lit "h c d") None sizes = Ok M' /\
    em_weight M = [2; 3; 2]%Z /\ em_weight M' = [2; 3; 2]%Z /\
    call_einmix numpy_like (ref_einsum Z.add Z.mul 0%Z 1%Z) (ref_iadd Z.add 0%Z) M (iota [2; 3; 2]) None (iota [2; 6]) =
      Ok (mkT [2; 4] [10; 100; 13; 112; 46; 244; 67; 274]%Z) /\
    call_einmix numpy_like (ref_einsum Z.add Z.mul 0%Z 1%Z) (ref_iadd Z.add 0%Z) M' (iota [2; 3; 2]) None z =
      Ok (mkT [2; 6] [-4; -6; -8; 13; 17; 21; 2; 16; 30; -42; -54; -66]%Z).
Proof.
  cbn zeta. split; [solve_reads (lit "... (h c) ") (lit " ... (d h)")|]. split; [solve_reads (lit "... (d h) ") (lit " ... (h c)")|].
  split; [split; intros; lia|]. split; [reflexivity|]. split; [solve_fits|]. split; [intros g H; each H; subst g; vm_compute; lia|].
  eexists. eexists. split; [vm_compute; reflexivity|]. split; [vm_compute; reflexivity|]. repeat (split; [vm_compute; reflexivity|]). vm_compute. reflexivity.
Qed.
