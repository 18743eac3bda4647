(** * C92: gradients of the parameters of EinMix *)
From Verif Require Import Py Tensor SpecSem SpecGrammar SpecEinsum SpecPattern SpecOps SpecElements SpecEinMix SpecAdjoint SpecLinear SpecMixGrad
  Parsing Recipe Ops Backends Api Layers EinMix EinsumFacts4 MixFacts8 MixFacts9 MixLaws2 MixGradFacts Instances PropEinsum PropEinMix.

(** ** the output, seen through a gradient [z] of the outputs, is linear in the parameters,
    and its coefficients are the gradients *)
Theorem C92_gradients : forall (A : Type) (r : runtime A) (add mul : A -> A -> A) (zero one : A)
    (lib_einsum : pystr -> list (tensor A) -> result (tensor A)) (iadd : tensor A -> tensor A -> result (tensor A))
    (os os' : nat -> orders) (pattern weight_text : pystr) (bias_text : option pystr) (sizes : list (pystr * Z)) (L R W : expr)
    (M : einmix (tensor A)) (e : nat) (len : label -> nat) (x z w : tensor A) (b : option (tensor A)),
  runtime_ok r -> sums_and_products add mul zero -> (forall a b, mul a b = mul b a) -> (forall a b c, mul a (mul b c) = mul (mul a b) c) -> (forall a, mul a one = a) ->
  einsum_contract add mul zero one lib_einsum -> iadd_contract add iadd ->
  (forall n, orders_ok (os n)) -> (forall n, orders_ok (os' n)) ->
  reads (rt_unicode r) pattern L R -> written (rt_unicode r) weight_text W -> plain L -> plain R -> plain W -> NoDup (map fst sizes) ->
  EinMix (rt_unicode r) os os' pattern weight_text bias_text sizes = Ok M ->
  wf x -> rank_fits L (length (shp x)) e -> fits len (left_groups e L) (right_groups e L R) (shp x) sizes ->
  (forall g, In g (left_groups e L) -> filter (unknown (map fst sizes)) g <> [] ->
     prodn (map len (filter (fun a => negb (unknown (map fst sizes) a)) g)) <> 0) ->
  (em_pre M <> None \/ em_post M <> None -> e < 8) ->
  wf w -> map Z.of_nat (shp w) = em_weight M -> bias_of (em_bias M) b ->
  exists y, call_einmix r lib_einsum iadd M w b x = Ok y /\ (wf z -> shp z = shp y -> exists gw,
    weight_gradient add mul zero (left_groups e L) (right_groups e L R) W len x z gw /\ shp gw = shp w /\
    match b with
    | None => inner add mul zero y z = inner add mul zero w gw
    | Some b => exists text B gb, bias_text = Some text /\ written (rt_unicode r) text B /\
        bias_gradient add zero (right_groups e L R) B R len z gb /\ shp gb = shp b /\
        inner add mul zero y z = add (inner add mul zero w gw) (inner add mul zero b gb)
    end).
Proof.
  exact (fun A r add mul zero one lib iadd os os' p wt bt sizes L R W M e len x z w b Hok Hsp Hmc Hma H1 HC HI Ho Ho' =>
    parameter_gradients add mul zero one Hsp Hmc Hma H1 lib HC iadd HI r Hok os os' Ho Ho' p wt bt sizes L R W M e len x z w b).
Qed.
Print Assumptions C92_gradients.

(** ** a change of the parameters changes the output, seen through [z], by the scalar
    products of the changes with the gradients; these do not depend on the parameters *)
Theorem C92_change : forall (A : Type) (r : runtime A) (add mul : A -> A -> A) (zero one : A)
    (lib_einsum : pystr -> list (tensor A) -> result (tensor A)) (iadd : tensor A -> tensor A -> result (tensor A))
    (os os' : nat -> orders) (pattern weight_text : pystr) (bias_text : option pystr) (sizes : list (pystr * Z)) (L R W : expr)
    (M : einmix (tensor A)) (e : nat) (len : label -> nat) (x z w v : tensor A) (b c : option (tensor A)),
  runtime_ok r -> sums_and_products add mul zero -> (forall a b, mul a b = mul b a) -> (forall a b c, mul a (mul b c) = mul (mul a b) c) -> (forall a, mul a one = a) ->
  einsum_contract add mul zero one lib_einsum -> iadd_contract add iadd ->
  (forall n, orders_ok (os n)) -> (forall n, orders_ok (os' n)) ->
  reads (rt_unicode r) pattern L R -> written (rt_unicode r) weight_text W -> plain L -> plain R -> plain W -> NoDup (map fst sizes) ->
  EinMix (rt_unicode r) os os' pattern weight_text bias_text sizes = Ok M ->
  wf x -> rank_fits L (length (shp x)) e -> fits len (left_groups e L) (right_groups e L R) (shp x) sizes ->
  (forall g, In g (left_groups e L) -> filter (unknown (map fst sizes)) g <> [] ->
     prodn (map len (filter (fun a => negb (unknown (map fst sizes) a)) g)) <> 0) ->
  (em_pre M <> None \/ em_post M <> None -> e < 8) ->
  wf w -> map Z.of_nat (shp w) = em_weight M -> wf v -> map Z.of_nat (shp v) = em_weight M -> bias_of (em_bias M) b -> bias_of (em_bias M) c ->
  exists y y', call_einmix r lib_einsum iadd M w b x = Ok y /\
    call_einmix r lib_einsum iadd M (t_zip add w v) (bias_zip add b c) x = Ok y' /\ shp y' = shp y /\
    (wf z -> shp z = shp y -> forall gw, weight_gradient add mul zero (left_groups e L) (right_groups e L R) W len x z gw ->
    match c with
    | None => inner add mul zero y' z = add (inner add mul zero y z) (inner add mul zero v gw)
    | Some c => forall text B gb, bias_text = Some text -> written (rt_unicode r) text B ->
        bias_gradient add zero (right_groups e L R) B R len z gb ->
        inner add mul zero y' z = add (inner add mul zero y z) (add (inner add mul zero v gw) (inner add mul zero c gb))
    end).
Proof.
  exact (fun A r add mul zero one lib iadd os os' p wt bt sizes L R W M e len x z w v b c Hok Hsp Hmc Hma H1 HC HI Ho Ho' =>
    parameter_change add mul zero one Hsp Hmc Hma H1 lib HC iadd HI r Hok os os' Ho Ho' p wt bt sizes L R W M e len x z w v b c).
Qed.
Print Assumptions C92_change.

(** ** there is no other gradient *)
Theorem C92_unique : forall (A : Type) (U : unicode) (add mul : A -> A -> A) (zero : A) (gl gr : list (list label)) (text text' : pystr) (W B R : expr) (len : label -> nat) (x z g g' : tensor A),
  written U text W -> written U text' R ->
  (weight_gradient add mul zero gl gr W len x z g -> weight_gradient add mul zero gl gr W len x z g' -> g = g') /\
  (bias_gradient add zero gr B R len z g -> bias_gradient add zero gr B R len z g' -> g = g').
Proof.
  exact (fun A U add mul zero gl gr text text' W B R len x z g g' HW HR => gradients_unique U add mul zero gl gr text text' W B R len x z g g' HW HR).
Qed.
Print Assumptions C92_unique.

(** ** Case: the layer of [C31_case], whose hypotheses are shown there *)
Example C92_case :
  let L := [dots3; grp [lit "h"; lit "c"]] in
  let R := [dots3; grp [lit "d"; lit "h"]] in
  let W := [nm "h"; nm "c"; nm "d"] in
  let B := [nm "d"] in
  let sizes := [(lit "c", 3%Z); (lit "d", 2%Z); (lit "h", 2%Z)] in
  let x := iota [2; 6] in
  let z := mkT [2; 4] [3; 1; -4; 1; 5; 0; 2; -6]%Z in
  let gw := mkT [2; 3; 2] [30; 12; 38; 10; 46; 8; 3; -51; 4; -56; 5; -61]%Z in
  let gb := mkT [2; 1] [9; -7]%Z in
  weight_gradient Z.add Z.mul 0%Z (left_groups 1 L) (right_groups 1 L R) W mix_len x z gw /\
  bias_gradient Z.add 0%Z (right_groups 1 L R) B R mix_len z gb /\
  exists M, EinMix ascii_unicode (fun _ => forward) (fun _ => backward) (lit "... (h c) -> ... (d h)") (lit "h c d") (Some (lit "d")) sizes = Ok M /\
    call_einmix numpy_like (ref_einsum Z.add Z.mul 0%Z 1%Z) (ref_iadd Z.add 0%Z) M (iota [2; 3; 2]) (Some (iota [2; 1])) x =
      Ok (mkT [2; 4] [10; 100; 14; 113; 46; 244; 68; 275]%Z) /\
    inner Z.add Z.mul 0%Z (mkT [2; 4] [10; 100; 14; 113; 46; 244; 68; 275]%Z) z = (-1097)%Z /\
    inner Z.add Z.mul 0%Z (iota [2; 3; 2]) gw = (-1090)%Z /\ inner Z.add Z.mul 0%Z (iota [2; 1]) gb = (-7)%Z.
Proof.
  cbn zeta. split; [|split].
  - split; [reflexivity|]. split; [reflexivity|]. intros ix Hix.
    pose proof (Hix (LName (lit "h")) ltac:(cbn; tauto)) as Hh. pose proof (Hix (LName (lit "c")) ltac:(cbn; tauto)) as Hc. pose proof (Hix (LName (lit "d")) ltac:(cbn; tauto)) as Hd.
    change (ix (LName (lit "h")) < 2) in Hh. change (ix (LName (lit "c")) < 3) in Hc. change (ix (LName (lit "d")) < 2) in Hd.
    set (jx := fun a => match a with LName s => if str_eqb s (lit "h") then ix (LName (lit "h")) else if str_eqb s (lit "c") then ix (LName (lit "c")) else ix (LName (lit "d")) | _ => 0 end).
    cbn zeta. rewrite (elements_agree (iota [2; 6]) _ _ _ ix jx), (elements_agree _ mix_len (right_groups 1 _ _) _ ix jx) by (intros a Ha; each Ha; subst a; (left; vm_compute; tauto) || (right; reflexivity)).
    change (map ix (weight_axes [nm "h"; nm "c"; nm "d"])) with (map jx (weight_axes [nm "h"; nm "c"; nm "d"])).
    subst jx. generalize dependent (ix (LName (lit "h"))). generalize dependent (ix (LName (lit "c"))). generalize dependent (ix (LName (lit "d"))). clear Hix.
    intros d Hd c Hc h Hh. destruct h as [|[|h]]; [| |lia]; (destruct c as [|[|[|c]]]; [| | |lia]); (destruct d as [|[|d]]; [| |lia]);
      (eexists (_ :: _ :: []); eexists (_ :: _ :: []); split; [vm_compute; reflexivity|]; split; [vm_compute; reflexivity|]; vm_compute; reflexivity).
  - split; [reflexivity|]. split; [reflexivity|]. intros ix Hix. pose proof (Hix (LName (lit "d")) ltac:(cbn; tauto)) as Hd.
    change (ix (LName (lit "d")) < 2) in Hd.
    set (jx := fun a : label => ix (LName (lit "d"))).
    rewrite (elements_agree _ mix_len (right_groups 1 _ _) _ ix jx) by (intros a Ha; each Ha; subst a; (left; vm_compute; tauto) || (right; reflexivity)).
    change (bias_index [nm "d"] [dots3; grp [lit "d"; lit "h"]] ix) with (bias_index [nm "d"] [dots3; grp [lit "d"; lit "h"]] jx).
    subst jx. generalize dependent (ix (LName (lit "d"))). clear Hix. intros d Hd. destruct d as [|[|d]]; [| |lia];
      (eexists (_ :: _ :: _ :: _ :: []); split; [vm_compute; reflexivity|]; vm_compute; reflexivity).
  - eexists. split; [vm_compute; reflexivity|]. repeat (split; [vm_compute; reflexivity|]). vm_compute. reflexivity.
Qed.
