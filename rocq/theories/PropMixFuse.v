(** * C93: two EinMix layers in a row are one *)
From Verif Require Import Py Tensor SpecSem SpecGrammar SpecEinsum SpecPattern SpecOps SpecElements SpecEinMix SpecAdjoint SpecLinear SpecMixGrad SpecMixFuse
  Parsing Recipe Ops Backends Api Layers Einsum EinMix EinsumFacts4 MixFacts8 MixFacts9 MixLaws2 MixFuseFacts MixFuseFacts2 MixFuseFacts3 Instances PropEinsum PropEinMix.

(** [L -> K] without a bias, then [K -> R], is [L -> R] with the weight that einsum makes
    of the two weights, if no name is summed over by the first layer and used again for an
    axis made by the second; the new weight has the axes of the two weights that are
    axes of the input or the output, in any order *)
Theorem C93_one_layer : forall (A : Type) (r : runtime A) (add mul : A -> A -> A) (zero one : A)
    (lib_einsum : pystr -> list (tensor A) -> result (tensor A)) (iadd : tensor A -> tensor A -> result (tensor A))
    (os os' : nat -> orders) (p1 p2 p3 wt1 wt2 wt3 : pystr) (bias_text : option pystr) (sizes1 sizes2 sizes3 : list (pystr * Z)) (L K R W1 W2 W3 : expr)
    (M1 M2 M3 : einmix (tensor A)) (einsum_pattern : pystr) (e : nat) (len : label -> nat) (x u v : tensor A) (b : option (tensor A)),
  runtime_ok r -> sums_and_products add mul zero -> (forall a b, mul a b = mul b a) -> (forall a b c, mul a (mul b c) = mul (mul a b) c) -> (forall a, mul a one = a) ->
  einsum_contract add mul zero one lib_einsum -> iadd_contract add iadd ->
  (forall n, orders_ok (os n)) -> (forall n, orders_ok (os' n)) ->
  reads (rt_unicode r) p1 L K -> reads (rt_unicode r) p2 K R -> reads (rt_unicode r) p3 L R ->
  written (rt_unicode r) wt1 W1 -> written (rt_unicode r) wt2 W2 -> written (rt_unicode r) wt3 W3 ->
  plain L -> plain K -> plain R -> plain W1 -> plain W2 -> plain W3 -> NoDup (map fst sizes1) -> NoDup (map fst sizes2) -> NoDup (map fst sizes3) ->
  EinMix (rt_unicode r) os os' p1 wt1 None sizes1 = Ok M1 -> EinMix (rt_unicode r) os os' p2 wt2 bias_text sizes2 = Ok M2 ->
  EinMix (rt_unicode r) os os' p3 wt3 bias_text sizes3 = Ok M3 ->
  (forall s, In s (keys L) -> In s (keys R) -> In s (keys K)) ->
  (forall s, In s (keys W3) <-> In s (keys W1 ++ keys W2) /\ In s (keys L ++ keys R)) ->
  einsum_reads (rt_unicode r) einsum_pattern [map EName (keys W1); map EName (keys W2)] (map EName (keys W3)) ->
  wf x -> rank_fits L (length (shp x)) e ->
  fits len (left_groups e L) (right_groups e L K) (shp x) sizes1 ->
  fits len (left_groups e K) (right_groups e K R) (gshape len (left_groups e K)) sizes2 ->
  fits len (left_groups e L) (right_groups e L R) (shp x) sizes3 ->
  no_division sizes1 len (left_groups e L) -> no_division sizes2 len (left_groups e K) -> no_division sizes3 len (left_groups e L) ->
  e < 8 -> wf u -> map Z.of_nat (shp u) = em_weight M1 -> wf v -> map Z.of_nat (shp v) = em_weight M2 -> bias_of (em_bias M2) b -> bias_of (em_bias M3) b ->
  exists w s y, einsum_with (rt_unicode r) lib_einsum [inl u; inl v; inr einsum_pattern] = Ok w /\ map Z.of_nat (shp w) = em_weight M3 /\
    call_einmix r lib_einsum iadd M1 u None x = Ok s /\ call_einmix r lib_einsum iadd M2 v b s = Ok y /\
    call_einmix r lib_einsum iadd M3 w b x = Ok y.
Proof.
  exact (fun A r add mul zero one lib iadd os os' p1 p2 p3 wt1 wt2 wt3 bt sizes1 sizes2 sizes3 L K R W1 W2 W3 M1 M2 M3 p e len x u v b Hok Hsp Hmc Hma H1 HC HI Ho Ho' =>
    layers_fused add mul zero one Hsp Hmc Hma H1 lib HC iadd HI r Hok os os' Ho Ho' p1 p2 p3 wt1 wt2 wt3 bt sizes1 sizes2 sizes3 L K R W1 W2 W3 M1 M2 M3 p e len x u v b).
Qed.
Print Assumptions C93_one_layer.

(** with a bias in the first layer: it becomes part of the bias of the one layer, which
    has to have the axes of the output that occur in the biases or in the second weight *)
Theorem C93_biased : forall (A : Type) (r : runtime A) (add mul : A -> A -> A) (zero one : A)
    (lib_einsum : pystr -> list (tensor A) -> result (tensor A)) (iadd : tensor A -> tensor A -> result (tensor A))
    (os os' : nat -> orders) (p1 p2 p3 wt1 wt2 wt3 t1 : pystr) (bt2 : option pystr) (t3 : pystr) (sizes1 sizes2 sizes3 : list (pystr * Z)) (L K R W1 W2 W3 B1 B3 : expr)
    (M1 M2 M3 : einmix (tensor A)) (einsum_pattern : pystr) (e : nat) (len : label -> nat) (x u v b1 : tensor A) (b2 : option (tensor A)),
  runtime_ok r -> sums_and_products add mul zero -> (forall a b, mul a b = mul b a) -> (forall a b c, mul a (mul b c) = mul (mul a b) c) -> (forall a, mul a one = a) ->
  einsum_contract add mul zero one lib_einsum -> iadd_contract add iadd ->
  (forall n, orders_ok (os n)) -> (forall n, orders_ok (os' n)) ->
  reads (rt_unicode r) p1 L K -> reads (rt_unicode r) p2 K R -> reads (rt_unicode r) p3 L R ->
  written (rt_unicode r) wt1 W1 -> written (rt_unicode r) wt2 W2 -> written (rt_unicode r) wt3 W3 -> written (rt_unicode r) t1 B1 -> written (rt_unicode r) t3 B3 ->
  plain L -> plain K -> plain R -> plain W1 -> plain W2 -> plain W3 -> NoDup (map fst sizes1) -> NoDup (map fst sizes2) -> NoDup (map fst sizes3) ->
  EinMix (rt_unicode r) os os' p1 wt1 (Some t1) sizes1 = Ok M1 -> EinMix (rt_unicode r) os os' p2 wt2 bt2 sizes2 = Ok M2 ->
  EinMix (rt_unicode r) os os' p3 wt3 (Some t3) sizes3 = Ok M3 ->
  (forall s, In s (keys L) -> In s (keys R) -> In s (keys K)) ->
  (forall s, In s (keys W3) <-> In s (keys W1 ++ keys W2) /\ In s (keys L ++ keys R)) ->
  (forall s, In s (keys R) -> In s (keys B1 ++ keys W2) \/ (exists t2 B2, bt2 = Some t2 /\ written (rt_unicode r) t2 B2 /\ In s (keys B2)) -> In s (keys B3)) ->
  einsum_reads (rt_unicode r) einsum_pattern [map EName (keys W1); map EName (keys W2)] (map EName (keys W3)) ->
  wf x -> rank_fits L (length (shp x)) e ->
  fits len (left_groups e L) (right_groups e L K) (shp x) sizes1 ->
  fits len (left_groups e K) (right_groups e K R) (gshape len (left_groups e K)) sizes2 ->
  fits len (left_groups e L) (right_groups e L R) (shp x) sizes3 ->
  no_division sizes1 len (left_groups e L) -> no_division sizes2 len (left_groups e K) -> no_division sizes3 len (left_groups e L) ->
  e < 8 -> wf u -> map Z.of_nat (shp u) = em_weight M1 -> wf v -> map Z.of_nat (shp v) = em_weight M2 -> bias_of (em_bias M1) (Some b1) -> bias_of (em_bias M2) b2 ->
  exists w b3 s y, einsum_with (rt_unicode r) lib_einsum [inl u; inl v; inr einsum_pattern] = Ok w /\ map Z.of_nat (shp w) = em_weight M3 /\ bias_of (em_bias M3) (Some b3) /\
    (exists second, option_map snd second = b2 /\ match second with None => True | Some (B2, _) => exists t2, bt2 = Some t2 /\ written (rt_unicode r) t2 B2 end /\
      fused_bias add mul zero (left_groups e K) (right_groups e K R) W2 B1 K B3 R len v b1 second b3) /\
    call_einmix r lib_einsum iadd M1 u (Some b1) x = Ok s /\ call_einmix r lib_einsum iadd M2 v b2 s = Ok y /\
    call_einmix r lib_einsum iadd M3 w (Some b3) x = Ok y.
Proof.
  exact (fun A r add mul zero one lib iadd os os' p1 p2 p3 wt1 wt2 wt3 t1 bt2 t3 sizes1 sizes2 sizes3 L K R W1 W2 W3 B1 B3 M1 M2 M3 p e len x u v b1 b2 Hok Hsp Hmc Hma H1 HC HI Ho Ho' =>
    layers_fused_biased add mul zero one Hsp Hmc Hma H1 lib HC iadd HI r Hok os os' Ho Ho' p1 p2 p3 wt1 wt2 wt3 t1 bt2 t3 sizes1 sizes2 sizes3 L K R W1 W2 W3 B1 B3 M1 M2 M3 p e len x u v b1 b2).
Qed.
Print Assumptions C93_biased.

(** the weight itself, whoever computes it *)
Theorem C93_weight : forall (A : Type) (add mul : A -> A -> A) (zero : A) (len : label -> nat) (gl gm gr : list (list label)) (U V W K R : expr)
    (x u v w s y : tensor A) (b : option (expr * tensor A)),
  sums_and_products add mul zero -> (forall a b, mul a b = mul b a) -> (forall a b c, mul a (mul b c) = mul (mul a b) c) ->
  NoDup (concat gl) -> NoDup (concat gm) -> NoDup (concat gr) -> (forall a, In a (concat gl) -> In a (concat gr) -> In a (concat gm)) ->
  incl (weight_axes V) (concat gm ++ concat gr) -> incl (weight_axes W) (concat gl ++ concat gr) ->
  wf x -> shp x = gshape len gl ->
  mixes add mul zero gl gm U K len x u None s -> mixes add mul zero gm gr V R len s v b y -> fused add mul zero gl gm gr U V W len u v w ->
  mixes add mul zero gl gr W R len x w b y.
Proof.
  exact (fun A add mul zero len gl gm gr U V W K R x u v w s y b Hsp Hmc Hma Nl Nm Nr Hlr HV HW =>
    fused_mixes add mul zero Hsp Hmc Hma len gl gm gr U V W K R Nl Nm Hlr HV HW x u v w s y b).
Qed.
Print Assumptions C93_weight.

Definition fuse_len (a : label) : nat := match a with LName s => if str_eqb s (lit "c") then 3 else 2 | LDots _ => 2 | LNum _ _ => 0 end.
Example C93_case :
  let L := [dots3; grp [lit "h"; lit "c"]] in
  let K := [dots3; grp [lit "d"; lit "h"]] in
  let R := [dots3; grp [lit "h"; lit "o"]] in
  let W1 := [nm "h"; nm "c"; nm "d"] in
  let W2 := [nm "d"; nm "o"] in
  let W3 := [nm "c"; nm "h"; nm "o"] in
  let sizes1 := [(lit "c", 3%Z); (lit "d", 2%Z); (lit "h", 2%Z)] in
  let sizes2 := [(lit "d", 2%Z); (lit "o", 2%Z)] in
  let sizes3 := [(lit "h", 2%Z); (lit "c", 3%Z); (lit "o", 2%Z)] in
  let w := mkT [3; 2; 2] [2; 3; 14; 27; 6; 11; 18; 35; 10; 19; 22; 43]%Z in
  let einsum := einsum_with ascii_unicode (ref_einsum Z.add Z.mul 0%Z 1%Z) in
  let call := call_einmix numpy_like (ref_einsum Z.add Z.mul 0%Z 1%Z) (ref_iadd Z.add 0%Z) in
  reads ascii_unicode (lit "... (h c) -> ... (d h)") L K /\ reads ascii_unicode (lit "... (d h) -> ... (h o)") K R /\ reads ascii_unicode (lit "... (h c) -> ... (h o)") L R /\
  written ascii_unicode (lit "h c d") W1 /\ written ascii_unicode (lit "d o") W2 /\ written ascii_unicode (lit "c h o") W3 /\ plain L /\ plain K /\ plain R /\ plain W1 /\ plain W2 /\ plain W3 /\
  (forall s, In s (keys L) -> In s (keys R) -> In s (keys K)) /\
  (forall s, In s (keys W3) <-> In s (keys W1 ++ keys W2) /\ In s (keys L ++ keys R)) /\
  einsum_reads ascii_unicode (lit "h c d, d o -> c h o") [map EName (keys W1); map EName (keys W2)] (map EName (keys W3)) /\
  rank_fits L 2 1 /\ fits fuse_len (left_groups 1 L) (right_groups 1 L K) [2; 6] sizes1 /\ fits fuse_len (left_groups 1 K) (right_groups 1 K R) [2; 4] sizes2 /\
  fits fuse_len (left_groups 1 L) (right_groups 1 L R) [2; 6] sizes3 /\
  no_division sizes1 fuse_len (left_groups 1 L) /\ no_division sizes2 fuse_len (left_groups 1 K) /\ no_division sizes3 fuse_len (left_groups 1 L) /\
  exists M1 M2 M3,
    EinMix ascii_unicode (fun _ => forward) (fun _ => backward) (lit "... (h c) -> ... (d h)") (lit "h c d") None sizes1 = Ok M1 /\
    EinMix ascii_unicode (fun _ => forward) (fun _ => backward) (lit "... (d h) -> ... (h o)") (lit "d o") (Some (lit "o")) sizes2 = Ok M2 /\
    EinMix ascii_unicode (fun _ => forward) (fun _ => backward) (lit "... (h c) -> ... (h o)") (lit "c h o") (Some (lit "o")) sizes3 = Ok M3 /\
    bias_of (em_bias M2) (Some (iota [1; 2])) /\ bias_of (em_bias M3) (Some (iota [1; 2])) /\
    em_weight M1 = [2; 3; 2]%Z /\ em_weight M2 = [2; 2]%Z /\ em_weight M3 = [3; 2; 2]%Z /\
    einsum [inl (iota [2; 3; 2]); inl (iota [2; 2]); inr (lit "h c d, d o -> c h o")] = Ok w /\
    call M1 (iota [2; 3; 2]) None (iota [2; 6]) = Ok (mkT [2; 4] [10; 100; 13; 112; 46; 244; 67; 274]%Z) /\
    call M2 (iota [2; 2]) (Some (iota [1; 2])) (mkT [2; 4] [10; 100; 13; 112; 46; 244; 67; 274]%Z) = Ok (mkT [2; 4] [26; 50; 224; 437; 134; 248; 548; 1067]%Z) /\
    call M3 w (Some (iota [1; 2])) (iota [2; 6]) = Ok (mkT [2; 4] [26; 50; 224; 437; 134; 248; 548; 1067]%Z).
Proof.
  cbn zeta. split; [solve_reads (lit "... (h c) ") (lit " ... (d h)")|]. split; [solve_reads (lit "... (d h) ") (lit " ... (h o)")|]. split; [solve_reads (lit "... (h c) ") (lit " ... (h o)")|].
  do 3 (split; [unfold written; solve_written|]). do 6 (split; [solve_plain|]).
  split; [intros s H H'; each H; subst s; each H'; try discriminate; cbv; solve_member|].
  split.
  { intros s. split; [intros H; each H; subst s; (split; cbv; solve_member)|]. intros [H H']. each H; subst s; try (cbv; solve_member); each H'; discriminate. }
  split.
  { exists [lit "h c d"; lit " d o "], (lit " c h o"). split; [reflexivity|]. split; [discriminate|]. split.
    - apply Forall2_cons; [solve_lists [nm "h"; nm "c"; nm "d"]|]. apply Forall2_cons; [solve_lists [nm "d"; nm "o"]|apply Forall2_nil].
    - solve_lists [nm "c"; nm "h"; nm "o"]. }
  split; [reflexivity|]. do 3 (split; [solve_fits|]).
  do 3 (split; [intros g H; each H; subst g; vm_compute; lia|]).
  do 3 eexists. do 3 (split; [vm_compute; reflexivity|]). do 2 (split; [eexists; repeat split|]).
  repeat (split; [vm_compute; reflexivity|]). vm_compute. reflexivity.
Qed.

(** the layers of [C93_case], with a bias over "d" in the first; the premises that are
    not in [C93_case] *)
Example C93_biased_case :
  let b1 := mkT [2; 1] [10; 100]%Z in
  let b3 := mkT [1; 2] [200; 311]%Z in
  let W2 := [nm "d"; nm "o"] in
  let sizes1 := [(lit "c", 3%Z); (lit "d", 2%Z); (lit "h", 2%Z)] in
  let sizes2 := [(lit "d", 2%Z); (lit "o", 2%Z)] in
  let sizes3 := [(lit "h", 2%Z); (lit "c", 3%Z); (lit "o", 2%Z)] in
  let w := mkT [3; 2; 2] [2; 3; 14; 27; 6; 11; 18; 35; 10; 19; 22; 43]%Z in
  let s := mkT [2; 4] [20; 110; 113; 212; 56; 254; 167; 374]%Z in
  let y := mkT [2; 4] [226; 360; 424; 747; 334; 558; 748; 1377]%Z in
  let call := call_einmix numpy_like (ref_einsum Z.add Z.mul 0%Z 1%Z) (ref_iadd Z.add 0%Z) in
  written ascii_unicode (lit "d") [nm "d"] /\ written ascii_unicode (lit "o") [nm "o"] /\
  (forall s, In s (keys [dots3; grp [lit "h"; lit "o"]]) -> In s (keys [nm "d"] ++ keys W2) \/
     (exists t2 B2, Some (lit "o") = Some t2 /\ written ascii_unicode t2 B2 /\ In s (keys B2)) -> In s (keys [nm "o"])) /\
  exists M1 M2 M3,
    EinMix ascii_unicode (fun _ => forward) (fun _ => backward) (lit "... (h c) -> ... (d h)") (lit "h c d") (Some (lit "d")) sizes1 = Ok M1 /\
    EinMix ascii_unicode (fun _ => forward) (fun _ => backward) (lit "... (d h) -> ... (h o)") (lit "d o") (Some (lit "o")) sizes2 = Ok M2 /\
    EinMix ascii_unicode (fun _ => forward) (fun _ => backward) (lit "... (h c) -> ... (h o)") (lit "c h o") (Some (lit "o")) sizes3 = Ok M3 /\
    bias_of (em_bias M1) (Some b1) /\ bias_of (em_bias M2) (Some (iota [1; 2])) /\ bias_of (em_bias M3) (Some b3) /\
    call M1 (iota [2; 3; 2]) (Some b1) (iota [2; 6]) = Ok s /\ call M2 (iota [2; 2]) (Some (iota [1; 2])) s = Ok y /\
    call M3 w (Some b3) (iota [2; 6]) = Ok y.
Proof.
  cbn zeta. do 2 (split; [unfold written; solve_written|]).
  split.
  { intros s H [H'|(t2 & B2 & E & WB & H')].
    - each H; subst s; each H'; try discriminate; cbv; solve_member.
    - injection E as <-. assert (X : B2 = [nm "o"]); [|subst B2; exact H'].
      eapply (ParseFacts3.written_fun ascii_unicode false false (lit "o")); [exact ascii_unicode_ok|exact WB|unfold written; solve_written]. }
  do 3 eexists. do 3 (split; [vm_compute; reflexivity|]). do 3 (split; [eexists; repeat split|]).
  repeat (split; [vm_compute; reflexivity|]). vm_compute. reflexivity.
Qed.

(** the condition on names is needed: "c" is summed over, and then made anew *)
Example C93_reused_name :
  let einsum := einsum_with ascii_unicode (ref_einsum Z.add Z.mul 0%Z 1%Z) in
  let call := call_einmix numpy_like (ref_einsum Z.add Z.mul 0%Z 1%Z) (ref_iadd Z.add 0%Z) in
  let mix := fun p w => EinMix ascii_unicode (fun _ => forward) (fun _ => backward) p w None [(lit "c", 2%Z)] in
  exists M1 M2 M3, mix (lit "b c -> b") (lit "c") = Ok M1 /\ mix (lit "b -> b c") (lit "c") = Ok M2 /\ mix (lit "b c -> b c") (lit "c") = Ok M3 /\
    einsum [inl (mkT [2] [1; 1]%Z); inl (mkT [2] [1; 1]%Z); inr (lit "c, c -> c")] = Ok (mkT [2] [1; 1]%Z) /\
    call M1 (mkT [2] [1; 1]%Z) None (iota [1; 2]) = Ok (mkT [1] [1]%Z) /\ call M2 (mkT [2] [1; 1]%Z) None (mkT [1] [1]%Z) = Ok (mkT [1; 2] [1; 1]%Z) /\
    call M3 (mkT [2] [1; 1]%Z) None (iota [1; 2]) = Ok (iota [1; 2]).
Proof.
  cbn zeta. do 3 eexists. do 3 (split; [vm_compute; reflexivity|]). repeat (split; [vm_compute; reflexivity|]). vm_compute. reflexivity.
Qed.
