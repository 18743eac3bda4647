(** * EinMix: C10, C31, C32, C41, C42 *)
From Verif Require Import Py Tensor SpecSem SpecGrammar SpecEinsum SpecPattern SpecOps SpecEinMix Parsing Recipe Ops Backends Api Layers EinMix Instances
  EinsumFacts4 MixFacts8 MixFacts9 MixFacts10.
From Coq Require Import Permutation.

(** ** C31 *)
(** At most 7 dimensions under the ellipsis are supported when the pattern has
    groups.  No statement about patterns that contain the character U+2026. *)
Theorem C31_einmix : forall (A : Type) (r : runtime A) (add mul : A -> A -> A) (zero one : A)
    (lib_einsum : pystr -> list (tensor A) -> result (tensor A)) (iadd : tensor A -> tensor A -> result (tensor A))
    (os os' : nat -> orders) (pattern weight_text : pystr) (bias_text : option pystr) (sizes : list (pystr * Z)) (L R W : expr)
    (M : einmix (tensor A)) (e : nat) (len : label -> nat) (x w : tensor A) (b : option (expr * tensor A)),
  runtime_ok r -> (forall a b, add a b = add b a) -> (forall a b c, add a (add b c) = add (add a b) c) -> (forall a, mul a one = a) ->
  einsum_contract add mul zero one lib_einsum -> iadd_contract add iadd ->
  (forall n, orders_ok (os n)) -> (forall n, orders_ok (os' n)) -> NoDup (map fst sizes) ->
  reads (rt_unicode r) pattern L R -> written (rt_unicode r) weight_text W -> plain L -> plain R -> plain W ->
  EinMix (rt_unicode r) os os' pattern weight_text bias_text sizes = Ok M ->
  wf x -> rank_fits L (length (shp x)) e -> fits len (left_groups e L) (right_groups e L R) (shp x) sizes ->
  (forall g, In g (left_groups e L) -> filter (unknown (map fst sizes)) g <> [] ->
     prodn (map len (filter (fun a => negb (unknown (map fst sizes) a)) g)) <> 0) ->
  (em_pre M <> None \/ em_post M <> None -> e < 8) ->
  wf w -> map Z.of_nat (shp w) = em_weight M ->
  match bias_text with
  | None => b = None
  | Some text => exists B b0, b = Some (B, b0) /\ written (rt_unicode r) text B /\ wf b0 /\ Some (map Z.of_nat (shp b0)) = em_bias M
  end ->
  exists y, call_einmix r lib_einsum iadd M w (option_map snd b) x = Ok y /\
    mixes add mul zero (left_groups e L) (right_groups e L R) W R len x w b y.
Proof.
  exact (fun A r add mul zero one lib iadd os os' pattern wt bt sizes L R W M e len x w b Hok Hc Ha H1 HC HI Ho Ho' Hn Hr HW PL PR PW HM Wx Hk Hf Hd He Ww Sw =>
    call_mixes add mul zero one Hc Ha H1 lib HC iadd HI r Hok os os' Ho Ho' pattern wt bt sizes L R W Hr HW PL PR PW Hn M HM e len x w Wx Ww Hk Hf Hd He Sw b).
Qed.
Print Assumptions C31_einmix.

(** there are libraries that satisfy what is assumed of the addition *)
Theorem C31_library : forall (A : Type) (add : A -> A -> A) (zero : A), iadd_contract add (ref_iadd add zero).
Proof. exact (fun A => @ref_iadd_contract A). Qed.
Print Assumptions C31_library.

(** ** C32 *)
Theorem C32_shapes : forall (T : Type) (U : unicode) (os os' : nat -> orders) (pattern weight_text : pystr) (bias_text : option pystr) (sizes : list (pystr * Z))
    (L R W : expr) (M : einmix T) (len : pystr -> Z),
  unicode_ok U -> (forall n, orders_ok (os n)) -> NoDup (map fst sizes) ->
  reads U pattern L R -> written U weight_text W -> plain L -> plain R -> plain W ->
  EinMix U os os' pattern weight_text bias_text sizes = Ok M -> (forall s z, In (s, z) sizes -> len s = z) ->
  em_weight M = weight_dims len W /\
  em_fan_in M = fold_right Z.mul 1%Z (map len (filter (fun s => negb (str_mem s (keys R))) (keys W))) /\
  match bias_text with
  | None => em_bias M = None
  | Some text => exists B, written U text B /\ em_bias M = Some (bias_dims len B R)
  end.
Proof.
  exact (fun T U os os' pattern wt bt sizes L R W M len HU Ho Hn Hr HW PL PR PW HM =>
    mix_shapes U HU os os' Ho pattern wt bt sizes Hn L R W Hr HW PL PR PW M HM len).
Qed.
Print Assumptions C32_shapes.

(** the bias broadcasts to the output axes, one dimension each *)
Theorem C32_bias_broadcasts : forall (T : Type) (U : unicode) (os os' : nat -> orders) (pattern weight_text text : pystr) (sizes : list (pystr * Z))
    (L R W B : expr) (M : einmix T) (e : nat) (len : label -> nat),
  unicode_ok U -> (forall n, orders_ok (os n)) -> NoDup (map fst sizes) ->
  reads U pattern L R -> written U weight_text W -> plain L -> plain R -> plain W -> written U text B ->
  EinMix U os os' pattern weight_text (Some text) sizes = Ok M ->
  broadcasts_to (map (fun s => if str_mem s (keys B) then len (LName s) else 1) (written_names R)) (map len (concat (right_groups e L R))).
Proof.
  exact (fun T U os os' pattern wt text sizes L R W B M e len HU Ho Hn Hr HW PL PR PW HB HM =>
    mix_broadcasts U HU os os' Ho pattern wt (Some text) sizes Hn L R W Hr HW PL PR PW M HM e len B text eq_refl HB).
Qed.
Print Assumptions C32_bias_broadcasts.

(** ** C41 *)
Theorem C41_einmix_accepts : forall (T : Type) (U : unicode) (os os' : nat -> orders) (pattern weight_text : pystr) (bias_text : option pystr) (sizes : list (pystr * Z)),
  unicode_ok U -> (forall n, orders_ok (os n)) -> (forall n, orders_ok (os' n)) -> NoDup (map fst sizes) ->
  (forall L R, reads U pattern L R -> plain L /\ plain R) -> (forall W, written U weight_text W -> plain W) ->
  ((exists M : einmix T, EinMix U os os' pattern weight_text bias_text sizes = Ok M) <->
   exists L R W, reads U pattern L R /\ written U weight_text W /\ mix_ok U bias_text sizes L R W).
Proof. exact (fun T U os os' pattern wt bt sizes HU Ho Ho' Hn => einmix_accepts U HU os os' Ho Ho' pattern wt bt sizes Hn). Qed.
Print Assumptions C41_einmix_accepts.

(** ** C10, for EinMix *)
Theorem C10_einmix_set_order_irrelevant : forall (A : Type) (U : unicode) (os1 os1' os2 os2' : nat -> orders)
    (pattern weight_text : pystr) (bias_text : option pystr) (sizes : list (pystr * Z)),
  unicode_ok U -> (forall n, orders_ok (os1 n)) -> (forall n, orders_ok (os1' n)) -> (forall n, orders_ok (os2 n)) -> (forall n, orders_ok (os2' n)) ->
  NoDup (map fst sizes) ->
  match EinMix (T := tensor A) U os1 os1' pattern weight_text bias_text sizes, EinMix U os2 os2' pattern weight_text bias_text sizes with
  | Ok M, Ok M' =>
      em_pattern M' = em_pattern M /\ em_weight_text M' = em_weight_text M /\ em_bias_text M' = em_bias_text M /\ em_sizes M' = em_sizes M /\
      em_weight M' = em_weight M /\ em_bias M' = em_bias M /\ em_fan_in M' = em_fan_in M /\ em_einsum M' = em_einsum M /\
      forall r lib iadd w b x, runtime_ok r -> rt_unicode r = U -> call_einmix r lib iadd M' w b x = call_einmix r lib iadd M w b x
  | Err ex, Err ex' => ex = ex'
  | _, _ => False
  end.
Proof. exact (fun A U os1 os1' os2 os2' pattern wt bt sizes HU => einmix_orders U HU os1 os1' os2 os2' pattern wt bt sizes). Qed.
Print Assumptions C10_einmix_set_order_irrelevant.

(** the names in the einsum pattern are sorted, so their order in the set does not matter *)
Theorem C10_einmix_sorted : forall (l l' : list pystr), Permutation l l' -> str_sorted l = str_sorted l'.
Proof. exact sorted_any_order. Qed.
Print Assumptions C10_einmix_sorted.

(** ** a case *)
Definition mix_len (a : label) : nat :=
  match a with LName s => if str_eqb s (lit "c") then 3 else 2 | LDots _ => 2 | LNum _ _ => 0 end.
Example C31_case :
  let pattern := lit "... (h c) -> ... (d h)" in
  let L := [dots3; grp [lit "h"; lit "c"]] in
  let R := [dots3; grp [lit "d"; lit "h"]] in
  let W := [nm "h"; nm "c"; nm "d"] in
  let B := [nm "d"] in
  let sizes := [(lit "c", 3%Z); (lit "d", 2%Z); (lit "h", 2%Z)] in
  let x := iota [2; 6] in
  reads ascii_unicode pattern L R /\ written ascii_unicode (lit "h c d") W /\ written ascii_unicode (lit "d") B /\ plain L /\ plain R /\ plain W /\
  mix_ok ascii_unicode (Some (lit "d")) sizes L R W /\
  rank_fits L 2 1 /\ fits mix_len (left_groups 1 L) (right_groups 1 L R) [2; 6] sizes /\
  (forall g, In g (left_groups 1 L) -> filter (unknown (map fst sizes)) g <> [] ->
     prodn (map mix_len (filter (fun a => negb (unknown (map fst sizes) a)) g)) <> 0) /\
  exists M, EinMix ascii_unicode (fun _ => forward) (fun _ => backward) pattern (lit "h c d") (Some (lit "d")) sizes = Ok M /\
    em_einsum M = lit "...ca,cab->...bc" /\ em_weight M = [2; 3; 2]%Z /\ em_bias M = Some [2; 1]%Z /\ em_fan_in M = 3%Z /\
    call_einmix numpy_like (ref_einsum Z.add Z.mul 0%Z 1%Z) (ref_iadd Z.add 0%Z) M (iota [2; 3; 2]) (Some (iota [2; 1])) x =
      Ok (mkT [2; 4] [10; 100; 14; 113; 46; 244; 68; 275]%Z).
Proof.
  cbn zeta.
  split; [solve_reads (lit "... (h c) ") (lit " ... (d h)")|].
  split; [unfold written; solve_written|]. split; [unfold written; solve_written|].
  split; [solve_plain|]. split; [solve_plain|]. split; [solve_plain|]. split.
  { split.
    - intros s H H'. each H; subst s; each H'; discriminate.
    - solve_incl.
    - reflexivity.
    - solve_not_grouped.
    - split; reflexivity.
    - intros i H. each H; subst i; eexists; reflexivity.
    - solve_incl.
    - solve_incl.
    - solve_incl.
    - intros g H. each H; subst g; vm_compute; repeat constructor.
    - intros text H. injection H as <-. exists [nm "d"]. split.
      + unfold written. solve_written.
      + split; [solve_incl|reflexivity].
      + solve_incl.
      + intros pre post H s Hs. cbn in H. destruct pre as [|a pre]; [destruct Hs|]. injection H as _ H. destruct pre as [|b pre]; [discriminate|].
        injection H as _ H. destruct pre as [|c pre]; [discriminate|]. injection H as _ H. destruct pre; discriminate.
    - intros s H1 H2 H3. each H3; discriminate.
    - vm_compute. repeat constructor. }
  split; [reflexivity|]. split; [solve_fits|]. split.
  { intros g H. each H; subst g; vm_compute; lia. }
  destruct (EinMix ascii_unicode (fun _ => forward) (fun _ => backward) (lit "... (h c) -> ... (d h)") (lit "h c d") (Some (lit "d"))
              [(lit "c", 3%Z); (lit "d", 2%Z); (lit "h", 2%Z)] : result (einmix (tensor Z))) as [M|] eqn:E; [|vm_compute in E; discriminate].
  exists M. vm_compute in E. injection E as <-. repeat (split; [vm_compute; reflexivity|]). vm_compute. reflexivity.
Qed.

(** ** C42 *)
(** With one axis per group on the left, lengths of axes that are neither in the
    weight nor in the bias are ignored: the layer is the same for all of them. *)
Theorem C42_other_sizes_ignored : forall (T : Type) (U : unicode) (os os' : nat -> orders) (pattern weight_text : pystr) (bias_text : option pystr)
    (sizes sizes' : list (pystr * Z)) (L R W : expr) (M : einmix T),
  unicode_ok U -> (forall n, orders_ok (os n)) -> (forall n, orders_ok (os' n)) -> NoDup (map fst sizes) ->
  reads U pattern L R -> written U weight_text W -> plain L -> plain R -> plain W ->
  EinMix U os os' pattern weight_text bias_text sizes = Ok M ->
  map fst sizes' = map fst sizes -> (forall i, In i L -> exists a, i = Atom a /\ a <> ANum 1%Z) ->
  (forall s z, In s (keys W) \/ (exists text B, bias_text = Some text /\ written U text B /\ In s (keys B)) -> (In (s, z) sizes <-> In (s, z) sizes')) ->
  exists M', EinMix U os os' pattern weight_text bias_text sizes' = Ok M' /\
    M' = mkMix (em_pattern M) (em_weight_text M) (em_bias_text M) sizes' (em_pre M) (em_post M) (em_weight M) (em_bias M) (em_fan_in M) (em_einsum M).
Proof.
  exact (fun T U os os' pattern wt bt sizes sizes' L R W M HU Ho Ho' Hn Hr HW PL PR PW HM =>
    mix_ignores U HU os os' Ho Ho' pattern wt bt sizes sizes' Hn L R W Hr HW PL PR PW M HM).
Qed.
Print Assumptions C42_other_sizes_ignored.

(** so a length that contradicts the input may go unnoticed *)
Theorem C42_wrong_size_accepted : exists (r : runtime Z) os os' pattern weight_text sizes L R M x w y,
  runtime_ok r /\ (forall n, orders_ok (os n)) /\ (forall n, orders_ok (os' n)) /\ reads (rt_unicode r) pattern L R /\
  EinMix (rt_unicode r) os os' pattern weight_text None sizes = Ok M /\
  wf x /\ wf w /\ map Z.of_nat (shp w) = em_weight M /\ rank_fits L (length (shp x)) 0 /\
  (forall len, ~ fits len (left_groups 0 L) (right_groups 0 L R) (shp x) sizes) /\
  call_einmix r (ref_einsum Z.add Z.mul 0%Z 1%Z) (ref_iadd Z.add 0%Z) M w None x = Ok y.
Proof.
  destruct (EinMix ascii_unicode (fun _ => forward) (fun _ => forward) (lit "b c -> b c") (lit "c") None
              [(lit "b", 7%Z); (lit "c", 3%Z)] : result (einmix (tensor Z))) as [M|] eqn:E; [|vm_compute in E; discriminate].
  exists numpy_like, (fun _ => forward), (fun _ => forward), (lit "b c -> b c"), (lit "c"), [(lit "b", 7%Z); (lit "c", 3%Z)], [nm "b"; nm "c"], [nm "b"; nm "c"],
    M, (iota [2; 3]), (iota [3]), (mkT [2; 3] [0; 1; 4; 0; 4; 10]%Z).
  split; [apply runtime_for_ok|]. split; [intros _; apply forward_ok|]. split; [intros _; apply forward_ok|].
  split; [solve_reads (lit "b c ") (lit " b c")|]. split; [exact E|]. vm_compute in E. injection E as <-.
  split; [reflexivity|]. split; [reflexivity|]. split; [reflexivity|]. split; [split; reflexivity|]. split; [|vm_compute; reflexivity].
  intros len (H1 & _ & H2). specialize (H2 (lit "b") 7%Z (or_introl eq_refl)). change ([len (LName (lit "b")) * 1; len (LName (lit "c")) * 1] = [2; 3]) in H1. apply (f_equal (hd 0)) in H1. cbn [hd] in H1. lia.
Qed.
Print Assumptions C42_wrong_size_accepted.
