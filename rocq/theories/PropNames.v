(** * C70: names of axes are labels: einsum, pack, unpack, parse_shape, EinMix *)
From Verif Require Import Py Tensor SpecSem SpecGrammar SpecForms SpecEinsum SpecPattern SpecOps SpecEinMix SpecPacking SpecLabels
  Parsing Recipe Ops Backends Api Packing Einsum EinMix EinsumFacts4 PackFacts ParseFacts MixFacts8 MixFacts9 LabelFacts MixLaws Instances PropEinsum PropEinMix.

(** ** einsum: the library receives the same text, and errors are the same *)
Theorem C70_einsum : forall (T : Type) (U : unicode) (lib_einsum : pystr -> list T -> result T) (f : pystr -> pystr) (p p' : pystr)
    (Ls : list (list entry)) (R : list entry) (args : list (T + pystr)),
  unicode_ok U -> einsum_reads U p Ls R -> einsum_reads U p' (map (rename_entries f) Ls) (rename_entries f R) ->
  injective_on f (all_names Ls ++ entry_names R) ->
  einsum_with U lib_einsum (args ++ [inr p']) = einsum_with U lib_einsum (args ++ [inr p]).
Proof. exact (fun T U lib f p p' Ls R args HU H H' Hf => einsum_same U lib p p' args (compactify_rename U HU f p p' Ls R H H' Hf)). Qed.
Print Assumptions C70_einsum.

(** ** pack and unpack: only the numbers of axes before and after the star matter *)
Theorem C70_pack : forall (A : Type) (r : runtime A) (p p' : pystr) (before after before' after' : list pystr),
  runtime_ok r -> pack_pattern (rt_unicode r) p before after -> pack_pattern (rt_unicode r) p' before' after' ->
  length before' = length before -> length after' = length after ->
  (forall xs, pack r xs p' = pack r xs p) /\ (forall x ps, unpack r x ps p' = unpack r x ps p).
Proof. exact (fun A r p p' before after before' after' => pack_names r p p' before after before' after'). Qed.
Print Assumptions C70_pack.

(** ** parse_shape: the keys of the dictionary are renamed *)
Theorem C70_parse_shape : forall (U : unicode) (f : pystr -> pystr) (N : list pystr) (p p' : pystr) (e : expr) (shape : list Z),
  unicode_ok U -> renaming f N -> f [c_under] = [c_under] -> In [c_under] N -> incl (keys e) N ->
  written_as U true false p e -> written_as U true false p' (rename f e) ->
  parse_shape U shape p' = on_ok (rename_sizes f) (parse_shape U shape p).
Proof. exact (fun U f N p p' e shape HU Hf Hu Hn Hi W W' => parse_shape_rename f N Hf Hu Hn U HU p p' e shape W W' Hi). Qed.
Print Assumptions C70_parse_shape.

(** ** EinMix: the layer can be made under the new names if and only if it can be
    made under the old ones *)
Theorem C70_einmix_accepts : forall (A : Type) (r : runtime A) (os os' : nat -> orders) (f : pystr -> pystr) (p p' wt wt' : pystr) (bt bt' : option pystr)
    (sizes : list (pystr * Z)) (L R W B : expr),
  runtime_ok r -> (forall n, orders_ok (os n)) -> (forall n, orders_ok (os' n)) -> NoDup (map fst sizes) ->
  reads (rt_unicode r) p L R -> reads (rt_unicode r) p' (rename f L) (rename f R) ->
  written (rt_unicode r) wt W -> written (rt_unicode r) wt' (rename f W) -> bias_renamed (rt_unicode r) f bt bt' B ->
  plain L -> plain R -> plain W -> renaming f (keys L ++ keys R ++ keys W ++ keys B ++ map fst sizes) ->
  (forall s, In s (map fst sizes) -> ~ In s [lit "self"; lit "pattern"; lit "weight_shape"; lit "bias_shape"]) ->
  (forall s, In s (map fst (rename_sizes f sizes)) -> ~ In s [lit "self"; lit "pattern"; lit "weight_shape"; lit "bias_shape"]) ->
  ((exists M : einmix (tensor A), EinMix (rt_unicode r) os os' p wt bt sizes = Ok M) <->
   (exists M : einmix (tensor A), EinMix (rt_unicode r) os os' p' wt' bt' (rename_sizes f sizes) = Ok M)).
Proof.
  exact (fun A r os os' f p p' wt wt' bt bt' sizes L R W B Hok Ho Ho' Hn H H' HW HW' HB PL PR PW Hf =>
    both_made r Hok os os' Ho Ho' f p p' wt wt' bt bt' sizes L R W B H H' HW HW' HB PL PR PW Hn Hf).
Qed.
Print Assumptions C70_einmix_accepts.

(** its parameters have the same shapes and the same initialization *)
Theorem C70_einmix_shapes : forall (A : Type) (r : runtime A) (os os' : nat -> orders) (f : pystr -> pystr) (p p' wt wt' : pystr) (bt bt' : option pystr)
    (sizes : list (pystr * Z)) (L R W B : expr) (M M' : einmix (tensor A)),
  runtime_ok r -> (forall n, orders_ok (os n)) -> NoDup (map fst sizes) ->
  reads (rt_unicode r) p L R -> reads (rt_unicode r) p' (rename f L) (rename f R) ->
  written (rt_unicode r) wt W -> written (rt_unicode r) wt' (rename f W) -> bias_renamed (rt_unicode r) f bt bt' B ->
  plain L -> plain R -> plain W -> renaming f (keys L ++ keys R ++ keys W ++ keys B ++ map fst sizes) ->
  EinMix (rt_unicode r) os os' p wt bt sizes = Ok M -> EinMix (rt_unicode r) os os' p' wt' bt' (rename_sizes f sizes) = Ok M' ->
  em_weight M' = em_weight M /\ em_bias M' = em_bias M /\ em_fan_in M' = em_fan_in M.
Proof.
  exact (fun A r os os' f p p' wt wt' bt bt' sizes L R W B M M' Hok Ho Hn H H' HW HW' HB PL PR PW Hf HM HM' =>
    same_shapes r Hok os os' Ho f p p' wt wt' bt bt' sizes L R W B H H' HW HW' HB PL PR PW Hn Hf M M' HM HM').
Qed.
Print Assumptions C70_einmix_shapes.

(** and computes the same, on every input that fits *)
Theorem C70_einmix : forall (A : Type) (r : runtime A) (add mul : A -> A -> A) (zero one : A)
    (lib_einsum : pystr -> list (tensor A) -> result (tensor A)) (iadd : tensor A -> tensor A -> result (tensor A))
    (os os' : nat -> orders) (f : pystr -> pystr) (p p' wt wt' : pystr) (bt bt' : option pystr)
    (sizes : list (pystr * Z)) (L R W B : expr) (M M' : einmix (tensor A)) (e : nat) (len : label -> nat) (x w : tensor A) (b : option (tensor A)),
  runtime_ok r -> (forall a b, add a b = add b a) -> (forall a b c, add a (add b c) = add (add a b) c) -> (forall a, mul a one = a) ->
  einsum_contract add mul zero one lib_einsum -> iadd_contract add iadd ->
  (forall n, orders_ok (os n)) -> (forall n, orders_ok (os' n)) -> NoDup (map fst sizes) ->
  reads (rt_unicode r) p L R -> reads (rt_unicode r) p' (rename f L) (rename f R) ->
  written (rt_unicode r) wt W -> written (rt_unicode r) wt' (rename f W) -> bias_renamed (rt_unicode r) f bt bt' B ->
  plain L -> plain R -> plain W -> renaming f (keys L ++ keys R ++ keys W ++ keys B ++ map fst sizes) ->
  EinMix (rt_unicode r) os os' p wt bt sizes = Ok M -> EinMix (rt_unicode r) os os' p' wt' bt' (rename_sizes f sizes) = Ok M' ->
  wf x -> rank_fits L (length (shp x)) e -> fits len (left_groups e L) (right_groups e L R) (shp x) sizes ->
  (forall g, In g (left_groups e L) -> filter (unknown (map fst sizes)) g <> [] ->
     prodn (map len (filter (fun a => negb (unknown (map fst sizes) a)) g)) <> 0) ->
  (em_pre M <> None \/ em_post M <> None -> e < 8) ->
  wf w -> map Z.of_nat (shp w) = em_weight M ->
  match bt with None => b = None | Some _ => exists b0, b = Some b0 /\ wf b0 /\ Some (map Z.of_nat (shp b0)) = em_bias M end ->
  exists y, call_einmix r lib_einsum iadd M w b x = Ok y /\ call_einmix r lib_einsum iadd M' w b x = Ok y.
Proof.
  exact (fun A r add mul zero one lib iadd os os' f p p' wt wt' bt bt' sizes L R W B M M' e len x w b Hok Hc Ha H1 HC HI Ho Ho' Hn H H' HW HW' HB PL PR PW Hf HM HM'
           Wx Hk Hs Hd He Ww Sw =>
    same_calls add mul zero one Hc Ha H1 lib HC iadd HI r Hok os os' Ho Ho' f p p' wt wt' bt bt' sizes L R W B H H' HW HW' HB PL PR PW Hn Hf M M' HM HM'
      e len x w Wx Ww Hk Hs Hd He Sw b).
Qed.
Print Assumptions C70_einmix.

(** ** cases *)
Definition other_name (s : pystr) : pystr :=
  if str_eqb s (lit "i") then lit "row" else if str_eqb s (lit "j") then lit "i" else if str_eqb s (lit "k") then lit "Z9" else s.
Example C70_einsum_case :
  let Ls := [[EName (lit "i"); EName (lit "j")]; [EName (lit "j"); EName (lit "k")]] in
  let R := [EName (lit "i"); EName (lit "k")] in
  einsum_reads ascii_unicode (lit "i j, j k -> i k") Ls R /\
  einsum_reads ascii_unicode (lit "row i, i Z9 -> row Z9") (map (rename_entries other_name) Ls) (rename_entries other_name R) /\
  injective_on other_name (all_names Ls ++ entry_names R) /\
  compactify ascii_unicode (lit "row i, i Z9 -> row Z9") = Ok (lit "ab,bc->ac").
Proof.
  cbn zeta. split; [|split; [|split]].
  - exists [lit "i j"; lit " j k "], (lit " i k"). split; [reflexivity|]. split; [discriminate|]. split; [|solve_lists [nm "i"; nm "k"]].
    apply Forall2_cons; [solve_lists [nm "i"; nm "j"]|]. apply Forall2_cons; [solve_lists [nm "j"; nm "k"]|apply Forall2_nil].
  - exists [lit "row i"; lit " i Z9 "], (lit " row Z9"). split; [reflexivity|]. split; [discriminate|]. split; [|solve_lists [nm "row"; nm "Z9"]].
    apply Forall2_cons; [solve_lists [nm "row"; nm "i"]|]. apply Forall2_cons; [solve_lists [nm "i"; nm "Z9"]|apply Forall2_nil].
  - intros s t Hs Ht. each Hs; subst s; each Ht; subst t; vm_compute; congruence.
  - reflexivity.
Qed.

Example C70_pack_case :
  pack_pattern ascii_unicode (lit "i * k") [lit "i"] [lit "k"] /\ pack_pattern ascii_unicode (lit "row * i") [lit "row"] [lit "i"] /\
  exists y, pack numpy_like [iota [2; 3; 4; 2]; iota [2; 2]] (lit "row * i") = Ok (y, [[3; 4]%Z; []]).
Proof.
  split; [|split].
  - split; [exact (words_complete ascii_unicode (lit "i * k"))|]. split; [solve_NoDup|]. repeat constructor; try discriminate; intros H; discriminate.
  - split; [exact (words_complete ascii_unicode (lit "row * i"))|]. split; [solve_NoDup|]. repeat constructor; try discriminate; intros H; discriminate.
  - eexists. vm_compute. reflexivity.
Qed.

Ltac solve_skipping :=
  lazymatch goal with |- written_as _ _ _ ?s _ =>
    exists (lex None s); split; [apply spells_iff; reflexivity|];
    split; [let ts := eval cbv in (lex None s) in change (lex None s) with ts;
            repeat (apply st_word; [first [solve_atom | apply wa_name; right; split; [reflexivity|]; split; [intros c [<- | []]; right; reflexivity|right; split; reflexivity]]|]); apply st_nil
           | split; [cbv; repeat constructor | right; cbv -[In]; solve_NoDup]]
  end.
Example C70_parse_shape_case :
  let e := [nm "i"; nm "_"; dots3; nm "j"] in
  renaming other_name [lit "i"; lit "j"; lit "_"] /\ written_as ascii_unicode true false (lit "i _ ... j") e /\
  written_as ascii_unicode true false (lit "row _ ... i") (rename other_name e) /\
  parse_shape ascii_unicode [2; 3; 4; 5; 6]%Z (lit "i _ ... j") = Ok [(lit "i", 2%Z); (lit "j", 6%Z)] /\
  parse_shape ascii_unicode [2; 3; 4; 5; 6]%Z (lit "row _ ... i") = Ok [(lit "row", 2%Z); (lit "i", 6%Z)].
Proof.
  cbn zeta. split; [|split; [|split; [|split]]].
  - split; [reflexivity|]. intros s t Hs Ht. each Hs; subst s; each Ht; subst t; vm_compute; congruence.
  - solve_skipping.
  - solve_skipping.
  - vm_compute. reflexivity.
  - vm_compute. reflexivity.
Qed.

(** the names are sorted in the pattern given to einsum: it differs, the results do not *)
Definition mix_name (s : pystr) : pystr :=
  if str_eqb s (lit "h") then lit "a" else if str_eqb s (lit "c") then lit "z" else if str_eqb s (lit "d") then lit "h" else s.
Example C70_einmix_case :
  let L := [dots3; grp [lit "h"; lit "c"]] in
  let R := [dots3; grp [lit "d"; lit "h"]] in
  let W := [nm "h"; nm "c"; nm "d"] in
  let B := [nm "d"] in
  let sizes := [(lit "c", 3%Z); (lit "d", 2%Z); (lit "h", 2%Z)] in
  let f := mix_name in
  reads ascii_unicode (lit "... (a z) -> ... (h a)") (rename f L) (rename f R) /\ written ascii_unicode (lit "a z h") (rename f W) /\
  bias_renamed ascii_unicode f (Some (lit "d")) (Some (lit "h")) B /\ renaming f (keys L ++ keys R ++ keys W ++ keys B ++ map fst sizes) /\
  exists M, EinMix ascii_unicode (fun _ => forward) (fun _ => backward) (lit "... (a z) -> ... (h a)") (lit "a z h") (Some (lit "h")) (rename_sizes f sizes) = Ok M /\
    em_einsum M = lit "...ac,acb->...ba" /\ em_weight M = [2; 3; 2]%Z /\ em_bias M = Some [2; 1]%Z /\ em_fan_in M = 3%Z /\
    call_einmix numpy_like (ref_einsum Z.add Z.mul 0%Z 1%Z) (ref_iadd Z.add 0%Z) M (iota [2; 3; 2]) (Some (iota [2; 1])) (iota [2; 6]) =
      Ok (mkT [2; 4] [10; 100; 14; 113; 46; 244; 68; 275]%Z).
Proof.
  cbn zeta. split; [solve_reads (lit "... (a z) ") (lit " ... (h a)")|]. split; [unfold written; solve_written|].
  split; [split; unfold written; solve_written|].
  split; [split; [reflexivity|]; intros s t Hs Ht; each Hs; subst s; each Ht; subst t; vm_compute; congruence|].
  eexists. split; [vm_compute; reflexivity|]. repeat split; vm_compute; reflexivity.
Qed.
