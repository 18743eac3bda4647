(** * Properties of pack and unpack *)
From Verif Require Import Py Tensor Parsing Recipe Ops Backends SpecGrammar SpecPattern Api Packing SpecPacking PackFacts PackFacts2 PackFacts3 PackFacts4 PackFacts5 Instances.

(** [p]: the pattern of the examples *)
Definition ex_pattern : pystr := lit "i * k".
Example ex_pattern_ok : pack_pattern ascii_unicode ex_pattern [lit "i"] [lit "k"].
Proof.
  split; [exact (words_complete ascii_unicode ex_pattern)|]. split; [solve_NoDup|].
  repeat constructor; cbv; discriminate.
Qed.

(** ** C24: unpacking what was packed gives the original tensors back *)
Theorem C24_pack_unpack : forall (A : Type) (r : runtime A) (ts : list (tensor A)) (p : pystr) (x : tensor A) (ps : list (list Z)),
  runtime_ok r -> Forall wf ts ->
  pack r ts p = Ok (x, ps) -> unpack r x ps p = Ok ts.
Proof. exact (fun A r ts p x ps Hr => pack_unpack r Hr ts p x ps). Qed.
Print Assumptions C24_pack_unpack.

Example C24_case :
  let ts := [iota [2; 3]; iota [2; 2; 2; 3]; iota [2; 0; 3]; iota [2; 1; 3]] in
  Forall wf ts /\
  exists x, pack numpy_like ts ex_pattern = Ok (x, [[]; [2; 2]; [0]; [1]]%Z) /\ shp x = [2; 6; 3] /\
            unpack numpy_like x [[]; [2; 2]; [0]; [1]]%Z ex_pattern = Ok ts.
Proof.
  cbn zeta. split; [repeat constructor; apply iota_wf|].
  eexists. split; [vm_compute; reflexivity|]. split; [reflexivity|vm_compute; reflexivity].
Qed.

(** ** C25: packing what was unpacked gives the original tensor back exactly if
    the shapes without -1 do not ask for more than there is *)
Theorem C25_unpack_pack : forall (A : Type) (r : runtime A) (x : tensor A) (ps : list (list Z)) (p : pystr)
    (before after : list pystr) (b : list nat) (n : nat) (a : list nat) (ts : list (tensor A)),
  runtime_ok r -> pack_pattern (rt_unicode r) p before after ->
  shp x = b ++ [n] ++ a -> length b = length before -> length a = length after ->
  wf x -> prodn (b ++ a) <> 0 -> ps <> [] -> (forall q, In q ps -> tame (rt_lib r) q) ->
  unpack r x ps p = Ok ts ->
  (known_total ps <= n <-> exists ms, Forall2 reads_as ps ms /\ pack r ts p = Ok (x, map (map Z.of_nat) ms)).
Proof. exact (fun A r x ps p before after b n a ts Hr => unpack_pack_iff r Hr x ps p before after b n a ts). Qed.
Print Assumptions C25_unpack_pack.

Example C25_case :
  let x := iota [2; 7; 3] in let ps := [[]; [2; -1]; [2]]%Z in
  shp x = [2] ++ [7] ++ [3] /\ known_total ps <= 7 /\ (forall q, In q ps -> tame (rt_lib numpy_like) q) /\
  exists ts, unpack numpy_like x ps ex_pattern = Ok ts /\ map shp ts = [[2; 3]; [2; 2; 2; 3]; [2; 2; 3]] /\
             pack numpy_like ts ex_pattern = Ok (x, [[]; [2; 2]; [2]]%Z).
Proof.
  cbn zeta. split; [reflexivity|]. split; [vm_compute; lia|].
  split; [intros q H; right; intros d Hd; each H; subst q; each Hd; subst; lia|].
  eexists. split; [vm_compute; reflexivity|]. split; [reflexivity|vm_compute; reflexivity].
Qed.

(** Without that proviso it is false: unpack accepts overlapping pieces, and
    packing them gives a longer tensor *)
Theorem C25_overlap_refuted :
  exists (r : runtime Z) (x : tensor Z) (ps : list (list Z)) (p : pystr) (ts : list (tensor Z)),
    runtime_ok r /\ wf x /\ prodn (shp x) <> 0 /\ ps <> [] /\ (forall q, In q ps -> tame (rt_lib r) q) /\
    unpack r x ps p = Ok ts /\ (forall ps', pack r ts p <> Ok (x, ps')).
Proof.
  exists numpy_like, (iota [5]), [[3]; [-1]; [4]]%Z, (lit "*"), [iota [3]; iota [0]; mkT [4] [1; 2; 3; 4]%Z].
  split; [apply runtime_for_ok|]. split; [apply iota_wf|]. split; [discriminate|]. split; [discriminate|].
  split; [intros q H; right; intros d Hd; each H; subst q; each Hd; subst; lia|].
  split; [vm_compute; reflexivity|]. intros ps' H. vm_compute in H. discriminate.
Qed.
Print Assumptions C25_overlap_refuted.

(** ** C26: what pack returns *)
Theorem C26_pack : forall (A : Type) (r : runtime A) (ts : list (tensor A)) (p : pystr) (before after : list pystr)
    (x : tensor A) (ps : list (list Z)),
  runtime_ok r -> pack_pattern (rt_unicode r) p before after -> Forall wf ts ->
  (pack r ts p = Ok (x, ps) <->
   exists b a ms, length b = length before /\ length a = length after /\ ts <> [] /\ prodn (b ++ a) <> 0 /\
     ps = map (map Z.of_nat) ms /\ consists_of b a x ms ts).
Proof. exact @pack_iff. Qed.
Print Assumptions C26_pack.

(** pack succeeds iff there is something to pack, all tensors agree on the named
    axes, and none of those has length 0 *)
Theorem C26_pack_succeeds : forall (A : Type) (r : runtime A) (ts : list (tensor A)) (p : pystr) (before after : list pystr)
    (b a : list nat) (ms : list (list nat)),
  runtime_ok r -> pack_pattern (rt_unicode r) p before after ->
  length b = length before -> length a = length after ->
  Forall wf ts -> Forall2 (fun t m => shp t = b ++ m ++ a) ts ms -> ts <> [] -> prodn (b ++ a) <> 0 ->
  exists x, pack r ts p = Ok (x, map (map Z.of_nat) ms) /\ consists_of b a x ms ts.
Proof. exact @pack_layout. Qed.
Print Assumptions C26_pack_succeeds.

Theorem C26_pack_errors : forall (A : Type) (r : runtime A) (ts : list (tensor A)) (p : pystr) (before after : list pystr) (e : exn),
  runtime_ok r -> pack_pattern (rt_unicode r) p before after -> pack r ts p = Err e ->
  (e = IndexError /\ ts = []) \/
  (e = EinopsError /\ exists t, In t ts /\ length (shp t) < length before + length after) \/
  (e = BackendError /\ ts <> []).
Proof. exact (fun A r ts p before after e Hr => pack_errors r Hr ts p before after e). Qed.
Print Assumptions C26_pack_errors.

Example C26_case :
  pack numpy_like [iota [2; 1]; iota [2; 2; 1]] ex_pattern = Ok (mkT [2; 3; 1] [0; 0; 1; 1; 2; 3]%Z, [[]; [2]]%Z) /\
  Forall2 (fun t m => shp t = [2] ++ m ++ [1]) [iota [2; 1]; iota [2; 2; 1]] [[]; [2]] /\
  pack numpy_like [] ex_pattern = Err IndexError /\
  pack numpy_like [iota [2]] ex_pattern = Err EinopsError /\
  pack numpy_like [iota [0; 1; 1]] ex_pattern = Err BackendError /\
  pack numpy_like [iota [2; 1; 1]; iota [3; 1; 1]] ex_pattern = Err BackendError.
Proof. repeat split; vm_compute; try reflexivity. repeat constructor. Qed.

(** ** C27: what unpack returns *)

(** exactly if the shapes without -1 do not ask for more than there is, the pieces
    are consecutive and cover the axis *)
Theorem C27_unpack : forall (A : Type) (r : runtime A) (x : tensor A) (ps : list (list Z)) (p : pystr)
    (before after : list pystr) (b : list nat) (n : nat) (a : list nat) (ts : list (tensor A)),
  runtime_ok r -> pack_pattern (rt_unicode r) p before after ->
  shp x = b ++ [n] ++ a -> length b = length before -> length a = length after ->
  wf x -> prodn (b ++ a) <> 0 -> ps <> [] -> (forall q, In q ps -> tame (rt_lib r) q) ->
  unpack r x ps p = Ok ts ->
  (known_total ps <= n <-> exists ms, Forall2 (fun q m => fills q (prodn m) m) ps ms /\ consists_of b a x ms ts).
Proof. exact (fun A r x ps p before after b n a ts Hr => unpack_iff r Hr x ps p before after b n a ts). Qed.
Print Assumptions C27_unpack.

(** the -1 is resolved to the only possible value *)
Theorem C27_only_resolution : forall (ps : list (list Z)) (ms ms' : list (list nat)),
  ps <> [] -> length (filter is_open ps) <= 1 ->
  Forall2 (fun q m => fills q (prodn m) m) ps ms -> Forall2 reads_as ps ms' ->
  list_sum (map prodn ms') = list_sum (map prodn ms) -> ms' = ms.
Proof. exact resolution_unique. Qed.
Print Assumptions C27_only_resolution.

(** whenever there is such a way to split the axis, unpack finds it *)
Theorem C27_unpack_succeeds : forall (A : Type) (r : runtime A) (x : tensor A) (ps : list (list Z)) (p : pystr)
    (before after : list pystr) (b : list nat) (n : nat) (a : list nat) (ms : list (list nat)) (ts : list (tensor A)),
  runtime_ok r -> pack_pattern (rt_unicode r) p before after ->
  shp x = b ++ [n] ++ a -> length b = length before -> length a = length after ->
  prodn (b ++ a) <> 0 -> ps <> [] -> length (filter is_open ps) <= 1 ->
  Forall2 (fun q m => fills q (prodn m) m) ps ms -> consists_of b a x ms ts ->
  unpack r x ps p = Ok ts.
Proof. exact (fun A r x ps p before after b n a ms ts Hr => unpack_complete r Hr x ps p before after b n a ms ts). Qed.
Print Assumptions C27_unpack_succeeds.

(** what unpack accepts and returns, without the proviso *)
Theorem C27_unpack_exact : forall (A : Type) (r : runtime A) (x : tensor A) (ps1 : list (list Z)) (pu : list Z) (ps2 : list (list Z))
    (p : pystr) (before after : list pystr) (b : list nat) (n : nat) (a : list nat) (ts : list (tensor A)),
  runtime_ok r -> pack_pattern (rt_unicode r) p before after ->
  shp x = b ++ [n] ++ a -> length b = length before -> length a = length after ->
  wf x -> prodn (b ++ a) <> 0 ->
  (forall q, In q (ps1 ++ pu :: ps2) -> tame (rt_lib r) q) -> slack ps1 pu ps2 ->
  (unpack r x (ps1 ++ pu :: ps2) p = Ok ts <-> exists ms, split_off b a n x (length ps1) (ps1 ++ pu :: ps2) ms ts).
Proof. exact (fun A r x ps1 pu ps2 p before after b n a ts Hr => unpack_exact r Hr x ps1 pu ps2 p before after b n a ts). Qed.
Print Assumptions C27_unpack_exact.

(** at most one shape may have a -1, the number of axes must fit; all other
    failures are reported as RuntimeError *)
Theorem C27_unpack_errors : forall (A : Type) (r : runtime A) (x : tensor A) (ps : list (list Z)) (p : pystr) (before after : list pystr),
  runtime_ok r -> pack_pattern (rt_unicode r) p before after ->
  (length (shp x) <> length before + 1 + length after -> unpack r x ps p = Err EinopsError) /\
  (1 < length (filter is_open ps) -> unpack r x ps p = Err EinopsError) /\
  (forall e, length (shp x) = length before + 1 + length after -> length (filter is_open ps) <= 1 ->
     unpack r x ps p = Err e -> e = RuntimeError).
Proof.
  exact (fun A r x ps p before after Hr Hp =>
    conj (unpack_wrong_rank r Hr x ps p before after Hp)
   (conj (unpack_two r Hr x ps p before after Hp)
         (fun e L C H => eq_trans (unpack_errors r Hr x ps p before after e Hp L H)
            (f_equal (fun c : bool => if c then EinopsError else RuntimeError) (proj2 (Nat.ltb_ge _ _) C))))).
Qed.
Print Assumptions C27_unpack_errors.

Example C27_case :
  let x := iota [1; 6; 1] in
  unpack numpy_like x [[2]; [-1; 2]; []]%Z ex_pattern = Err RuntimeError /\
  unpack numpy_like x [[2]; [-1; 3]; []]%Z ex_pattern
    = Ok [mkT [1; 2; 1] [0; 1]%Z; mkT [1; 1; 3; 1] [2; 3; 4]%Z; mkT [1; 1] [5]%Z] /\
  unpack numpy_like x [[2]; [3]; []]%Z ex_pattern
    = Ok [mkT [1; 2; 1] [0; 1]%Z; mkT [1; 3; 1] [2; 3; 4]%Z; mkT [1; 1] [5]%Z] /\
  unpack numpy_like x [[2]; [3]]%Z ex_pattern = Err RuntimeError /\
  unpack numpy_like x [[7]; [0]]%Z ex_pattern = Err RuntimeError /\
  unpack numpy_like x [[-1]; [-1]]%Z ex_pattern = Err EinopsError /\
  unpack numpy_like (iota [6]) [[6]]%Z ex_pattern = Err EinopsError /\
  slack [[2]]%Z [-1; 3]%Z [[]].
Proof.
  cbn zeta. repeat split; try (vm_compute; reflexivity).
  - intros q H. each H; subst; reflexivity.
  - left. reflexivity.
Qed.

(** Without the proviso the pieces can overlap: the shape with the -1 gets length
    0 and the shapes around it are served from both ends of the axis *)
Theorem C27_overlap_refuted :
  exists (r : runtime Z) (x : tensor Z) (ps : list (list Z)) (p : pystr) (ts : list (tensor Z)),
    runtime_ok r /\ wf x /\ prodn (shp x) <> 0 /\ ps <> [] /\ (forall q, In q ps -> tame (rt_lib r) q) /\
    unpack r x ps p = Ok ts /\
    list_sum (map (fun t => prodn (shp t)) ts) <> prodn (shp x) /\
    exists t1 t3, nth_error ts 0 = Some t1 /\ nth_error ts 2 = Some t3 /\ get t1 [1] = get x [1] /\ get t3 [0] = get x [1].
Proof.
  exists numpy_like, (iota [5]), [[3]; [-1]; [4]]%Z, (lit "*"), [iota [3]; iota [0]; mkT [4] [1; 2; 3; 4]%Z].
  split; [apply runtime_for_ok|]. split; [apply iota_wf|]. split; [discriminate|]. split; [discriminate|].
  split; [intros q H; right; intros d Hd; each H; subst q; each Hd; subst; lia|].
  split; [vm_compute; reflexivity|]. split; [discriminate|]. eexists _, _. repeat split.
Qed.
Print Assumptions C27_overlap_refuted.

(** Where reshape takes any negative number for "infer" (numpy), negative numbers
    other than -1 lead to overlapping pieces, too *)
Theorem C27_negative_refuted :
  exists (r : runtime Z) (x : tensor Z) (ps : list (list Z)) (p : pystr) (ts : list (tensor Z)),
    runtime_ok r /\ wf x /\ prodn (shp x) <> 0 /\ ps <> [] /\ filter is_open ps = [] /\
    unpack r x ps p = Ok ts /\ list_sum (map (fun t => prodn (shp t)) ts) <> prodn (shp x).
Proof.
  exists numpy_like, (iota [6]), [[-2]; [-3]; [5]]%Z, (lit "*"), [iota [4]; iota [0]; mkT [5] [1; 2; 3; 4; 5]%Z].
  split; [apply runtime_for_ok|]. split; [apply iota_wf|]. split; [discriminate|]. split; [discriminate|].
  split; [reflexivity|]. split; [vm_compute; reflexivity|]. discriminate.
Qed.
Print Assumptions C27_negative_refuted.

(** nothing is requested, nothing is checked *)
Theorem C27_nothing_requested : forall (A : Type) (r : runtime A) (x : tensor A) (p : pystr) (before after : list pystr),
  runtime_ok r -> pack_pattern (rt_unicode r) p before after ->
  length (shp x) = length before + 1 + length after -> unpack r x [] p = Ok [].
Proof. exact (fun A r x p before after Hr => unpack_nothing r Hr x p before after). Qed.
Print Assumptions C27_nothing_requested.

Example C27_nothing_case : unpack numpy_like (iota [5]) [] (lit "*") = Ok [].
Proof. vm_compute. reflexivity. Qed.

(** ** C28: the patterns of pack and unpack *)
Theorem C28_accepted : forall (U : unicode) (p : pystr) (before after : list pystr),
  unicode_ok U -> pack_pattern U p before after ->
  analyze_pattern U p = Ok (length before, length after, length before + length after).
Proof. exact analyze_ok. Qed.
Print Assumptions C28_accepted.

Theorem C28_rejected : forall (A : Type) (r : runtime A) (p : pystr),
  runtime_ok r -> (forall before after, ~ pack_pattern (rt_unicode r) p before after) ->
  (forall ts, pack r ts p = Err EinopsError) /\ (forall x ps, unpack r x ps p = Err EinopsError).
Proof. exact (fun A r p Hr H => conj (fun ts => pack_bad_pattern r Hr ts p H) (fun x ps => unpack_bad_pattern r Hr x ps p H)). Qed.
Print Assumptions C28_rejected.

Example C28_case :
  pack_pattern ascii_unicode ex_pattern [lit "i"] [lit "k"] /\
  analyze_pattern ascii_unicode (lit " i  * k ") = Ok (1, 1, 2) /\
  Forall (fun p => pack numpy_like [iota [1]] p = Err EinopsError)
    [lit ""; lit "i"; lit "* *"; lit "i * i"; lit "_i *"; lit "i_ *"; lit "1 *"; lit "... *"; lit "(i) *"; lit "i*"].
Proof. split; [exact ex_pattern_ok|]. split; [vm_compute; reflexivity|]. repeat constructor. Qed.

(** ** C18: the array API versions of pack and unpack agree with the ordinary ones *)
Theorem C18_pack : forall (A : Type) (r : runtime A) (ts : list (tensor A)) (p : pystr), xp_pack r ts p = pack r ts p.
Proof. exact @xp_pack_same. Qed.
Print Assumptions C18_pack.
Theorem C18_unpack : forall (A : Type) (r : runtime A) (x : tensor A) (ps : list (list Z)) (p : pystr), xp_unpack r x ps p = unpack r x ps p.
Proof. exact @xp_unpack_same. Qed.
Print Assumptions C18_unpack.
