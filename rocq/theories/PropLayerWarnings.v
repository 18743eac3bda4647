(** * C81: warnings issued while layers are made, and by einsum *)
From Verif Require Import Py Tensor SpecGrammar SpecPacking SpecEinsum SpecPattern SpecOps Parsing Recipe Ops Backends Api Layers Einsum EinMix Cache Instances
  Warnings SpecWarnings LayerWarnings SpecLayerWarnings WarnFacts LayerWarnFacts LayerWarnFacts2 LayerWarnFacts3 LayerWarnFacts4.

(** neither the warnings nor the cache change what is made *)
Theorem C81_same_result : forall (T : Type) (U : unicode) (iskeyword : pystr -> bool) (maxsize : nat) (os os' : nat -> orders) (c : memo),
  (forall n, orders_ok (os n)) -> (forall n, orders_ok (os' n)) -> filled U c ->
  (forall p sizes, exists os1, (forall n, orders_ok (os1 n)) /\
     told_result (Rearrange_t (T := T) U iskeyword maxsize os p sizes c) = Rearrange U os1 p sizes /\ filled U (told_memo (Rearrange_t (T := T) U iskeyword maxsize os p sizes c))) /\
  (forall id p red sizes, exists os1, (forall n, orders_ok (os1 n)) /\
     told_result (Reduce_t (T := T) U iskeyword maxsize os id p red sizes c) = Reduce U os1 p red sizes /\ filled U (told_memo (Reduce_t (T := T) U iskeyword maxsize os id p red sizes c))) /\
  (forall p w b sizes, b <> NotAString -> exists os1 os1', (forall n, orders_ok (os1 n)) /\ (forall n, orders_ok (os1' n)) /\
     told_result (EinMix_t (T := T) U iskeyword maxsize os os' p w b sizes c) = EinMix U os1 os1' p w (bias_text b) sizes) /\
  (forall p, snd (compactify_w U iskeyword p) = compactify U p).
Proof.
  exact (fun T U K m os os' c Ho Ho' Hc => conj (fun p sizes => Rearrange_result U K m os p sizes c Ho Hc) (conj (fun id p red sizes => Reduce_result U K m os id p red sizes c Ho Hc)
    (conj (fun p w b sizes Hb => mix_result U K m os os' p w b sizes c Ho Ho' Hc Hb) (compactify_w_snd U K)))).
Qed.
Print Assumptions C81_same_result.

(** a layer whose recipes are not in the cache: the names on the left, then for
    every number of dimensions all names and the names of the given lengths *)
Theorem C81_layer_first : forall (T : Type) (U : unicode) (iskeyword : pystr -> bool) (maxsize : nat) (os : nat -> orders) (p : pystr) (sizes : list (pystr * Z)) (L R : expr) (c : memo),
  unicode_ok U -> reads U p L R ->
  (forall M, (forall n, ~ In (p, KStr s_rearrange, map fst sizes, n) (map fst c)) -> told_result (Rearrange_t (T := T) U iskeyword maxsize os p sizes c) = Ok M ->
     told_log (Rearrange_t (T := T) U iskeyword maxsize os p sizes c) = layer_notices iskeyword (written_names L) (written_names R) (map fst sizes) (recipes_of L)) /\
  (forall id red M, (forall n, ~ In (p, red_key id red, map fst sizes, n) (map fst c)) -> told_result (Reduce_t (T := T) U iskeyword maxsize os id p red sizes c) = Ok M ->
     told_log (Reduce_t (T := T) U iskeyword maxsize os id p red sizes c) = layer_notices iskeyword (written_names L) (written_names R) (map fst sizes) (recipes_of L)).
Proof.
  exact (fun T U K m os p sizes L R c HU Hr => conj (fun M Hm H => proj1 (Rearrange_first U HU K m os p sizes L R c M Hr Hm H)) (fun id red M Hm H => Reduce_first U HU K m os id p red sizes L R c M Hr Hm H)).
Qed.
Print Assumptions C81_layer_first.

(** the same layer made once more: the recipes are found, only the names on the
    left are reported; so such a layer warns each time it is made *)
Theorem C81_layer_again : forall (T : Type) (U : unicode) (iskeyword : pystr -> bool) (maxsize : nat) (os os' : nat -> orders) (p : pystr) (sizes : list (pystr * Z)) (L R : expr) (c : memo),
  unicode_ok U -> reads U p L R -> 8 <= maxsize ->
  (forall M, told_result (Rearrange_t (T := T) U iskeyword maxsize os p sizes c) = Ok M ->
     let again := Rearrange_t (T := T) U iskeyword maxsize os' p sizes (told_memo (Rearrange_t (T := T) U iskeyword maxsize os p sizes c)) in
     told_log again = said iskeyword (written_names L) /\ told_result again = Ok M) /\
  (forall id red M, told_result (Reduce_t (T := T) U iskeyword maxsize os id p red sizes c) = Ok M ->
     let again := Reduce_t (T := T) U iskeyword maxsize os' id p red sizes (told_memo (Reduce_t (T := T) U iskeyword maxsize os id p red sizes c)) in
     told_log again = said iskeyword (written_names L) /\ told_result again = Ok M).
Proof.
  exact (fun T U K m os os' p sizes L R c HU Hr H8 => conj (fun M H => Rearrange_again U HU K m os os' p sizes L R c M Hr H8 H) (fun id red M H => Reduce_again U HU K m os os' id p red sizes L R c M Hr H8 H)).
Qed.
Print Assumptions C81_layer_again.

(** EinMix, with nothing cached *)
Theorem C81_mix : forall (T : Type) (U : unicode) (iskeyword : pystr -> bool) (maxsize : nat) (os os' : nat -> orders) (p w : pystr) (b : bias_arg) (sizes : list (pystr * Z))
    (L R W : expr) (bias_names : list pystr) (M : einmix T),
  unicode_ok U -> reads U p L R -> written U w W -> plain L -> plain R -> plain W ->
  match b with BiasText text => exists B, written U text B /\ bias_names = written_names B | _ => bias_names = [] end ->
  told_result (EinMix_t (T := T) U iskeyword maxsize os os' p w b sizes []) = Ok M ->
  told_log (EinMix_t (T := T) U iskeyword maxsize os os' p w b sizes []) = mix_notices iskeyword L R W bias_names (map fst sizes).
Proof. exact (fun T U K m os os' p w b sizes L R W Bn M HU Hr HW PL PR PW HB H => mix_log U HU K m os os' p w b sizes L R W Bn M Hr HW PL PR PW HB H). Qed.
Print Assumptions C81_mix.

(** with any cache, the warning about a weight without axes is given exactly for those *)
Theorem C81_empty_weight : forall (T : Type) (U : unicode) (iskeyword : pystr -> bool) (maxsize : nat) (os os' : nat -> orders) (p w : pystr) (b : bias_arg) (sizes : list (pystr * Z)) (c : memo) (M : einmix T),
  unicode_ok U -> told_result (EinMix_t (T := T) U iskeyword maxsize os os' p w b sizes c) = Ok M ->
  (In EmptyWeight (told_log (EinMix_t (T := T) U iskeyword maxsize os os' p w b sizes c)) <-> em_weight M = []).
Proof. exact (fun T U K m os os' p w b sizes c M HU H => mix_empty U K m os os' p w b sizes c M HU H). Qed.
Print Assumptions C81_empty_weight.

(** a bias that is not a string is refused, after everything else was checked but
    the product of the reduced lengths; the warnings are those without a bias *)
Theorem C81_bias_not_string : forall (T : Type) (U : unicode) (iskeyword : pystr -> bool) (maxsize : nat) (os os' : nat -> orders) (p w : pystr) (sizes : list (pystr * Z)) (c : memo),
  let made b := EinMix_t (T := T) U iskeyword maxsize os os' p w b sizes c in
  (forall M, told_result (made NotAString) <> Ok M) /\
  told_log (made NotAString) = told_log (made NoBias) /\
  (forall M, told_result (made NoBias) = Ok M -> told_result (made NotAString) = Err EinopsError).
Proof. exact (fun T U K m os os' p w sizes c => mix_no_string U K m os os' p w sizes c). Qed.
Print Assumptions C81_bias_not_string.

(** einsum, if the pattern can be read, whether or not it is then accepted *)
Theorem C81_einsum : forall (U : unicode) (iskeyword : pystr -> bool) (p : pystr) (Ls : list (list entry)) (R : list entry),
  unicode_ok U -> einsum_reads U p Ls R -> fst (compactify_w U iskeyword p) = einsum_notices iskeyword Ls R.
Proof. exact (fun U K p Ls R HU H => einsum_log U HU K p Ls R H). Qed.
Print Assumptions C81_einsum.

(** no false alarms, whatever is cached, also if it fails *)
Theorem C81_no_false_alarms : forall (T : Type) (U : unicode) (iskeyword : pystr -> bool) (maxsize : nat) (os os' : nat -> orders) (c : memo) (n : notice),
  let deserved w := exists name, axis_name U name /\ In w (discouraged iskeyword name) in
  (forall p sizes, In n (told_log (Rearrange_t (T := T) U iskeyword maxsize os p sizes c)) -> exists w, n = AboutName w /\ deserved w) /\
  (forall id p red sizes, In n (told_log (Reduce_t (T := T) U iskeyword maxsize os id p red sizes c)) -> exists w, n = AboutName w /\ deserved w) /\
  (forall p w b sizes, In n (told_log (EinMix_t (T := T) U iskeyword maxsize os os' p w b sizes c)) -> n = EmptyWeight \/ exists w, n = AboutName w /\ deserved w) /\
  (forall p w, In w (fst (compactify_w U iskeyword p)) -> deserved w).
Proof.
  exact (fun T U K m os os' c n => conj (fun p sizes => fair_Rearrange U K m os p sizes c n) (conj (fun id p red sizes => fair_Reduce U K m os id p red sizes c n)
    (conj (fun p w b sizes => mix_fair U K m os os' p w b sizes c n) (fun p w => einsum_fair U K p w)))).
Qed.
Print Assumptions C81_no_false_alarms.

(** when warnings are errors: the first warning is raised, or the layer is made *)
Theorem C81_strict : forall (T : Type) (U : unicode) (iskeyword : pystr -> bool) (maxsize : nat) (os os' : nat -> orders) (p w : pystr) (b : bias_arg) (sizes : list (pystr * Z))
    (L R W : expr) (bias_names : list pystr) (M : einmix T),
  unicode_ok U -> reads U p L R -> written U w W -> plain L -> plain R -> plain W ->
  match b with BiasText text => exists B, written U text B /\ bias_names = written_names B | _ => bias_names = [] end ->
  told_result (EinMix_t (T := T) U iskeyword maxsize os os' p w b sizes []) = Ok M ->
  strictly_told (EinMix_t (T := T) U iskeyword maxsize os os' p w b sizes []) =
  match mix_notices iskeyword L R W bias_names (map fst sizes) with n :: _ => RaisedNotice n | [] => WentOn (Ok M) end.
Proof. exact (fun T U K m os os' p w b sizes L R W Bn M HU Hr HW PL PR PW HB H => mix_strict U HU K m os os' p w b sizes L R W Bn M Hr HW PL PR PW HB H). Qed.
Print Assumptions C81_strict.

(** ** Concrete cases *)
Definition words (s : pystr) : bool := str_mem s [lit "in"; lit "for"; lit "is"].
Notation logs a := (told_log a, match told_result a with Ok _ => true | Err _ => false end).

(** [in] is on both sides and has a length; made twice *)
Example C81_case_layer :
  let first := Rearrange_t (T := unit) ascii_unicode words 256 (fun _ => forward) (lit "(in axis) h -> h in axis") [(lit "in", 2%Z)] [] in
  logs first = (map AboutName [KeywordName (lit "in"); AxisName; KeywordName (lit "in"); AxisName; KeywordName (lit "in"); AxisName; KeywordName (lit "in")], true) /\
  logs (Rearrange_t (T := unit) ascii_unicode words 256 (fun _ => forward) (lit "(in axis) h -> h in axis") [(lit "in", 2%Z)] (told_memo first)) = (map AboutName [KeywordName (lit "in"); AxisName], true).
Proof. vm_compute. split; reflexivity. Qed.
(** one name, an ellipsis: seventeen warnings *)
Example C81_case_ellipsis :
  logs (Rearrange_t (T := unit) ascii_unicode words 256 (fun _ => forward) (lit "... in -> in ...") [] []) = (repeat (AboutName (KeywordName (lit "in"))) 17, true).
Proof. vm_compute. reflexivity. Qed.
(** the input is composed, so there is a layer before, which is told the length of [axis] *)
Example C81_case_mix :
  logs (EinMix_t (T := unit) ascii_unicode words 256 (fun _ => forward) (fun _ => forward) (lit "b (in axis) -> b in out") (lit "axis out") (BiasText (lit "out")) [(lit "axis", 3%Z); (lit "out", 4%Z)] []) =
    (map AboutName [KeywordName (lit "in"); AxisName; KeywordName (lit "in"); AxisName;
                    KeywordName (lit "in"); AxisName; KeywordName (lit "in"); AxisName; KeywordName (lit "in"); AxisName; AxisName], true) /\
  logs (EinMix_t (T := unit) ascii_unicode words 256 (fun _ => forward) (fun _ => forward) (lit "a b -> b a") [] NoBias [] []) = ([EmptyWeight], true) /\
  strictly_told (EinMix_t (T := unit) ascii_unicode words 256 (fun _ => forward) (fun _ => forward) (lit "a b -> b a") [] NoBias [] []) = RaisedNotice EmptyWeight /\
  told_result (EinMix_t (T := unit) ascii_unicode words 256 (fun _ => forward) (fun _ => forward) (lit "a b -> b a") (lit "a") NotAString [(lit "a", 2%Z)] []) = Err EinopsError.
Proof. vm_compute. repeat split; reflexivity. Qed.
Example C81_case_einsum :
  fst (compactify_w ascii_unicode words (lit "for is for, _ axis -> is")) = [KeywordName (lit "for"); KeywordName (lit "is"); KeywordName (lit "for"); AxisName; KeywordName (lit "is")] /\
  snd (compactify_w ascii_unicode words (lit "for is for, _ axis -> is")) = Ok (lit "aba,cd->b").
Proof. vm_compute. split; reflexivity. Qed.
