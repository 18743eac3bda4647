(** * C59: warnings about names *)
From Verif Require Import Py Tensor SpecGrammar SpecPacking SpecPattern Parsing Compile Recipe Packing Cache Warnings SpecWarnings WarnFacts Instances.

(** the warnings do not change what happens *)
Theorem C59_same_result : forall (U : unicode) (iskeyword : pystr -> bool),
  (forall au ad k s, snd (parse_expression_w U iskeyword au ad k s) = parse_expression U au ad k s) /\
  (forall o p op ns n, snd (prepare_recipe_w U iskeyword o p op ns n) = prepare_recipe U o p op ns n) /\
  (forall p, snd (analyze_pattern_w U iskeyword p) = analyze_pattern U p).
Proof. exact (fun U K => conj (parse_w_snd U K) (conj (prepare_w_snd U K) (analyze_w_snd U K))). Qed.
Print Assumptions C59_same_result.

(** each discouraged name in an accepted expression is reported, each time it is
    written, in order, and nothing else *)
Theorem C59_expression : forall (U : unicode) (iskeyword : pystr -> bool) (au ad : bool) (k : nat) (s : pystr) (e : expr),
  unicode_ok U -> written_as U au ad s e ->
  fst (parse_expression_w U iskeyword au ad k s) = flat_map (discouraged iskeyword) (written_names e).
Proof. exact (fun U K au ad k s e HU H => f_equal fst (parse_alarms U K HU au ad k s e H)). Qed.
Print Assumptions C59_expression.

(** the same for a call: the two sides of the pattern, then the names of the given
    lengths once more *)
Theorem C59_call : forall (U : unicode) (iskeyword : pystr -> bool) (o : orders) (p : pystr) (L R : expr) (op : operation) (names : list pystr) (ndim : nat) (rec : recipe),
  unicode_ok U -> reads U p L R -> prepare_recipe U o p op names ndim = Ok rec ->
  fst (prepare_recipe_w U iskeyword o p op names ndim) = flat_map (discouraged iskeyword) (written_names L ++ written_names R ++ names).
Proof. exact (fun U K o p L R op ns n rec HU Hr H => f_equal fst (prepare_alarms U K HU o p L R op ns n rec Hr H)). Qed.
Print Assumptions C59_call.

Theorem C59_pack : forall (U : unicode) (iskeyword : pystr -> bool) (p : pystr) (before after : list pystr),
  unicode_ok U -> pack_pattern U p before after ->
  fst (analyze_pattern_w U iskeyword p) = flat_map (discouraged iskeyword) (before ++ after).
Proof. exact (fun U K p before after HU H => f_equal fst (analyze_alarms U K HU p before after H)). Qed.
Print Assumptions C59_pack.

(** no false alarms, in calls that fail either *)
Theorem C59_no_false_alarms : forall (U : unicode) (iskeyword : pystr -> bool) (w : warning),
  (exists au ad k s, In w (fst (parse_expression_w U iskeyword au ad k s))) \/
  (exists o p op ns n, In w (fst (prepare_recipe_w U iskeyword o p op ns n))) \/
  (exists p, In w (fst (analyze_pattern_w U iskeyword p))) ->
  exists name, axis_name U name /\ In w (discouraged iskeyword name).
Proof.
  exact (fun U K w H => match H with
    | or_introl (ex_intro _ au (ex_intro _ ad (ex_intro _ k (ex_intro _ s H)))) => parse_justified U K au ad k s w H
    | or_intror (or_introl (ex_intro _ o (ex_intro _ p (ex_intro _ op (ex_intro _ ns (ex_intro _ n H)))))) => prepare_justified U K o p op ns n w H
    | or_intror (or_intror (ex_intro _ p H)) => analyze_justified U K p w H
    end).
Qed.
Print Assumptions C59_no_false_alarms.

(** when warnings are errors, a call either raises the warning about the first
    discouraged name or is the ordinary call *)
Theorem C59_strict : forall (U : unicode) (iskeyword : pystr -> bool) (o : orders) (p : pystr) (L R : expr) (op : operation) (names : list pystr) (ndim : nat) (rec : recipe),
  unicode_ok U -> reads U p L R -> prepare_recipe U o p op names ndim = Ok rec ->
  strict (prepare_recipe_w U iskeyword o p op names ndim) =
  match flat_map (discouraged iskeyword) (written_names L ++ written_names R ++ names) with w :: _ => Raised w | [] => Went (Ok rec) end.
Proof. exact (fun U K o p L R op ns n rec HU Hr H => f_equal strict (prepare_alarms U K HU o p L R op ns n rec Hr H)). Qed.
Print Assumptions C59_strict.

(** a call whose recipe is in the cache does not warn: after a call that worked,
    the same call is silent *)
Theorem C59_once : forall (U : unicode) (iskeyword : pystr -> bool) (o o' : orders) (maxsize : nat) (k : rkey) (c : list (rkey * recipe)) (rec : recipe)
    (log : list warning) (c' : list (rkey * recipe)),
  0 < maxsize -> cached_prepare_w U iskeyword maxsize o k c = ((log, Ok rec), c') ->
  fst (cached_prepare_w U iskeyword maxsize o' k c') = ([], Ok rec).
Proof. exact (fun U K o o' m k c rec log c' => warned_once U K o o' m k c rec log c'). Qed.
Print Assumptions C59_once.

Definition some_keywords (s : pystr) : bool := str_mem s [lit "for"; lit "in"; lit "is"; lit "lambda"; lit "True"].

(** the docstring (parsing.py:147-150) says that keywords are not valid names; they are *)
Theorem C59_keywords_invalid_refuted : ~ (forall (U : unicode) (iskeyword : pystr -> bool) (name : pystr),
  unicode_ok U -> iskeyword name = true -> snd (check_axis_name_w U iskeyword false name) = false).
Proof. exact (fun H => diff_true_false (H ascii_unicode some_keywords (lit "for") ascii_unicode_ok eq_refl)). Qed.
Print Assumptions C59_keywords_invalid_refuted.

(** ** A concrete case: the names "in" and "axis", and a length for "in" *)
Example C59_case :
  prepare_recipe_w ascii_unicode some_keywords forward (lit "(in h) axis -> axis in h") (OpStr s_rearrange) [lit "in"] 2 =
    ([KeywordName (lit "in"); AxisName; AxisName; KeywordName (lit "in"); KeywordName (lit "in")],
     prepare_recipe ascii_unicode forward (lit "(in h) axis -> axis in h") (OpStr s_rearrange) [lit "in"] 2) /\
  (exists rec, prepare_recipe ascii_unicode forward (lit "(in h) axis -> axis in h") (OpStr s_rearrange) [lit "in"] 2 = Ok rec) /\
  strict (prepare_recipe_w ascii_unicode some_keywords forward (lit "(in h) axis -> axis in h") (OpStr s_rearrange) [lit "in"] 2) = Raised (KeywordName (lit "in")) /\
  fst (analyze_pattern_w ascii_unicode some_keywords (lit "is axis * b")) = [KeywordName (lit "is"); AxisName] /\
  fst (parse_expression_w ascii_unicode some_keywords true true 0 (lit "for _ for (for ... 3)")) = [KeywordName (lit "for"); KeywordName (lit "for"); KeywordName (lit "for")] /\
  fst (parse_expression_w ascii_unicode some_keywords false false 0 (lit "lambda for_ is")) = [KeywordName (lit "lambda")].
Proof. repeat split. eexists; vm_compute; reflexivity. Qed.
