(** * C62, C63: error reports *)
From Verif Require Import Py Tensor SpecGrammar SpecSem SpecPattern Parsing Recipe Ops Backends Api Texts Messages SpecMessages MessageFacts MessageFacts2 MessageFacts3 MessageFacts4 Instances.

(** the handler that words the report raises nothing itself, in particular never
    uses a variable without a value: a call with it returns, reports or raises what
    the call without the wording does *)
Theorem C62_handler : forall (A : Type) (r : runtime A) printable callable foreign shape_text x pattern red sizes,
  let a := reduce_answer (rt_unicode r) (rt_orders r) int_ops (rt_backend r) printable callable foreign str_of_int shape_text (Ok tt) x pattern red sizes in
  answer_class a = reduce r x pattern red sizes /\ a <> UnboundLocal.
Proof. exact (fun A r pr ca fo st x p red sizes => answer_reduce (rt_unicode r) (rt_orders r) int_ops (rt_backend r) pr ca fo str_of_int st x p red sizes). Qed.
Print Assumptions C62_handler.

Theorem C62_handler_array_api : forall (A : Type) (r : runtime A) printable callable foreign shape_text x pattern red sizes,
  let a := xp_reduce_answer (rt_unicode r) (rt_orders r) (rt_ns r) printable callable foreign shape_text x pattern red sizes in
  answer_class a = xp_reduce_ r x pattern red sizes /\ a <> UnboundLocal.
Proof. exact (fun A r pr ca fo st x p red sizes => answer_xp (rt_unicode r) (rt_orders r) (rt_ns r) pr ca fo st x p red sizes). Qed.
Print Assumptions C62_handler_array_api.

(** the same for tensors with symbolic dimensions *)
Theorem C62_handler_any : forall (T D : Type) (U : unicode) (o : orders) (O : dim_ops D) (B : backend T D) printable callable foreign dim_text shape_text x pattern red sizes,
  let a := reduce_answer U o O B printable callable foreign dim_text shape_text (Ok tt) x pattern red sizes in
  answer_class a = api_reduce U o O B x pattern red sizes /\ a <> UnboundLocal.
Proof. exact (fun T D U o O B pr ca fo dt st x p red sizes => answer_reduce U o O B pr ca fo dt st x p red sizes). Qed.
Print Assumptions C62_handler_any.

(** a report names the pattern, the reduction, the given lengths and the shape of
    the tensor (of the stacked tensors), and what it says is wrong is wrong *)
Theorem C63_reports_are_true : forall (A : Type) (r : runtime A) printable callable foreign shape_text x pattern red sizes text,
  runtime_ok r -> NoDup (map fst sizes) -> own_errors (rt_red r) red ->
  reduce_answer (rt_unicode r) (rt_orders r) int_ops (rt_backend r) printable callable foreign str_of_int shape_text (Ok tt) x pattern red sizes = Reports text ->
  exists m s, shape_seen x s /\ true_of_call (rt_unicode r) pattern (op_of red) sizes s m /\
    text = report printable callable foreign (op_of red) pattern (shape_line (shape_text (map Z.of_nat s))) (dict_text printable str_of_int sizes) m.
Proof.
  exact (fun A r pr ca fo st x p red sizes text Hok Hnd Hown =>
    reduce_reports (rt_lib r) (rt_red r) (rt_isf r) (rt_num r) (rt_framework r) (rt_unicode r) (ro_unicode r Hok) (rt_orders r) (ro_orders r Hok) red Hown pr ca fo st x p sizes text Hnd).
Qed.
Print Assumptions C63_reports_are_true.

Theorem C63_reports_are_true_array_api : forall (A : Type) (r : runtime A) printable callable foreign shape_text x pattern red sizes text,
  runtime_ok r -> NoDup (map fst sizes) -> own_errors (rt_red r) red ->
  xp_reduce_answer (rt_unicode r) (rt_orders r) (rt_ns r) printable callable foreign shape_text x pattern red sizes = Reports text ->
  exists m s, shape_seen x s /\ true_of_call (rt_unicode r) pattern (op_of red) sizes s m /\
    text = report printable callable foreign (op_of red) pattern (shape_line (shape_text (map Z.of_nat s))) (dict_text printable str_of_int sizes) m.
Proof.
  exact (fun A r pr ca fo st x p red sizes text Hok Hnd Hown =>
    xp_reports (rt_lib r) (rt_red r) (rt_unicode r) (ro_unicode r Hok) (rt_orders r) (ro_orders r Hok) red Hown pr ca fo st x p sizes text Hnd).
Qed.
Print Assumptions C63_reports_are_true_array_api.

(** whatever the callable reduction raises, a message of einops' own is true *)
Theorem C63_parse : forall (U : unicode) (allow_underscore allow_duplicates : bool) (k : nat) (s : pystr) (m : mistake),
  unicode_ok U -> parse_expression_msg U allow_underscore allow_duplicates k s = Wrong m -> about_side m = true /\ true_of_side U s m.
Proof. exact (fun U au ad k s m HU H => parse_true U au ad k s m HU H). Qed.
Print Assumptions C63_parse.

Theorem C63_recipe : forall (U : unicode) (o : orders) pattern op sizes shape m,
  unicode_ok U -> orders_ok o ->
  prepare_recipe_msg U o pattern op (map fst sizes) (length shape) = Wrong m -> true_of_call U pattern op sizes shape m.
Proof. exact (fun U o p op sizes shape m HU Ho H => prepare_true U HU o Ho p op sizes shape m H). Qed.
Print Assumptions C63_recipe.

(** ** Examples *)
Definition tuple_text (s : list Z) : pystr :=
  lit "(" ++ join (lit ", ") (map str_of_int s) ++ match s with [_] => lit ",)" | _ => lit ")" end.
Definition said (a : answer (tensor Z)) : pystr := match a with Reports t => t | _ => [] end.
Definition numpy_answer x p red sizes :=
  reduce_answer (rt_unicode numpy_like) (rt_orders numpy_like) int_ops (rt_backend numpy_like)
    (fun _ => true) (lit "<function>") [] str_of_int tuple_text (Ok tt) x p red sizes.

Example C63_divide : said (numpy_answer (One (iota [2; 7])) (lit "a (b c) -> a b c") (RStr (lit "rearrange")) [(lit "b", 2%Z)]) =
  lit " Error while processing rearrange-reduction pattern " ++ [c_quotes] ++ lit "a (b c) -> a b c" ++ [c_quotes] ++ lit "." ++ [10%N] ++
  lit " Input tensor shape: (2, 7). Additional info: {'b': 2}." ++ [10%N] ++
  lit " Shape mismatch, can't divide axis of length 7 in chunks of 2".
Proof. vm_compute. reflexivity. Qed.
Example C63_list : said (numpy_answer (Many [iota [2]; iota [2]; iota [2]]) (lit "a b -> a c") (RStr (lit "max")) []) =
  lit " Error while processing max-reduction pattern " ++ [c_quotes] ++ lit "a b -> a c" ++ [c_quotes] ++ lit "." ++ [10%N] ++
  lit " Input tensor shape: (3, 2). Additional info: {}." ++ [10%N] ++
  lit " Unexpected identifiers on the right side of reduce max: {'c'}".
Proof. vm_compute. reflexivity. Qed.
Example C63_hypotheses : runtime_ok numpy_like /\ own_errors (rt_red numpy_like) (RStr (lit "max")) /\
  exists m, true_of_call ascii_unicode (lit "a (b c) -> a b c") (OpStr (lit "rearrange")) [(lit "b", 2%Z)] [2; 7] m.
Proof.
  split; [apply runtime_for_ok|]. split.
  - split; [|exact I]. intros s vs. cbn. unfold z_red. destruct (str_eqb s _); [discriminate|]. destruct (str_eqb s _); [discriminate|].
    destruct vs; [discriminate|]. destruct (str_eqb s _); [discriminate|]. destruct (str_eqb s _); discriminate.
  - exists (CannotDivide 7 2). unfold true_of_call. cbn [about_side]. exists [nm "a"; grp [lit "b"; lit "c"]], [nm "a"; nm "b"; nm "c"].
    split; [solve_reads (lit "a (b c) ") (lit " a b c")|]. exists 0, 1, [SpecPattern.LName (lit "b"); SpecPattern.LName (lit "c")], 7, (fun a => match a with SpecPattern.LNum _ n => n | _ => 2%Z end), (SpecPattern.LName (lit "c")), [SpecPattern.LName (lit "b")], [].
    split; [split; reflexivity|]. split; [reflexivity|]. split; [reflexivity|]. split; [reflexivity|]. split; [reflexivity|].
    split; [cbn; intros [H|[]]; discriminate|]. split; [cbn; intros b [<-|[]]; left; reflexivity|].
    split; [split; [intros s z [H|[]]; inversion H; reflexivity|reflexivity]|]. split; [reflexivity|]. intros [z Hz]. unfold product_of in Hz. cbn in Hz. lia.
Qed.
