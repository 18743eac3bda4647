(** * C95: which backends the tests run on *)
From Verif Require Import Py Registry SpecRegistry Selection SpecSelection SelectionFacts.

(** parse_backends_to_test returns the names in the variable, in order; there is at
    least one, all are names of frameworks; everything else is a RuntimeError *)
Theorem C95_parse : forall (roots : list ctree) (env : list (pystr * pystr)),
  (forall l, parse_backends roots env = Ok l <->
     dict_get str_eqb (lit "EINOPS_TEST_BACKENDS") env = Some (str_join (lit ",") l) /\ l <> [] /\ without_commas l /\ Forall (known_framework roots) l) /\
  (forall e, parse_backends roots env = Err e -> e = RuntimeError).
Proof. exact (fun roots env => conj (parse_iff roots env) (parse_err roots env)). Qed.
Print Assumptions C95_parse.

(** parse_backends_to_test undoes unparse_backends *)
Theorem C95_round_trip : forall (roots : list ctree) (names : list pystr) (k v : pystr) (env : list (pystr * pystr)),
  unparse_backends roots names = Ok (k, v) -> names <> [] -> without_commas names ->
  parse_backends roots (dict_set str_eqb k v env) = Ok names.
Proof. exact round_trip. Qed.
Print Assumptions C95_round_trip.

(** but for the empty list: it is accepted and written as an empty text, which is
    read as one empty name, and rejected *)
Theorem C95_empty_refuted : forall (roots : list ctree) (env : list (pystr * pystr)), ~ known_framework roots [] ->
  exists k v, unparse_backends roots [] = Ok (k, v) /\ parse_backends roots (dict_set str_eqb k v env) = Err RuntimeError.
Proof. exact round_trip_empty. Qed.
Print Assumptions C95_empty_refuted.

(** the first success is remembered: later environments are not looked at *)
Theorem C95_remembered : forall (roots : list ctree) (before : list (list (pystr * pystr))) env after l,
  (forall e, In e before -> parse_backends roots e = Err RuntimeError) -> parse_backends roots env = Ok l ->
  parse_calls roots (before ++ env :: after) None = repeat (Err RuntimeError) (length before) ++ repeat (Ok l) (S (length after)).
Proof. exact parse_calls_first. Qed.
Print Assumptions C95_remembered.

Theorem C95_tested : forall (roots : list ctree) (env : list (pystr * pystr)) (n : pystr) (b : bool),
  is_backend_tested roots env n = Ok b <->
  known_framework roots n /\ exists l, parse_backends roots env = Ok l /\ (b = true <-> In n l).
Proof. exact tested_iff. Qed.
Print Assumptions C95_tested.

(** collect_test_backends: of the classes of the list, those whose framework is
    selected are constructed, in order; those whose import fails are left out with a
    warning; the first other exception is raised *)
Theorem C95_collect : forall (roots : list ctree) (env : list (pystr * pystr)) (make : pystr -> construction) (symbolic layers : bool)
    (l : list pystr) (framework : pystr -> pystr),
  parse_backends roots env = Ok l -> NoDup (map c_name (flat_map classes roots)) ->
  (forall t, In t (backend_types symbolic layers) -> exists c, In c (flat_map classes roots) /\ c_name c = t /\ c_framework c = framework t) ->
  let chosen := filter (fun t => str_mem (framework t) l) (backend_types symbolic layers) in
  let r := collect_test_backends roots env make symbolic layers in
  ((forall t, In t chosen -> raises make t = None) -> r = Ok (filter (is_made make) chosen, filter (is_missing make) chosen)) /\
  (forall before t after e, chosen = before ++ t :: after -> (forall t', In t' before -> raises make t' = None) -> raises make t = Some e -> r = Err e).
Proof. exact collect_eq. Qed.
Print Assumptions C95_collect.

(** the classes of the list *)
Theorem C95_listed : forall symbolic layers : bool, backend_types symbolic layers = listed_for symbolic layers.
Proof. exact listed_eq. Qed.
Print Assumptions C95_listed.

(** run_tests: without names nothing happens; with a name that is none, nothing is
    started; otherwise (with --pip-install) pytest and what the frameworks need are
    installed one by one and then the tests are run, all until the first program that
    fails; the tests read from their environment exactly the frameworks asked for *)
Theorem C95_main : forall (roots : list ctree) (environ : list (pystr * pystr)) (code : nat -> Z) (args : list pystr),
  let asked := filter (fun x => negb (str_eqb x (lit "--pip-install"))) args in
  (asked = [] -> main roots environ code args = ([], Ok tt)) /\
  (forall f, In f asked -> (forall g, ~ asks_for f g) -> main roots environ code args = ([], Err RuntimeError)) /\
  (forall gs words, asked <> [] -> Forall2 asks_for asked gs -> Forall2 (fun g w => In (g, w) testable) gs words ->
     (forall g, In g (map fst testable) -> known_framework roots g) ->
     exists env,
       executed code
         ((if str_mem (lit "--pip-install") args then map (fun w => (installs w, environ)) ([lit "pytest"] :: words) else []) ++
          [([lit "python"; lit "-m"; lit "pytest"; lit "."], env)])
         (fst (main roots environ code args)) (snd (main roots environ code args)) /\
       parse_backends roots env = Ok gs /\
       (forall k, k <> lit "EINOPS_TEST_BACKENDS" -> dict_get str_eqb k env = dict_get str_eqb k environ)).
Proof. exact main_spec. Qed.
Print Assumptions C95_main.

(** the classes of einops: whatever run_tests is asked for, in the tests that it
    starts no backend with symbolic layers is collected, as "tensorflow.keras" cannot
    be asked for; set by hand, the variable selects it *)
Theorem C95_keras_refuted :
  (forall (environ : list (pystr * pystr)) (code : nat -> Z) (args : list pystr) before env make,
     fst (main einops_backends environ code args) = before ++ [([lit "python"; lit "-m"; lit "pytest"; lit "."], env)] ->
     collect_test_backends einops_backends env make true true = Ok ([], [])) /\
  collect_test_backends einops_backends [(lit "EINOPS_TEST_BACKENDS", lit "tensorflow.keras")] (fun _ => Made) true true = Ok ([lit "TFKerasBackend"], []).
Proof. exact no_keras. Qed.
Print Assumptions C95_keras_refuted.

(** the premises hold for the classes of einops *)
Example C95_case_names : forall g, In g (map fst testable) -> known_framework einops_backends g.
Proof. exact testable_known. Qed.
Example C95_case_classes : NoDup (map c_name (flat_map classes einops_backends)).
Proof. exact names_distinct. Qed.
Example C95_case_main :
  main einops_backends [(lit "HOME", lit "/root")] (fun _ => 0%Z) [lit "tf"; lit "--pip-install"; lit "jax"] =
  ([(installs [lit "pytest"], [(lit "HOME", lit "/root")]);
    (installs [lit "tensorflow"], [(lit "HOME", lit "/root")]);
    (installs [lit "jax[cpu]"; lit "flax"], [(lit "HOME", lit "/root")]);
    ([lit "python"; lit "-m"; lit "pytest"; lit "."], [(lit "HOME", lit "/root"); (lit "EINOPS_TEST_BACKENDS", lit "tensorflow,jax")])], Ok tt).
Proof. vm_compute. reflexivity. Qed.
Example C95_case_fails :
  main einops_backends [] (fun k => if (k =? 1)%nat then 1%Z else 0%Z) [lit "tf"; lit "--pip-install"; lit "jax"] =
  ([(installs [lit "pytest"], []); (installs [lit "tensorflow"], [])], Err AssertionError).
Proof. vm_compute. reflexivity. Qed.
Example C95_case_collect :
  collect_test_backends einops_backends [(lit "EINOPS_TEST_BACKENDS", lit "torch,numpy,jax")]
    (fun t => if str_eqb t (lit "JaxBackend") then Import_fails else Made) false false = Ok ([lit "NumpyBackend"; lit "TorchBackend"], [lit "JaxBackend"]).
Proof. vm_compute. reflexivity. Qed.
