(** * Which backends the tests run on

    einops/tests/__init__.py (the selection of backends) and
    einops/tests/run_tests.py (the program that starts the tests). *)
From Verif Require Import Py Registry.

(** tests/__init__.py:24-31 [find_names_of_all_frameworks] *)
Definition framework_names (roots : list ctree) : list pystr := map c_framework (all_subclasses roots).

(** tests/__init__.py:34 [ENVVAR_NAME] *)
Definition envvar : pystr := lit "EINOPS_TEST_BACKENDS".
Definition comma : pystr := lit ",".
(** environment variables, a dictionary *)
Notation environment := (list (pystr * pystr)).

(** tests/__init__.py:40-42, 51-53: the loop that looks for an unknown name *)
Definition check_known (roots : list ctree) (names : list pystr) : result unit :=
  let known := framework_names roots in
  foldM (fun _ n => raise_if (negb (str_mem n known)) RuntimeError) names tt.

(** tests/__init__.py:37-42 [unparse_backends] *)
Definition unparse_backends (roots : list ctree) (backend_names : list pystr) : result (pystr * pystr) :=
  let* _ := check_known roots backend_names in Ok (envvar, str_join comma backend_names).

(** tests/__init__.py:45-55, the body of [parse_backends_to_test] *)
Definition parse_backends (roots : list ctree) (env : environment) : result (list pystr) :=
  match dict_get str_eqb envvar env with
  | None => Err RuntimeError                                            (* 47-48 *)
  | Some value =>
      let parsed_backends := str_split comma value in                   (* 49 *)
      let* _ := check_known roots parsed_backends in
      Ok parsed_backends
  end.
(** the same under lru_cache(maxsize=1) (45): there are no arguments, hence one key *)
Definition cached_parse (roots : list ctree) (env : environment) (remembered : option (list pystr)) : result (list pystr) * option (list pystr) :=
  match remembered with
  | Some l => (Ok l, remembered)
  | None => match parse_backends roots env with Ok l => (Ok l, Some l) | Err e => (Err e, None) end
  end.

(** successive calls, under the environments given *)
Fixpoint parse_calls (roots : list ctree) (envs : list environment) (remembered : option (list pystr)) : list (result (list pystr)) :=
  match envs with
  | [] => []
  | env :: envs => let '(r, m) := cached_parse roots env remembered in r :: parse_calls roots envs m
  end.

(** tests/__init__.py:58-62 [is_backend_tested], the cache being empty *)
Definition is_backend_tested (roots : list ctree) (env : environment) (backend : pystr) : result bool :=
  let* _ := raise_if (negb (str_mem backend (framework_names roots))) RuntimeError in
  let* tested := parse_backends roots env in
  Ok (str_mem backend tested).

(** tests/__init__.py:71-96: the classes, by name *)
Definition backend_types (symbolic layers : bool) : list pystr :=
  match symbolic, layers with
  | false, false => [lit "NumpyBackend"; lit "JaxBackend"; lit "TorchBackend"; lit "TensorflowBackend"; lit "OneFlowBackend"; lit "PaddleBackend"; lit "CupyBackend"]
  | false, true => [lit "TorchBackend"; lit "OneFlowBackend"; lit "PaddleBackend"]
  | true, false => [lit "PyTensorBackend"]
  | true, true => [lit "TFKerasBackend"]
  end.
(** [backend_type.framework_name] *)
Definition framework_of (roots : list ctree) (cls : pystr) : result pystr :=
  of_option KeyError (option_map c_framework (find (fun c => str_eqb cls (c_name c)) (all_subclasses roots))).

(** what a constructor does *)
Inductive construction := Made | Import_fails | Raises (e : exn).

(** tests/__init__.py:65-109 [collect_test_backends]: the backends made and the
    classes that a warning is issued for *)
Definition collect_test_backends (roots : list ctree) (env : environment) (make : pystr -> construction) (symbolic layers : bool)
    : result (list pystr * list pystr) :=
  let* backend_names_to_test := parse_backends roots env in                                  (* 98 *)
  foldM (fun '(made, warned) t =>                                                           (* 100-108 *)
           let* f := framework_of roots t in
           if negb (str_mem f backend_names_to_test) then Ok (made, warned)
           else match make t with
                | Made => Ok (made ++ [t], warned)
                | Import_fails => Ok (made, warned ++ [t])
                | Raises e => Err e
                end) (backend_types symbolic layers) ([], []).

(** ** run_tests.py *)

(** run_tests.py:27-37 *)
Definition installations : list (pystr * list pystr) :=
  [(lit "numpy", [lit "numpy"]);
   (lit "torch", [lit "torch --index-url https://download.pytorch.org/whl/cpu"]);
   (lit "jax", [lit "jax[cpu]"; lit "flax"]);
   (lit "tensorflow", [lit "tensorflow"]);
   (lit "cupy", [lit "cupy"]);
   (lit "paddle", [lit "paddlepaddle"]);
   (lit "oneflow", [lit "oneflow==0.9.0"]);
   (lit "pytensor", [lit "pytensor"])].
(** run_tests.py:51-55 *)
Definition synonyms : list (pystr * pystr) := [(lit "tf", lit "tensorflow"); (lit "pytorch", lit "torch"); (lit "paddlepaddle", lit "paddle")].
Definition flag : pystr := lit "--pip-install".
Definition space : pystr := lit " ".

(** a program that was started: its arguments and its environment *)
Notation started := (list pystr * environment)%type.

Section Main.
  (** classes that exist in the process; environment of the process; exit codes of
      the programs started (by number) *)
  Context (roots : list ctree) (environ : environment) (code : nat -> Z).

  (** run_tests.py:13-19 [run]; [{**os.environ, **env}] *)
  Definition run_program (cmd : pystr) (env : environment) (log : list started) : Z * list started :=
    (code (length log), log ++ [(str_split space cmd, fold_left (fun d '(k, v) => dict_set str_eqb k v d) env environ)]).
  (** [assert 0 == run(...)] *)
  Definition must_run (cmd : pystr) (env : environment) (log : list started) : list started * result unit :=
    let '(c, log) := run_program cmd env log in (log, if (c =? 0)%Z then Ok tt else Err AssertionError).
  Definition pip_install (packages : list pystr) (log : list started) : list started * result unit :=
    must_run (lit "pip install " ++ str_join space packages ++ lit " --progress-bar off -q") [] log.
  (** run_tests.py:67-70 *)
  Fixpoint install_all (frameworks : list pystr) (log : list started) : list started * result unit :=
    match frameworks with
    | [] => (log, Ok tt)
    | f :: fs =>
        match dict_get str_eqb f installations with
        | None => (log, Err KeyError)
        | Some packages =>
            match pip_install packages log with
            | (log, Err e) => (log, Err e)
            | (log, Ok _) => install_all fs log
            end
        end
    end.

  (** run_tests.py:22-81 [main], without what it prints; [args] without the name of
      the program *)
  Definition main (args : list pystr) : list started * result unit :=
    let frameworks := filter (fun x => negb (str_eqb x flag)) args in                       (* 24 *)
    let pip_install_is_set := str_mem flag args in                                          (* 25 *)
    match frameworks with
    | [] => ([], Ok tt)                                                                     (* 47-49 *)
    | _ =>
        let frameworks := map (fun f => match dict_get str_eqb f synonyms with Some g => g | None => f end) frameworks in   (* 56 *)
        if existsb (fun f => negb (dict_has str_eqb f installations)) frameworks            (* 57-60 *)
        then ([], Err RuntimeError)
        else
          match (if pip_install_is_set                                                      (* 62-70 *)
                 then match pip_install [lit "pytest"] [] with (log, Err e) => (log, Err e) | (log, Ok _) => install_all frameworks log end
                 else ([], Ok tt)) with
          | (log, Err e) => (log, Err e)
          | (log, Ok _) =>
              match unparse_backends roots frameworks with                                  (* 76 *)
              | Err e => (log, Err e)
              | Ok (name, value) => must_run (lit "python -m pytest .") [(name, value)] log (* 77-81 *)
              end
          end
    end.
End Main.
