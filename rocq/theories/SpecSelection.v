(** * Which backends the tests run on: what is expected *)
From Verif Require Import Py Registry SpecRegistry Selection.

(** a name of a framework: some class below the roots carries it *)
Definition known_framework (roots : list ctree) (n : pystr) : Prop := exists c, In c (flat_map classes roots) /\ c_framework c = n.

(** 44 is the comma *)
Definition without_commas (names : list pystr) : Prop := Forall (fun n => ~ In 44%N n) names.

(** what run_tests can be asked for, and the words to install it *)
Definition testable : list (pystr * list pystr) :=
  [(lit "numpy", [lit "numpy"]);
   (lit "torch", [lit "torch"; lit "--index-url"; lit "https://download.pytorch.org/whl/cpu"]);
   (lit "jax", [lit "jax[cpu]"; lit "flax"]);
   (lit "tensorflow", [lit "tensorflow"]);
   (lit "cupy", [lit "cupy"]);
   (lit "paddle", [lit "paddlepaddle"]);
   (lit "oneflow", [lit "oneflow==0.9.0"]);
   (lit "pytensor", [lit "pytensor"])].

(** [f] on the command line stands for the framework [g] *)
Definition asks_for (f g : pystr) : Prop :=
  (In f (map fst testable) /\ g = f) \/
  In (f, g) [(lit "tf", lit "tensorflow"); (lit "pytorch", lit "torch"); (lit "paddlepaddle", lit "paddle")].

(** a command that installs these *)
Definition installs (packages : list pystr) : list pystr :=
  lit "pip" :: lit "install" :: packages ++ [lit "--progress-bar"; lit "off"; lit "-q"].

(** [planned] is to be executed, [done] was, with exit codes [code]: either all of it
    was executed, without failures, or it was given up after the first failure *)
Definition executed {X} (code : nat -> Z) (planned done : list X) (r : result unit) : Prop :=
  (done = planned /\ r = Ok tt /\ forall k, k < length done -> code k = 0%Z) \/
  (exists k, done = firstn (S k) planned /\ k < length planned /\ r = Err AssertionError /\ code k <> 0%Z /\ forall j, j < k -> code j = 0%Z).

(** what the constructor of a class does *)
Definition raises (make : pystr -> construction) (t : pystr) : option exn := match make t with Raises e => Some e | _ => None end.
Definition is_made (make : pystr -> construction) (t : pystr) : bool := match make t with Made => true | _ => false end.
Definition is_missing (make : pystr -> construction) (t : pystr) : bool := match make t with Import_fails => true | _ => false end.

(** the classes that tests can run on, with the kind of test: of symbolic or imperative
    frameworks, of layers or of operations *)
Definition kinds_of_tests : list (pystr * list (bool * bool)) :=
  [(lit "NumpyBackend", [(false, false)]);
   (lit "JaxBackend", [(false, false)]);
   (lit "TorchBackend", [(false, false); (false, true)]);
   (lit "TensorflowBackend", [(false, false)]);
   (lit "OneFlowBackend", [(false, false); (false, true)]);
   (lit "PaddleBackend", [(false, false); (false, true)]);
   (lit "CupyBackend", [(false, false)]);
   (lit "PyTensorBackend", [(true, false)]);
   (lit "TFKerasBackend", [(true, true)])].
Definition listed_for (symbolic layers : bool) : list pystr :=
  map fst (filter (fun '(_, ks) => existsb (fun '(s, l) => Bool.eqb s symbolic && Bool.eqb l layers) ks) kinds_of_tests).
