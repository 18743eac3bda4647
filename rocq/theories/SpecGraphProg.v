(** * When a program may be run on symbols *)
From Verif Require Import Py Tensor SpecGrammar SpecPattern SpecForms Backends Symbolic SymPacking GraphProg.

(** unpack compares the shapes returned by pack with -1, which only symbols of pytensor
    allow; parse_shape compares dimensions with numbers in the pattern *)
Definition buildable (U : unicode) (f : framework) (c : call_on) : Prop :=
  match c with
  | On_unpack _ _ _ => f = Pytensor
  | On_parse_shape _ p => exists L, written_as U true false p L /\ Forall (fun i => unasked i \/ i = Atom ADots) L
  | _ => True
  end.
(** a function of the library computes in graphs what it computes eagerly *)
Definition same_in_graphs {E A} (g : list (node E A) -> result (node E A)) (f : list (tensor A) -> result (tensor A)) : Prop :=
  forall e ns ts t, Forall2 (computes e) ns ts -> Forall (fun n => n_float n = true) ns -> f ts = Ok t ->
  exists n, g ns = Ok n /\ computes e n t /\ n_float n = true.
(** a tensor of a declared shape, [None] being any length *)
Definition of_shape {A} (declared : list (option Z)) (t : tensor A) : Prop :=
  Forall2 (fun s d => s = None \/ s = Some d) declared (int_shape t).
