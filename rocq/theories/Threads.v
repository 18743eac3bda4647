(** * get_backend called by several threads at once

    einops/_backends.py:22-59.  Nothing is locked.  A step of a thread is one
    access to something shared (the two dictionaries, sys.modules) or one call of a
    constructor; the interpreter makes each of these atomic, and may switch to
    another thread between any two of them.  The classes are read in one step
    (38-43), they are not being defined while a call runs. *)
From Verif Require Import Py Registry.

Section Threads.
  Context {T : Type}.
  Context (type_of : T -> nat) (accepts : bclass -> T -> bool)
          (build : nat -> bclass -> list pystr -> option exn * list pystr).

  (** what a call get_backend(x) does next; [cs]: classes still to be tried *)
  Inductive point :=
  | AtStart (roots : list ctree) (x : T)                                     (* 28 *)
  | AtList (roots : list ctree) (x : T)                                      (* 32: list(_loaded_backends.items()) *)
  | Scanning (roots : list ctree) (x : T) (items : list (pystr * instance))  (* 33-35 *)
  | Looking (x : T) (cs : list bclass)                                       (* 45, 48 *)
  | Checking (x : T) (c : bclass) (cs : list bclass)                         (* 50 *)
  | Building (x : T) (c : bclass) (cs : list bclass)                         (* 53 *)
  | Storing (x : T) (b : instance) (cs : list bclass)                        (* 54 *)
  | Testing (x : T) (b : instance) (cs : list bclass)                        (* 55-57 *)
  | Finished (x : T) (r : result instance).

  (** d[k] = v *)
  Fixpoint put_key {K V} (eqb : K -> K -> bool) (k : K) (v : V) (d : list (K * V)) : list (K * V) :=
    match d with [] => [(k, v)] | (k', v') :: d => if eqb k k' then (k', v) :: d else (k', v') :: put_key eqb k v d end.
  Definition store_loaded (b : instance) (st : registry) : registry :=
    {| loaded := put_key str_eqb (c_framework (snd b)) b (loaded st); by_type := by_type st; modules := modules st;
       clock := clock st; attempts := attempts st |}.
  Definition store_type (x : T) (b : instance) (st : registry) : registry :=
    {| loaded := loaded st; by_type := put_key Nat.eqb (type_of x) b (by_type st); modules := modules st;
       clock := clock st; attempts := attempts st |}.

  Definition advance (p : point) (st : registry) : point * registry :=
    match p with
    | AtStart roots x => match find_key Nat.eqb (type_of x) (by_type st) with
                         | Some b => (Finished x (Ok b), st)
                         | None => (AtList roots x, st)
                         end
    | AtList roots x => (Scanning roots x (loaded st), st)
    | Scanning roots x ((_, b) :: items) => if accepts (snd b) x then (Finished x (Ok b), store_type x b st) else (Scanning roots x items, st)
    | Scanning roots x [] => (Looking x (all_subclasses roots), st)
    | Looking x [] => (Finished x (Err RuntimeError), st)                    (* 59 *)
    | Looking x (c :: cs) => match find_key str_eqb (c_framework c) (loaded st) with
                             | Some _ => (Looking x cs, st)
                             | None => (Checking x c cs, st)
                             end
    | Checking x c cs => if str_mem (c_framework c) (modules st) then (Building x c cs, st) else (Looking x cs, st)
    | Building x c cs => match construct build c st with
                         | (st, Ok b) => (Storing x b cs, st)
                         | (st, Err e) => (Finished x (Err e), st)
                         end
    | Storing x b cs => (Testing x b cs, store_loaded b st)
    | Testing x b cs => if accepts (snd b) x then (Finished x (Ok b), store_type x b st) else (Looking x cs, st)
    | Finished x r => (p, st)
    end.

  (** a process: the registry and where each call is *)
  Record process := { shared : registry; calls : list point }.
  Definition fresh_process : process := {| shared := fresh_registry; calls := [] |}.
  (** what may happen: a call starts, a call makes a step, sys.modules changes *)
  Inductive happening := Call (roots : list ctree) (x : T) | Step (i : nat) | Import (ms : list pystr).
  Definition set_modules (ms : list pystr) (st : registry) : registry :=
    {| loaded := loaded st; by_type := by_type st; modules := ms; clock := clock st; attempts := attempts st |}.
  Definition happen (s : process) (h : happening) : process :=
    match h with
    | Call roots x => {| shared := shared s; calls := calls s ++ [AtStart roots x] |}
    | Step i => match nth_error (calls s) i with
                | Some p => let '(p, st) := advance p (shared s) in
                            {| shared := st; calls := firstn i (calls s) ++ p :: skipn (S i) (calls s) |}
                | None => s
                end
    | Import ms => {| shared := set_modules ms (shared s); calls := calls s |}
    end.
  Definition after (hs : list happening) (s : process) : process := fold_left happen hs s.
End Threads.
Arguments Call {T}. Arguments Step {T}. Arguments Import {T}.
Arguments point : clear implicits. Arguments process : clear implicits. Arguments happening : clear implicits.
