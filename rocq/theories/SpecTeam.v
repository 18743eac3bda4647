(** * Specification: programs in several threads

    Part of the specification: what a program does when it is alone, with neither
    registry nor caches. *)
From Verif Require Import Py Tensor Parsing Recipe Ops Backends Api Packing Einsum Registry SpecGrammar SpecRegistry Cache Layers Session SpecSession Threads SpecThreads Crowd SpecCrowd Team.

Section Alone.
  Context {A R : Type} (U : unicode) (fw_of : nat -> option framework) (library : framework -> runtime A).
  Context (lib_einsum : framework -> pystr -> list (tensor A) -> result (tensor A)).
  Notation right := (right U library lib_einsum fw_of).
  Notation layer_by := (layer_by U library lib_einsum fw_of).
  Notation asks := (asks U library lib_einsum).
  Notation suitable := (suitable U library lib_einsum fw_of).
  Implicit Types (p : script A R) (calls : list (orders * request A)).

  (** its answers and its result; [calls]: the calls it has made, or whose layers it got *)
  Fixpoint alone calls p : list (answer A) :=
    match p with
    | Over _ => []
    | Calling o q next => let a := right calls o q in a :: alone (calls ++ [(o, q)]) (next a)
    end.
  Fixpoint outcome_alone calls p : R :=
    match p with
    | Over r => r
    | Calling o q next => outcome_alone (calls ++ [(o, q)]) (next (right calls o q))
    end.
  (** what is expected of a program: the layers it calls exist, torch layers get tensors
      of torch and other layers other tensors, and it asks for backends that [warm]
      tensors have *)
  Fixpoint well_behaved (warm : object A -> Prop) calls p : Prop :=
    match p with
    | Over _ => True
    | Calling o q next =>
        match q with UseLayer k _ => layer_by calls k <> [] | _ => True end /\ suitable calls q /\
        (forall x, asks calls q = Some x -> warm x) /\ well_behaved warm (calls ++ [(o, q)]) (next (right calls o q))
    end.
  (** of all programs: sizes are keyword arguments, callables can be hashed *)
  Fixpoint decent_script p : Prop :=
    match p with
    | Over _ => True
    | Calling o q next => orders_ok o /\ decent q /\ forall a, decent_script (next a)
    end.
End Alone.
(** layers that a thread gets when it starts: calls [calls] of the process, numbered [own], have ended *)
Definition handed {A} (s : crowd A) (own : list nat) (calls : list (orders * request A)) : Prop :=
  Forall2 (fun i c => exists a L, nth_error (cr_calls s) i = Some (fst c, snd c, Done a L)) own calls.
Definition decent_besides {A} (es : list (team_event A)) : Prop := forall o q, In (Besides (Enter o q)) es -> orders_ok o /\ decent q.
Definition turns {A} (t : nat) (es : list (team_event A)) : nat := length (filter (fun e => match e with Turn u => t =? u | _ => false end) es).
