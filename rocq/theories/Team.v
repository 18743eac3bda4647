(** * Programs that run in several threads

    Crowd.v is about calls; here each thread runs a program, which makes its next
    call depending on the answers to its previous ones.  A program names layers by the
    numbers of its own calls; the first numbers may be those of layers that were made
    before the thread was started and handed to it. *)
From Verif Require Import Py Tensor Parsing Recipe Ops Backends Api Packing Einsum Registry Cache Layers Session Threads CacheThreads Crowd.

(** a program: it ends with a result, or makes a call and goes on with the answer.
    What it computes itself between calls is in [next] *)
Inductive script (A R : Type) :=
| Over (r : R)
| Calling (o : orders) (q : request A) (next : answer A -> script A R).
Arguments Over {A R}. Arguments Calling {A R}.

(** a thread: what is left to do, the number of the call that it is in, the numbers of
    its ended calls in the process, the answers it got *)
Record worker (A R : Type) := { w_script : script A R; w_now : option nat; w_own : list nat; w_heard : list (answer A) }.
Arguments w_script {A R}. Arguments w_now {A R}. Arguments w_own {A R}. Arguments w_heard {A R}.
Definition new_worker {A R} (own : list nat) (p : script A R) : worker A R := {| w_script := p; w_now := None; w_own := own; w_heard := [] |}.
Record team (A R : Type) := { tm_crowd : crowd A; tm_workers : list (worker A R) }.
Arguments tm_crowd {A R}. Arguments tm_workers {A R}.
Inductive team_event (A : Type) :=
| Turn (t : nat)                                       (* thread [t] makes a step *)
| Besides (e : occasion A).                            (* anything else, also steps of other threads *)
Arguments Turn {A}. Arguments Besides {A}.

Section Team.
  Context {A R : Type} (lim : limits) (U : unicode) (fw_of : nat -> option framework).
  Context (build : nat -> bclass -> list pystr -> option exn * list pystr) (library : framework -> runtime A).
  Context (lib_einsum : framework -> pystr -> list (tensor A) -> result (tensor A)).
  Implicit Types (w : worker A R) (s : crowd A).
  Notation occurs := (occurs lim U fw_of build library lib_einsum).

  (** the number that a layer of the program has in the process *)
  Definition globally (own : list nat) s (q : request A) : request A :=
    match q with UseLayer k x => UseLayer (nth k own (length (cr_calls s))) x | _ => q end.
  (** a step of a thread: it starts a call, makes a step in it, or takes the answer.
      It stands still where the program names a layer that does not exist *)
  Definition turn w s : worker A R * crowd A :=
    match w_script w with
    | Over _ => (w, s)
    | Calling o q next =>
        match w_now w with
        | None =>
            let s' := occurs s (Enter o (globally (w_own w) s q)) in
            (if length (cr_calls s') =? length (cr_calls s) then w
             else {| w_script := w_script w; w_now := Some (length (cr_calls s)); w_own := w_own w; w_heard := w_heard w |}, s')
        | Some i =>
            match nth_error (cr_calls s) i with
            | Some (_, Done a _) => ({| w_script := next a; w_now := None; w_own := w_own w ++ [i]; w_heard := w_heard w ++ [a] |}, s)
            | _ => (w, occurs s (Move i))
            end
        end
    end.
  Definition goes_on (tm : team A R) (e : team_event A) : team A R :=
    match e with
    | Besides e => {| tm_crowd := occurs (tm_crowd tm) e; tm_workers := tm_workers tm |}
    | Turn t =>
        match nth_error (tm_workers tm) t with
        | Some w => let '(w, s) := turn w (tm_crowd tm) in {| tm_crowd := s; tm_workers := firstn t (tm_workers tm) ++ w :: skipn (S t) (tm_workers tm) |}
        | None => tm
        end
    end.
  Definition team_run (es : list (team_event A)) (tm : team A R) : team A R := fold_left goes_on es tm.
End Team.
