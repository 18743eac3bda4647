(** * Specification: which functions torch.compile knows

    Part of the specification. *)
From Verif Require Import Py Texts Registry Dynamo.

(** functions given to [allow_in_graph] so far, one entry for each time *)
Definition registered (p : process) : list pystr := flat_map (fun '(_, ef) => ef_allowed ef) (p_effects p).
Definition the_functions : list pystr := [lit "rearrange"; lit "reduce"; lit "repeat"; lit "einsum"; lit "pack"; lit "unpack"].
(** imports of _torch_specific.py that did not raise *)
Definition imports_done (p : process) : nat := length (filter (fun '(b, ef) => b && match ef_raised ef with None => true | Some _ => false end) (p_effects p)).

(** versions as torch writes them: major number, dot, more *)
Definition version (major : nat) (rest : pystr) : pystr := str_of_int (Z.of_nat major) ++ lit "." ++ rest.
(** torch has torch.compile, is not told to be older than 2, and lets functions be registered *)
Definition able (w : torch_world) : Prop :=
  tw_dynamo w = Present /\ (forall f, In f the_functions -> tw_allow w f = None) /\
  match tw_version w with None => True | Some v => exists c rest, v = c :: rest /\ (50 <= c)%N end.
(** no call of the function other than by the import *)
Definition no_calls {T} (h : list (occurrence (T := T))) : Prop := forall w, ~ In (Call w) h.
