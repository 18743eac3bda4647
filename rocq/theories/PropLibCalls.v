(** * The library functions that a call runs *)
From Verif Require Import Py Tensor SpecSem SpecGrammar SpecPattern SpecOps SpecCalls Parsing Recipe Ops Backends Api CallsFacts Instances.

(** ** C50: a correct call of rearrange, reduce or repeat runs exactly the listed
    functions of the library, whatever the library is and whatever they do *)
Theorem C50_library_calls : forall (T : Type) (U : unicode) (o : orders) (B : backend T Z) (rd : reduction T) (w : role)
    (t : T) (pattern : pystr) (sizes : list (pystr * Z)) (sh : list nat) (L R : expr) (e : nat) (len : label -> nat),
  unicode_ok U -> orders_ok o -> NoDup (map fst sizes) -> no_reserved sizes ->
  runs_as rd w -> call_ok U w pattern sizes sh L R e len ->
  b_shape B t = map Z.of_nat sh ->
  api_reduce U o int_ops B (One t) pattern rd sizes =
  foldM (perform B rd) (lib_calls (left_groups e L) (right_groups e L R) len) t.
Proof.
  exact (fun T U o B rd w t pattern sizes sh L R e len HU Ho Hns Hres Hw Hok Hsh =>
    api_runs U HU o Ho pattern sizes sh w L R e len Hns Hres Hok B rd t Hw Hsh).
Qed.
Print Assumptions C50_library_calls.

(** the same for einops.array_api *)
Theorem C50_array_api_calls : forall (T : Type) (U : unicode) (o : orders) (X : array_ns T) (rd : reduction T) (w : role)
    (t : T) (pattern : pystr) (sizes : list (pystr * Z)) (sh : list nat) (L R : expr) (e : nat) (len : label -> nat),
  unicode_ok U -> orders_ok o -> NoDup (map fst sizes) -> no_reserved sizes ->
  runs_as rd w -> call_ok U w pattern sizes sh L R e len ->
  xp_shape X t = map Z.of_nat sh ->
  aa_reduce U o X (One t) pattern rd sizes =
  foldM (perform_xp X rd) (lib_calls (left_groups e L) (right_groups e L R) len) t.
Proof.
  exact (fun T U o X rd w t pattern sizes sh L R e len HU Ho Hns Hres Hw Hok Hsh =>
    xp_runs U HU o Ho pattern sizes sh w L R e len Hns Hres Hok X rd t Hw Hsh).
Qed.
Print Assumptions C50_array_api_calls.

(** nothing at all is run, and the very tensor given is returned, exactly when both
    sides are the same and have no groups but single axes *)
Theorem C50_nothing : forall (gl gr : list (list label)) (len : label -> nat),
  lib_calls gl gr len = [] <-> gl = gr /\ forall g, In g gl -> length g = 1.
Proof. exact lib_calls_nil. Qed.
Print Assumptions C50_nothing.

(** a library whose tensors are only shapes, with a record of what was run *)
Definition recorder : backend (list Z * list lib_call) Z :=
  let note t s c := Ok (s, snd t ++ [c]) in
  {| b_shape := fst;
     b_reshape := fun t s => note t s (Reshape (map Z.to_nat s));
     b_transpose := fun t p => note t (map (fun i => nth i (fst t) 0%Z) p) (Transpose p);
     b_reduce := fun t _ axes => note t (firstn (length (fst t) - length axes) (fst t)) (Aggregate axes);
     b_add_axes := fun t n l => note t (fst t ++ map snd l) (Insert n (map (fun '(i, z) => (i, Z.to_nat z)) l));
     b_stack := fun _ => Err BackendError;
     b_concat := fun _ _ => Err BackendError;
     b_slice := fun _ _ _ _ => Err BackendError;
     b_arange := fun _ => Err BackendError;
     b_is_float := fun _ => true |}.

Example C50_case :
  let L := [grp [lit "a"; lit "b"]; nm "c"; nm "d"] in
  let R := [nm "d"; nm "a"; grp [lit "b"]] in
  let p := lit "(a b) c d -> d a (b)" in
  let len := lens [(lit "a", 2); (lit "b", 3); (lit "c", 4); (lit "d", 5)] in
  call_ok ascii_unicode Reducing p [(lit "b", 3%Z)] [6; 4; 5] L R 0 len /\
  lib_calls (left_groups 0 L) (right_groups 0 L R) len =
    [Reshape [2; 3; 4; 5]; Transpose [3; 0; 1; 2]; Aggregate [3]] /\
  api_reduce ascii_unicode forward int_ops recorder (One ([6; 4; 5]%Z, [])) p (RStr (lit "max")) [(lit "b", 3%Z)] =
    Ok ([5; 2; 3]%Z, [Reshape [2; 3; 4; 5]; Transpose [3; 0; 1; 2]; Aggregate [3]]) /\
  api_repeat ascii_unicode forward int_ops recorder (One ([6; 4]%Z, [])) (lit "a b -> a (k b) m") [(lit "k", 2%Z); (lit "m", 7%Z)] =
    Ok ([6; 8; 7]%Z, [Insert 4 [(1, 2); (3, 7)]; Reshape [6; 8; 7]]) /\
  api_rearrange ascii_unicode forward int_ops recorder (One ([6; 4]%Z, [])) (lit "a ... -> a ...") [] = Ok ([6; 4]%Z, []).
Proof.
  cbv zeta. split; [solve_call (lit "(a b) c d ") (lit " d a (b)")|]. repeat (split; [vm_compute; reflexivity|]). vm_compute. reflexivity.
Qed.
