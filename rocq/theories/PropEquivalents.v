(** * Patterns for well-known functions of array libraries: C61 *)
From Coq Require Import Permutation.
From Verif Require Import Py Tensor SpecSem SpecGrammar SpecPattern SpecShape SpecOps SpecEquivalents Parsing Recipe Ops Backends Api Instances ApiFacts6 EquivalentFacts.

(** the same axes in the same order on both sides: only the shape changes *)
Theorem C61_reshape : forall (A : Type) (r : runtime A) (x y : tensor A) (p : pystr) (s : list (pystr * Z)) L R,
  runtime_ok r -> NoDup (map fst s) -> wf x -> rearrange r (One x) p s = Ok y ->
  reads (rt_unicode r) p L R -> same_order L R -> dat y = dat x.
Proof. exact (fun A r x y p s L R Hok => same_order_data r Hok x y p s L R). Qed.
Print Assumptions C61_reshape.

Theorem C61_transpose : forall (A : Type) (r : runtime A) (x : tensor A) (p : pystr) (names : list pystr) (perm : list nat),
  runtime_ok r -> wf x -> length names = length (shp x) -> Permutation perm (seq 0 (length names)) ->
  reads (rt_unicode r) p (axes_named names) (axes_named (pick names perm)) ->
  exists y, rearrange r (One x) p [] = Ok y /\ t_transpose x perm = Ok y.
Proof. exact (fun A r x p names perm Hok => transpose_call r Hok x p names perm). Qed.
Print Assumptions C61_transpose.

(** [mask] marks the axes that are not on the right *)
Theorem C61_reduce : forall (A : Type) (r : runtime A) (x y : tensor A) (p op : pystr) (names : list pystr) (mask : list bool),
  runtime_ok r -> wf x -> length names = length (shp x) -> length mask = length names ->
  builtin op -> reduction_fits r op -> float_if_mean r op -> has_reduction (rt_framework r) op = true -> In true mask ->
  reads (rt_unicode r) p (axes_named names) (axes_named (select false mask names)) ->
  (reduce r (One x) p (RStr op) [] = Ok y <-> t_reduce (rt_red r op) x (marked mask) = Ok y).
Proof. exact (fun A r x y p op names mask Hok => reduce_call r Hok x y p op names mask). Qed.
Print Assumptions C61_reduce.

(** a list of tensors, its axis joined with axis number [length before] *)
Theorem C61_concatenate : forall (A : Type) (r : runtime A) (ts : list (tensor A)) (p b h : pystr) (before after : list pystr) sb d sa,
  runtime_ok r -> ts <> [] -> (forall t, In t ts -> wf t /\ shp t = sb ++ d :: sa) ->
  length before = length sb -> length after = length sa ->
  reads (rt_unicode r) p (axes_named (b :: before ++ h :: after)) (axes_named before ++ [Group [AName b; AName h]] ++ axes_named after) ->
  exists y, rearrange r (Many ts) p [] = Ok y /\ t_concat ts (length before) = Ok y.
Proof. exact (fun A r ts p b h before after sb d sa Hok => concat_call r Hok ts p b h before after sb d sa). Qed.
Print Assumptions C61_concatenate.

(** 'a b -> (r a) (s b)' *)
Theorem C61_tile : forall (A : Type) (r : runtime A) (x : tensor A) (p : pystr) (names news : list pystr) (reps : list nat),
  runtime_ok r -> wf x -> length names = length (shp x) -> length reps = length names -> length news = length names ->
  reads (rt_unicode r) p (axes_named names) (in_pairs news names) -> ~ In ell_name news ->
  no_reserved (combine news (map Z.of_nat reps)) ->
  exists y, repeat_ r (One x) p (combine news (map Z.of_nat reps)) = Ok y /\ t_tile x (map Z.of_nat reps) = Ok y.
Proof. exact (fun A r x p names news reps Hok => tile_call r Hok x p names news reps). Qed.
Print Assumptions C61_tile.

(** 'a b -> (a r) (b s)': every element several times in a row, as numpy.repeat does *)
Theorem C61_repeat_elements : forall (A : Type) (r : runtime A) (x : tensor A) (p : pystr) (names news : list pystr) (reps : list nat),
  runtime_ok r -> wf x -> length names = length (shp x) -> length reps = length names -> length news = length names ->
  reads (rt_unicode r) p (axes_named names) (in_pairs names news) -> ~ In ell_name news ->
  no_reserved (combine news (map Z.of_nat reps)) ->
  exists y, repeat_ r (One x) p (combine news (map Z.of_nat reps)) = Ok y /\ wf y /\ shp y = map2 Nat.mul (shp x) reps /\
    forall idx, inb (shp y) idx = true -> get y idx = get x (quotients idx reps).
Proof. exact (fun A r x p names news reps Hok => each_call r Hok x p names news reps). Qed.
Print Assumptions C61_repeat_elements.

Example C61_case :
  let a := lit "a" in let b := lit "b" in let c := lit "c" in let n := lit "n" in let m := lit "m" in
  (* reshape *)
  reads ascii_unicode (lit "(a b) c -> a 1 (b c)") [grp [a; b]; nm "c"] [nm "a"; Atom (ANum 1); grp [b; c]] /\
  same_order [grp [a; b]; nm "c"] [nm "a"; Atom (ANum 1); grp [b; c]] /\
  rearrange numpy_like (One (iota [4; 3])) (lit "(a b) c -> a 1 (b c)") [(a, 2%Z)] = Ok (iota [2; 1; 6]) /\
  (* transpose *)
  Permutation [2; 0; 1] (seq 0 3) /\
  reads ascii_unicode (lit "a b c -> c a b") (axes_named [a; b; c]) (axes_named (pick [a; b; c] [2; 0; 1])) /\
  (* reduce *)
  reads ascii_unicode (lit "a b c -> b") (axes_named [a; b; c]) (axes_named (select false [true; false; true] [a; b; c])) /\
  marked [true; false; true] = [0; 2] /\
  reduce numpy_like (One (iota [2; 2; 2])) (lit "a b c -> b") (RStr (lit "sum")) [] = Ok (mkT [2] [10; 18]%Z) /\
  (* concatenate *)
  reads ascii_unicode (lit "n a b -> a (n b)") (axes_named (n :: [a] ++ b :: [])) (axes_named [a] ++ [Group [AName n; AName b]] ++ axes_named []) /\
  t_concat [iota [2; 2]; iota [2; 2]] 1 = Ok (mkT [2; 4] [0; 1; 0; 1; 2; 3; 2; 3]%Z) /\
  (* tile, repeat *)
  reads ascii_unicode (lit "a b -> (n a) (m b)") (axes_named [a; b]) (in_pairs [n; m] [a; b]) /\
  reads ascii_unicode (lit "a b -> (a n) (b m)") (axes_named [a; b]) (in_pairs [a; b] [n; m]) /\
  no_reserved (combine [n; m] (map Z.of_nat [1; 2])) /\
  repeat_ numpy_like (One (iota [2; 2])) (lit "a b -> (n a) (m b)") [(n, 1%Z); (m, 2%Z)] = Ok (mkT [2; 4] [0; 1; 0; 1; 2; 3; 2; 3]%Z) /\
  repeat_ numpy_like (One (iota [2; 2])) (lit "a b -> (a n) (b m)") [(n, 1%Z); (m, 2%Z)] = Ok (mkT [2; 4] [0; 0; 1; 1; 2; 2; 3; 3]%Z).
Proof.
  cbv zeta.
  split; [solve_reads (lit "(a b) c ") (lit " a 1 (b c)")|]. split; [reflexivity|]. split; [vm_compute; reflexivity|].
  split; [apply NoDup_Permutation; [repeat (constructor; [cbn; lia|]); constructor|apply seq_NoDup|intros k; cbn; lia]|].
  split; [solve_reads (lit "a b c ") (lit " c a b")|]. split; [change (axes_named (select false [true; false; true] [lit "a"; lit "b"; lit "c"])) with [nm "b"]; solve_reads (lit "a b c ") (lit " b")|].
  split; [reflexivity|]. split; [vm_compute; reflexivity|]. split; [change (axes_named [lit "a"] ++ [Group [AName (lit "n"); AName (lit "b")]] ++ axes_named []) with [nm "a"; grp [lit "n"; lit "b"]]; solve_reads (lit "n a b ") (lit " a (n b)")|].
  split; [vm_compute; reflexivity|]. split; [change (in_pairs [lit "n"; lit "m"] [lit "a"; lit "b"]) with [grp [lit "n"; lit "a"]; grp [lit "m"; lit "b"]]; solve_reads (lit "a b ") (lit " (n a) (m b)")|]. split; [change (in_pairs [lit "a"; lit "b"] [lit "n"; lit "m"]) with [grp [lit "a"; lit "n"]; grp [lit "b"; lit "m"]]; solve_reads (lit "a b ") (lit " (a n) (b m)")|].
  split; [solve_no_reserved|]. split; vm_compute; reflexivity.
Qed.
