(** * C78: patterns that do the same have the same groups *)
From Coq Require Import QArith Qcanon.
From Verif Require Import Py Tensor SpecSem SpecGrammar SpecPattern SpecOps SpecDistinct Parsing Recipe Ops Backends Api RedFacts Instances ApiFacts FrontFacts3 DistinctFacts DistinctFacts2 DistinctFacts3.
Close Scope Qc_scope.
Close Scope Q_scope.

(** On tensors of one shape in which no axis has length 1, two patterns with the
    same left side rearrange alike only if their right sides have the same groups. *)
Theorem C78_right : forall (A : Type) (r : runtime A) (a b : A) (p p' : pystr) (s s' : list (pystr * Z)) (shape : list nat) L R L' R' e e' len,
  runtime_ok r -> NoDup (map fst s) -> NoDup (map fst s') -> no_reserved s -> no_reserved s' ->
  (forall c, In c (concat (left_groups e L)) -> 2 <= len c) -> a <> b ->
  call_ok (rt_unicode r) Rearranging p s shape L R e len -> call_ok (rt_unicode r) Rearranging p' s' shape L' R' e' len ->
  left_groups e L = left_groups e' L' ->
  ((forall x y, wf x -> shp x = shape -> (rearrange r (One x) p s = Ok y <-> rearrange r (One x) p' s' = Ok y)) <->
   right_groups e L R = right_groups e' L' R').
Proof. exact (fun A r a b p p' s s' shape L R L' R' e e' len Hok => rearranges_right r Hok a b p p' s s' shape L R L' R' e e' len). Qed.
Print Assumptions C78_right.

(** with the same right side, only if the left sides have the same groups *)
Theorem C78_left : forall (A : Type) (r : runtime A) (a b : A) (p p' : pystr) (s s' : list (pystr * Z)) (shape : list nat) L R L' R' e e' len,
  runtime_ok r -> NoDup (map fst s) -> NoDup (map fst s') -> no_reserved s -> no_reserved s' ->
  (forall c, In c (concat (left_groups e L)) -> 2 <= len c) -> a <> b ->
  call_ok (rt_unicode r) Rearranging p s shape L R e len -> call_ok (rt_unicode r) Rearranging p' s' shape L' R' e' len ->
  right_groups e L R = right_groups e' L' R' ->
  ((forall x y, wf x -> shp x = shape -> (rearrange r (One x) p s = Ok y <-> rearrange r (One x) p' s' = Ok y)) <->
   left_groups e L = left_groups e' L').
Proof. exact (fun A r a b p p' s s' shape L R L' R' e e' len Hok => rearranges_left r Hok a b p p' s s' shape L R L' R' e e' len). Qed.
Print Assumptions C78_left.

(** a pattern changes nothing only if its two sides have the same groups *)
Theorem C78_nothing : forall (A : Type) (r : runtime A) (a b : A) (p : pystr) (s : list (pystr * Z)) (shape : list nat) L R e len,
  runtime_ok r -> NoDup (map fst s) -> no_reserved s ->
  (forall c, In c (concat (left_groups e L)) -> 2 <= len c) -> a <> b ->
  call_ok (rt_unicode r) Rearranging p s shape L R e len ->
  ((forall x y, wf x -> shp x = shape -> (rearrange r (One x) p s = Ok y <-> y = x)) <-> left_groups e L = right_groups e L R).
Proof. exact (fun A r a b p s shape L R e len Hok => rearranges_nothing r Hok a b p s shape L R e len). Qed.
Print Assumptions C78_nothing.

(** the same for [reduce], with a reduction that notices a single element *)
Theorem C78_reduce : forall (A : Type) (r : runtime A) (a b : A) (p p' : pystr) (s s' : list (pystr * Z)) (shape : list nat) L R L' R' e e' len (op : pystr),
  runtime_ok r -> NoDup (map fst s) -> NoDup (map fst s') -> no_reserved s -> no_reserved s' ->
  (forall c, In c (concat (left_groups e L)) -> 2 <= len c) ->
  builtin op -> reduction_fits r op -> float_if_mean r op -> has_reduction (rt_framework r) op = true -> notices (rt_red r op) a b ->
  call_ok (rt_unicode r) Reducing p s shape L R e len -> call_ok (rt_unicode r) Reducing p' s' shape L' R' e' len ->
  left_groups e L = left_groups e' L' ->
  ((forall x y, wf x -> shp x = shape -> (reduce r (One x) p (RStr op) s = Ok y <-> reduce r (One x) p' (RStr op) s' = Ok y)) <->
   right_groups e L R = right_groups e' L' R').
Proof. exact (fun A r a b p p' s s' shape L R L' R' e e' len op Hok Ns Ns' Rs Rs' Hl => reduces_right r Hok a b p p' s s' shape L R L' R' e e' len Ns Ns' Rs Rs' Hl op). Qed.
Print Assumptions C78_reduce.

(** the reductions notice a single element: sum (0, 1), prod (1, 0), any, all *)
Theorem C78_notices_sum : forall (A : Type) (f : A -> A -> A) (u b : A),
  (forall c, f u c = c) -> f b u = b -> u <> b -> notices (fold_red f u) u b.
Proof. exact (fun A f u b => fold_notices f u b). Qed.
Print Assumptions C78_notices_sum.
(** min (1, 0), max (0, 1) *)
Theorem C78_notices_minmax : forall (A : Type) (f : A -> A -> A) (a b : A),
  f a a = a -> f a b = b -> f b a = b -> a <> b -> notices (fold1_red f) a b.
Proof. exact (fun A f a b => fold1_notices f a b). Qed.
Print Assumptions C78_notices_minmax.
Theorem C78_notices_mean : notices mean_red 0%Qc 1%Qc.
Proof. exact mean_notices. Qed.
Print Assumptions C78_notices_mean.

Example C78_notices_case :
  notices (fold_red Z.add 0%Z) 0%Z 1%Z /\ notices (fold_red Z.mul 1%Z) 1%Z 0%Z /\ notices (fold1_red Z.max) 0%Z 1%Z /\ notices (fold1_red Z.min) 1%Z 0%Z /\
  notices (fold_red orb false) false true /\ notices (fold_red andb true) true false.
Proof.
  repeat split; try discriminate; try (apply fold_notices; [|reflexivity|discriminate]); try (apply fold1_notices; reflexivity || discriminate); try (intros c; destruct c; reflexivity).
Qed.

(** [repeat] does not tell new axes apart *)
Theorem C78_repeat_refuted :
  let L := [nm "a"] in let R := [nm "a"; grp [lit "b"; lit "c"]] in let R' := [nm "a"; grp [lit "c"; lit "b"]] in
  let s := [(lit "b", 2%Z); (lit "c", 2%Z)] in let len := lens [(lit "a", 2); (lit "b", 2); (lit "c", 2)] in
  call_ok ascii_unicode Repeating (lit "a -> a (b c)") s [2] L R 0 len /\
  call_ok ascii_unicode Repeating (lit "a -> a (c b)") s [2] L R' 0 len /\
  right_groups 0 L R <> right_groups 0 L R' /\
  forall x y : tensor Z, wf x -> shp x = [2] ->
    (repeat_ numpy_like (One x) (lit "a -> a (b c)") s = Ok y <-> repeat_ numpy_like (One x) (lit "a -> a (c b)") s = Ok y).
Proof.
  cbv zeta.
  match goal with |- ?P /\ ?Q /\ _ => assert (H : P) by solve_call (lit "a ") (lit " a (b c)"); assert (H' : Q) by solve_call (lit "a ") (lit " a (c b)") end.
  split; [exact H|]. split; [exact H'|]. split; [discriminate|]. intros x y W S. rewrite <- S in H, H'.
  assert (Nd : NoDup (map fst [(lit "b", 2%Z); (lit "c", 2%Z)])) by solve_NoDup.
  assert (Nr : no_reserved [(lit "b", 2%Z); (lit "c", 2%Z)]) by (intros n Hn X; cbn in Hn; destruct Hn as [<-|[<-|[]]]; cbn in X; intuition discriminate).
  rewrite (repeat_iff numpy_like (runtime_for_ok Numpy) x _ _ _ _ _ _ y Nd W Nr H), (repeat_iff numpy_like (runtime_for_ok Numpy) x _ _ _ _ _ _ y Nd W Nr H').
  split; apply new_axes_same; try reflexivity; solve_NoDup.
Qed.
Print Assumptions C78_repeat_refuted.

(** axes of length 1 are not told apart either *)
Theorem C78_unit_refuted :
  let L := [grp [lit "a"; lit "b"]] in let R := [grp [lit "b"; lit "a"]] in let len := lens [(lit "a", 1); (lit "b", 2)] in
  call_ok ascii_unicode Rearranging (lit "(a b) -> (b a)") [(lit "a", 1%Z)] [2] L R 0 len /\ left_groups 0 L <> right_groups 0 L R /\
  forall a b : Z, rearrange numpy_like (One (mkT [2] [a; b])) (lit "(a b) -> (b a)") [(lit "a", 1%Z)] = Ok (mkT [2] [a; b]).
Proof. cbv zeta. split; [solve_call (lit "(a b) ") (lit " (b a)")|]. split; [discriminate|]. intros a b. vm_compute. reflexivity. Qed.
Print Assumptions C78_unit_refuted.

Example C78_case :
  let L := [grp [lit "a"; lit "b"]; nm "c"] in let R := [nm "b"; grp [lit "a"; lit "c"]] in let R' := [nm "b"; grp [lit "c"; lit "a"]] in
  let len := lens [(lit "a", 2); (lit "b", 2); (lit "c", 2)] in
  call_ok ascii_unicode Rearranging (lit "(a b) c -> b (a c)") [(lit "a", 2%Z)] [4; 2] L R 0 len /\
  call_ok ascii_unicode Rearranging (lit "(a b) c -> b (c a)") [(lit "b", 2%Z)] [4; 2] L R' 0 len /\
  (forall c, In c (concat (left_groups 0 L)) -> 2 <= len c) /\ right_groups 0 L R <> right_groups 0 L R' /\
  exists x, wf x /\ shp x = [4; 2] /\ rearrange numpy_like (One x) (lit "(a b) c -> b (a c)") [(lit "a", 2%Z)] <> rearrange numpy_like (One x) (lit "(a b) c -> b (c a)") [(lit "b", 2%Z)].
Proof.
  cbv zeta. split; [solve_call (lit "(a b) c ") (lit " b (a c)")|]. split; [solve_call (lit "(a b) c ") (lit " b (c a)")|].
  split; [intros c Hc; cbn in Hc; destruct Hc as [<-|[<-|[<-|[]]]]; vm_compute; lia|]. split; [discriminate|].
  exists (iota [4; 2]). split; [apply iota_wf|]. split; [reflexivity|]. vm_compute. discriminate.
Qed.

Example C78_reduce_case :
  let L := [nm "a"; grp [lit "b"; lit "c"]] in let R := [grp [lit "a"; lit "c"]] in let R' := [grp [lit "a"; lit "b"]] in
  let len := lens [(lit "a", 2); (lit "b", 2); (lit "c", 2)] in
  call_ok ascii_unicode Reducing (lit "a (b c) -> (a c)") [(lit "b", 2%Z)] [2; 4] L R 0 len /\
  call_ok ascii_unicode Reducing (lit "a (b c) -> (a b)") [(lit "b", 2%Z)] [2; 4] L R' 0 len /\
  notices (rt_red numpy_like (lit "sum")) 0%Z 1%Z /\ right_groups 0 L R <> right_groups 0 L R' /\
  exists x, wf x /\ shp x = [2; 4] /\ reduce numpy_like (One x) (lit "a (b c) -> (a c)") (RStr (lit "sum")) [(lit "b", 2%Z)] <> reduce numpy_like (One x) (lit "a (b c) -> (a b)") (RStr (lit "sum")) [(lit "b", 2%Z)].
Proof.
  cbv zeta. split; [solve_call (lit "a (b c) ") (lit " (a c)")|]. split; [solve_call (lit "a (b c) ") (lit " (a b)")|].
  split; [apply (fold_notices Z.add 0%Z 1%Z); [reflexivity|reflexivity|discriminate]|]. split; [discriminate|].
  exists (iota [2; 4]). split; [apply iota_wf|]. split; [reflexivity|]. vm_compute. discriminate.
Qed.
