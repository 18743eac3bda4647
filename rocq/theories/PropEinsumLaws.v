(** * einsum of one tensor in terms of reduce *)
From Verif Require Import Py Tensor SpecSem SpecGrammar SpecForms SpecEinsum SpecPattern SpecOps SpecShape Parsing Recipe Ops Backends Einsum Api EinsumFacts4 EinsumLaws Instances.

(** ** C49: for one tensor, einsum(x, pattern) and reduce(x, pattern, 'sum') with the
    same pattern are the same; the pattern has no parentheses and no numbers *)
Theorem C49_einsum_reduce : forall (A : Type) (r : runtime A) (add mul : A -> A -> A) (zero one : A)
    (lib : pystr -> list (tensor A) -> result (tensor A)) (x : tensor A) (p : pystr) (L R : expr) (e : nat),
  runtime_ok r ->
  (forall a b, add a b = add b a) -> (forall a b c, add a (add b c) = add (add a b) c) ->
  (forall a, add zero a = a) -> (forall a, mul a one = a) ->
  (forall vs, rt_red r (lit "sum") vs = Ok (fold_right add zero vs)) ->
  einsum_contract add mul zero one lib ->
  wf x -> reads (rt_unicode r) p L R -> ungrouped L -> ungrouped R ->
  incl (keys R) (keys L) -> has_dots R = has_dots L ->
  rank_fits L (length (shp x)) e -> length (keys L) <= 52 ->
  exists y, einsum_with (rt_unicode r) lib [inl x; inr p] = Ok y /\ reduce r (One x) p (RStr (lit "sum")) [] = Ok y.
Proof.
  exact (fun A r add mul zero one lib x p L R e Hok Hc Ha Hz Ho Hs Hl =>
    einsum_one r Hok add mul zero one lib Hc Ha Hz Ho Hs Hl x p L R e).
Qed.
Print Assumptions C49_einsum_reduce.

Example C49_case :
  let L := [nm "a"; dots3; nm "b"; nm "c"] in let R := [nm "c"; nm "a"; dots3] in
  let p := lit "a ... b c -> c a ..." in let x := iota [2; 1; 2; 3; 2] in
  reads ascii_unicode p L R /\ ungrouped L /\ ungrouped R /\ incl (keys R) (keys L) /\ rank_fits L (length (shp x)) 2 /\
  (forall vs, rt_red torch_like (lit "sum") vs = Ok (fold_right Z.add 0%Z vs)) /\
  einsum_contract Z.add Z.mul 0%Z 1%Z (ref_einsum Z.add Z.mul 0%Z 1%Z) /\
  exists y, einsum_with ascii_unicode (ref_einsum Z.add Z.mul 0%Z 1%Z) [inl x; inr p] = Ok y /\
    reduce torch_like (One x) p (RStr (lit "sum")) [] = Ok y /\ shp y = [2; 2; 1; 2].
Proof.
  cbv zeta. split; [solve_reads (lit "a ... b c ") (lit " c a ...")|].
  assert (UG : forall s, s <> ell_name -> Atom (AName s) = Atom ADots \/ exists t, Atom (AName s) = Atom (AName t) /\ t <> ell_name) by (intros s Hs; right; exists s; auto).
  split; [intros i Hi; each Hi; subst i; first [left; reflexivity | apply UG; discriminate]|].
  split; [intros i Hi; each Hi; subst i; first [left; reflexivity | apply UG; discriminate]|].
  split; [intros s Hs; vm_compute in Hs; vm_compute; tauto|]. split; [reflexivity|]. split; [reflexivity|]. split; [apply ref_einsum_contract|].
  eexists. split; [vm_compute; reflexivity|]. split; [vm_compute; reflexivity|reflexivity].
Qed.
