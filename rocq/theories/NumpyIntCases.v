(** * Lengths that are integers of numpy: what the missing checks let pass *)
From Verif Require Import Py Tensor Parsing Recipe Ops Backends Api Packing Einsum Cache NumpyInts NumpyIntFacts2 NumpyIntFacts3 Instances.

Definition crossed : list (pystr * anyint) := [(lit "a", NpInt 2); (lit "b", NpInt 3); (lit "c", NpInt 2); (lit "d", NpInt 3)].
Definition p_crossed : pystr := lit "(a b) (c d) -> (a c) (b d)".
(** a tensor of shape 4 x 9, whose axes are taken for 6 x 6 *)
Definition crossed_answer : result (tensor Z) := np_rearrange numpy_like (One (iota [4; 9])) p_crossed crossed.

Lemma crossed_passes : exists y, crossed_answer = Ok y /\ shp y = [4; 9].
Proof. eexists. split; [vm_compute; reflexivity|reflexivity]. Qed.
Lemma crossed_ints : rearrange numpy_like (One (iota [4; 9])) p_crossed (as_ints crossed) = Err EinopsError.
Proof. vm_compute. reflexivity. Qed.

Lemma silent :
  ~ (forall {A} (r : runtime A), runtime_ok r -> forall x pattern (sizes : list (pystr * anyint)) y,
     np_rearrange r (One x) pattern sizes = Ok y -> exists y', rearrange r (One x) pattern (as_ints sizes) = Ok y').
Proof.
  intros H. destruct crossed_passes as (y & E & _). destruct (H Z numpy_like (runtime_for_ok _) _ _ _ _ E) as [y' E']. rewrite crossed_ints in E'. discriminate.
Qed.

Definition after_crossed : caches := snd (cached_np_reduce numpy_like einops_limits (One (iota [4; 9])) p_crossed (RStr s_rearrange) None crossed no_caches).
Lemma after_reachable : reachable_caches anyint_ops anyint_eqb einops_limits (rt_unicode numpy_like) after_crossed.
Proof.
  unfold after_crossed. destruct (cached_np_reduce _ _ _ _ _ _ _ _) as [v st] eqn:E. cbn [snd].
  apply (cached_outcome einops_limits numpy_like (runtime_for_ok _)) in E; [tauto|constructor| |cbn; discriminate].
  repeat constructor; cbn; intuition discriminate.
Qed.
Lemma crossed_remembered : exists y, fst (cached_np_reduce numpy_like einops_limits (One (iota [4; 9])) p_crossed (RStr s_rearrange) None
  (map (fun '(s, z) => (s, PyInt z)) (as_ints crossed)) after_crossed) = Ok y.
Proof. eexists. vm_compute. reflexivity. Qed.

Lemma remembered :
  ~ (forall (lim : limits) {A} (r : runtime A), runtime_ok r -> forall x pattern red id (sizes : list (pystr * Z)) st v st',
     reachable_caches anyint_ops anyint_eqb lim (rt_unicode r) st -> NoDup (map fst sizes) -> opkey_of red id <> None ->
     cached_np_reduce r lim x pattern red id (map (fun '(s, z) => (s, PyInt z)) sizes) st = (v, st') -> v = reduce r x pattern red sizes).
Proof.
  intros H. destruct crossed_remembered as [y E].
  destruct (cached_np_reduce numpy_like einops_limits (One (iota [4; 9])) p_crossed (RStr s_rearrange) None (map (fun '(s, z) => (s, PyInt z)) (as_ints crossed)) after_crossed)
    as [v st'] eqn:Ec. cbn [fst] in E. subst v.
  apply H in Ec; [|apply runtime_for_ok|apply after_reachable|repeat constructor; cbn; intuition discriminate|cbn; discriminate].
  change (Ok y = rearrange numpy_like (One (iota [4; 9])) p_crossed (as_ints crossed)) in Ec. rewrite crossed_ints in Ec. discriminate.
Qed.
