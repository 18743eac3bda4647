(** * Facts: assertions hold whenever they are evaluated *)
From Verif Require Import Py Tensor ListFacts SpecSem SpecGrammar SpecPattern SpecOps Parsing Compile Recipe Ops Backends Api ParseFacts ParseFacts2 ParseFacts3
  RecipeFacts InferFacts ApplyFacts FrontFacts FrontFacts2 FrontFacts3 MainFacts MainFacts2 MainFacts3 CallFacts LayerFacts Unasserted.

Lemma tagged_split g (vs : list Z) : NoDup g -> length vs = length g ->
  let p := fun '((_, v) : axis * Z) => negb (v =? unknown_axis_length)%Z in
  let q := fun '((_, v) : axis * Z) => (v =? unknown_axis_length)%Z in
  length (set_of (map fst (filter q (combine g vs)))) + length (set_of (map fst (filter p (combine g vs)))) = length g.
Proof.
  intros Hn Hl p q.
  assert (Hs : forall f : axis * Z -> bool, NoDup (map fst (filter f (combine g vs)))).
  { intros f. revert vs Hl. induction g as [|a g IH]; intros [|v vs] Hl; try discriminate; [constructor|]. cbn [combine filter].
    inversion Hn as [|? ? Ha Hg]; subst. destruct (f (a, v)); [|apply IH; auto]. cbn [map fst]. constructor; [|apply IH; auto].
    intros Hin. apply in_map_iff in Hin as [[b w] [E Hb]]. cbn in E. subst b. apply filter_In in Hb as [Hb _]. apply in_combine_l in Hb. contradiction. }
  rewrite !set_of_NoDup by apply Hs. rewrite !map_length. clear Hs Hn. revert vs Hl. induction g as [|a g IH]; intros [|v vs] Hl; try discriminate; [reflexivity|].
  cbn [combine filter]. specialize (IH vs ltac:(cbn in Hl; lia)). unfold p, q in *. destruct (v =? unknown_axis_length)%Z; cbn [negb length]; lia.
Qed.

Lemma mapM_len {A B} (f : A -> result B) l bs : mapM f l = Ok bs -> length bs = length l.
Proof.
  revert bs. induction l as [|a l IH]; intros bs H; cbn [mapM] in H; [inversion H; reflexivity|].
  apply bind_Ok in H as [b [_ H]]. apply bind_Ok in H as [bs' [H1 H2]]. inversion H2; subst. cbn. f_equal. apply IH. exact H1.
Qed.

Lemma known_unknown_same o d pos g : NoDup g -> known_unknown_O o d pos g = known_unknown o d pos g.
Proof.
  intros Hn. unfold known_unknown_O, known_unknown. apply bind_ext. intros vs Hvs. cbv zeta. apply bind_ext. intros _ _.
  pose proof (tagged_split g vs Hn (mapM_len _ _ _ Hvs)) as E. cbv zeta in E. rewrite E, Nat.eqb_refl. reflexivity.
Qed.

Section Prepare.
  Context (U : unicode) (HU : unicode_ok U) (o : orders).
  Lemma groups_NoDup p op names n x : frontend U p op names n = Ok x -> forall g, In g (fst (fst (fst x))) -> NoDup g.
  Proof.
    intros H. apply (frontend_iff U p op names n x HU) in H as (L & R & e & w & Hr & _ & _ & Hd & _ & _ & ->). rewrite front_value_eq. cbn [fst].
    intros g Hg. pose proof (front_weak U HU p L R e Hr Hd) as [Hndl _ _ _ _ _]. exact (NoDup_concat_in _ _ Hndl Hg).
  Qed.

  Lemma prepare_same p op names n : prepare_recipe_O U o p op names n = prepare_recipe U o p op names n.
  Proof.
    pose proof (groups_NoDup p op names n) as Hg. unfold frontend in Hg. unfold prepare_recipe_O, prepare_recipe.
    destruct (str_split s_arrow p) as [|l [|r [|? ?]]]; try reflexivity.
    apply bind_ext. intros [lft k] E1. rewrite E1 in Hg. cbn [bind] in Hg. apply bind_ext. intros [rght k'] E2. rewrite E2 in Hg. cbn [bind] in Hg.
    apply bind_ext. intros [] E3. rewrite E3 in Hg. cbn [bind] in Hg. apply bind_ext. intros [] E4. rewrite E4 in Hg. cbn [bind] in Hg.
    apply bind_ext. intros [] E5. rewrite E5 in Hg. cbn [bind] in Hg. apply bind_ext. intros [[[lcomp rcomp] lids] rids] E6.
    specialize (Hg _ E6). cbn [fst] in Hg. cbv zeta. apply bind_ext. intros d3 _.
    rewrite (mapM_ext_in (known_unknown_O o d3 (name2position (known_lengths_add (o 0 rids) (known_lengths_left lcomp)))) (known_unknown o d3 (name2position (known_lengths_add (o 0 rids) (known_lengths_left lcomp)))) lcomp)
      by (intros g Hin; apply known_unknown_same; apply Hg; exact Hin). reflexivity.
  Qed.
End Prepare.

Section Calls.
  Context {A : Type} (r : runtime A) (Hok : runtime_ok r).
  Notation U := (rt_unicode r).
  Notation o := (rt_orders r).
  Notation be := (rt_backend r).

  (** the two ways to reduce agree where an operation can get to *)
  Lemma core_same (red1 red2 : tensor A -> list nat -> result (tensor A)) add_ p (rd : reduction (tensor A)) sizes x : NoDup (map fst sizes) ->
    (match rd with RStr s => str_mem s reductions = true | RCall _ => True end -> forall t axes, red1 t axes = red2 t axes) ->
    core_call U o (rt_lib r) red1 add_ p (op_of rd) sizes x = core_call U o (rt_lib r) red2 add_ p (op_of rd) sizes x.
  Proof.
    intros Hn H. destruct (op_role (op_of rd)) as [w|] eqn:Ew.
    - assert (Hc : w = Reducing \/ w <> Reducing) by (destruct w; [right|right|left]; congruence). destruct Hc as [->|Hc].
      2:{ exact (core_call_nothing U (ro_unicode r Hok) o (ro_orders r Hok) (rt_lib r) red1 red2 add_ p (op_of rd) sizes x w Hn Ew Hc). }
      apply core_call_ext. apply H. destruct rd as [s|f]; [|exact I]. cbn [op_of op_role] in Ew.
      destruct (str_eqb s s_rearrange); [discriminate Ew|]. destruct (str_eqb s s_repeat); [discriminate Ew|]. destruct (str_mem s reductions); [reflexivity|discriminate Ew].
    - unfold core_call. rewrite !prepare_split. destruct (frontend U p (op_of rd) (map fst sizes) (length (int_shape x))) as [v|e] eqn:Ef; [|reflexivity].
      apply (frontend_iff U p _ _ _ v (ro_unicode r Hok)) in Ef as (L & R & e & w & _ & Hw & _). congruence.
  Qed.

  Lemma reduce_one_same x p rd sizes : NoDup (map fst sizes) -> reduce_O r (One x) p rd sizes = reduce r (One x) p rd sizes.
  Proof.
    intros Hn. unfold reduce. unfold rt_backend at 1. rewrite api_core. unfold reduce_O, api_reduce_O. apply bind_ext. intros _ _. cbn [stack_input bind].
    rewrite (prepare_same U (ro_unicode r Hok)).
    transitivity (core_call U o (rt_lib r) (fun t axes => reduce_axes_O be t rd axes) (b_add_axes be) p (op_of rd) sizes x).
    - unfold core_call, apply_recipe_O, rt_backend. destruct (rt_framework r); reflexivity.
    - apply (core_same _ _ (b_add_axes be) p rd sizes x Hn). intros Hm t axes. unfold reduce_axes_O, reduce_axes. destruct rd as [s|f]; [|reflexivity].
      rewrite Hm. reflexivity.
  Qed.
  Lemma reduce_same x p rd sizes : NoDup (map fst sizes) -> reduce_O r x p rd sizes = reduce r x p rd sizes.
  Proof.
    intros Hn. destruct x as [t|ts]; [apply reduce_one_same; exact Hn|].
    assert (E : reduce_O r (Many ts) p rd sizes = let* _ := check_kwargs reserved_kwargs sizes in
      let* t := match ts with [] => Err TypeError | _ => b_stack be ts end in reduce_O r (One t) p rd sizes).
    { unfold reduce_O, api_reduce_O. destruct (check_kwargs reserved_kwargs sizes) as [[]|]; cbn [bind]; [destruct ts|]; reflexivity. }
    rewrite E. unfold reduce at 1. rewrite api_many. apply bind_ext. intros _ _. apply bind_ext. intros t _. apply reduce_one_same. exact Hn.
  Qed.

  Lemma xp_one_same x p rd sizes : NoDup (map fst sizes) -> xp_reduce_O r (One x) p rd sizes = xp_reduce_ r (One x) p rd sizes.
  Proof.
    intros Hn. unfold xp_reduce_, rt_ns. rewrite aa_core. unfold xp_reduce_O, aa_reduce_O, rt_ns. apply bind_ext. intros _ _. cbn [stack_input_array_api bind].
    rewrite (prepare_same U (ro_unicode r Hok)).
    transitivity (core_call U o (rt_lib r) (fun t axes => match rd with RCall f => f t axes | RStr s => t_reduce (rt_red r s) t axes end) aa_add p (op_of rd) sizes x).
    - unfold core_call. apply bind_ext. intros rec _. unfold apply_recipe_array_api_O. apply bind_ext. intros k _. unfold steps.
      apply bind_ext. intros t1 _. apply bind_ext. intros t2 _. replace (match k_reduced k with [] => Ok t2 | _ => match rd with RStr s => xp_reduce (array_api_ns (rt_lib r) (rt_red r)) t2 s (k_reduced k) | RCall f => f t2 (k_reduced k) end end)
        with (match k_reduced k with [] => Ok t2 | _ => match rd with RStr s => t_reduce (rt_red r s) t2 (k_reduced k) | RCall f => f t2 (k_reduced k) end end) by (destruct (k_reduced k); reflexivity).
      apply bind_ext. intros t3 _. destruct (k_added k) as [|q l] eqn:Ea; reflexivity.
    - apply (core_same _ _ aa_add p rd sizes x Hn). intros Hm t axes. unfold aa_reduce_axes. destruct rd as [s|f]; [|reflexivity]. rewrite Hm. reflexivity.
  Qed.
  Lemma xp_same x p rd sizes : NoDup (map fst sizes) -> xp_reduce_O r x p rd sizes = xp_reduce_ r x p rd sizes.
  Proof.
    intros Hn. destruct x as [t|ts]; [apply xp_one_same; exact Hn|].
    assert (E : xp_reduce_O r (Many ts) p rd sizes = let* _ := check_kwargs reserved_kwargs sizes in
      let* t := match ts with [] => Err TypeError | _ => xp_stack (rt_ns r) ts end in xp_reduce_O r (One t) p rd sizes).
    { unfold xp_reduce_O, aa_reduce_O. destruct (check_kwargs reserved_kwargs sizes) as [[]|]; cbn [bind]; [destruct ts|]; reflexivity. }
    rewrite E. unfold xp_reduce_ at 1. rewrite aa_many. apply bind_ext. intros _ _. apply bind_ext. intros t _. apply xp_one_same. exact Hn.
  Qed.
End Calls.
