(** * Calls do not depend on set orders nor on the order of the sizes *)
From Verif Require Import Py Tensor ListFacts TensorFacts SpecSem SpecGrammar SpecPattern SpecOps Parsing Compile Recipe Ops Backends Api StepFacts ParseFacts ParseFacts2 ParseFacts3 RecipeFacts InferFacts ApplyFacts FrontFacts FrontFacts2 FrontFacts3 MainFacts MainFacts2 ReduceFacts MainFacts3.

Lemma odd_cases L R e : (odd_pattern L R -> e = 0) \/ (odd_pattern L R /\ e <> 0).
Proof.
  destruct (Nat.eq_dec e 0) as [He|He]; [left; auto|].
  destruct (has_dots L) eqn:EL; [|left; intros [X _]; congruence].
  destruct (has_dots R) eqn:ER; [left; intros [_ [X _]]; congruence|].
  destruct (in_dec str_eq_dec ell_name (keys R)); [right; repeat split; auto|left; intros [_ [_ X]]; contradiction].
Qed.

Lemma str_mem_perm s l m : Permutation l m -> str_mem s l = str_mem s m.
Proof.
  intros H. destruct (str_mem s m) eqn:E.
  - apply str_mem_In. apply str_mem_In in E. eapply Permutation_in; [apply Permutation_sym|]; eauto.
  - destruct (str_mem s l) eqn:E'; auto. apply str_mem_In in E'. rewrite <- E. symmetry. apply str_mem_In. eapply Permutation_in; eauto.
Qed.

Lemma is_known_perm names names' a : Permutation names names' -> is_known names a = is_known names' a.
Proof. intros H. destruct a; simpl; auto. apply str_mem_perm; auto. Qed.

Lemma forallb_perm {B} (p : B -> bool) l m : Permutation l m -> forallb p l = forallb p m.
Proof.
  intros H. destruct (forallb p m) eqn:E.
  - rewrite forallb_forall in *. intros x Hx. apply E. eapply Permutation_in; eauto.
  - destruct (forallb p l) eqn:E'; auto. rewrite <- E. symmetry. rewrite forallb_forall in *. intros x Hx. apply E'.
    eapply Permutation_in; [apply Permutation_sym|]; eauto.
Qed.

Lemma dict_get_perm {V} (d d' : list (pystr * V)) s : NoDup (map fst d) -> Permutation d d' ->
  dict_get str_eqb s d = dict_get str_eqb s d'.
Proof.
  intros Hn Hp. assert (Hn' : NoDup (map fst d')) by (eapply Permutation_NoDup; [apply Permutation_map|]; eauto).
  destruct (in_dec str_eq_dec s (map fst d)) as [H|H].
  - destruct (dict_get_In d s H) as [v [E Hv]]. rewrite E. symmetry. apply dict_get_NoDup; auto. eapply Permutation_in; eauto.
  - assert (N : forall (e : list (pystr * V)), ~ In s (map fst e) -> dict_get str_eqb s e = None).
    { induction e as [|[k v] e IH]; simpl; intros Hs; auto. destruct (str_eqb s k) eqn:E; [|apply IH; tauto].
      unfold str_eqb in E. destruct (str_eq_dec s k); [exfalso; subst; tauto|discriminate]. }
    rewrite !N; auto. intros X. apply H. eapply Permutation_in; [apply Permutation_sym, Permutation_map|]; eauto.
Qed.

Lemma frontend_perm U pattern op names names' n : Permutation names names' ->
  frontend U pattern op names n = frontend U pattern op names' n.
Proof.
  intros Hp. unfold frontend. destruct (str_split s_arrow pattern) as [|l [|r [|? ?]]]; auto.
  apply bind_ext. intros [lft next] _. apply bind_ext. intros [rght nx] _.
  apply bind_ext. intros _ _. apply bind_ext. intros _ _.
  assert (E : check_identifiers op lft rght names = check_identifiers op lft rght names'); [|rewrite E; reflexivity].
  unfold check_identifiers. destruct op as [s|]; auto. destruct (str_eqb s s_rearrange); auto.
  destruct (str_eqb s s_repeat); auto. apply bind_ext. intros _ _.
  assert (E : forall l, set_diff l (p_identifiers lft ++ map AxName names) = set_diff l (p_identifiers lft ++ map AxName names'));
    [|rewrite E; reflexivity].
  intros k. unfold set_diff. apply filter_ext. intros a. f_equal. apply axis_mem_iff.
  rewrite !in_app_iff, !in_map_iff.
  split; intros [H|[s' [H1 H2]]]; auto; right; exists s'; split; auto; first [eapply Permutation_in; eassumption|eapply Permutation_in; [apply Permutation_sym|]; eassumption].
Qed.

Section Inv.
  Context {A : Type} (U : unicode) (HU : unicode_ok U) (o o' : orders) (Ho : orders_ok o) (Ho' : orders_ok o') (lib : bool).
  Context (reduce_ : tensor A -> list nat -> result (tensor A)).
  Context (add_ : tensor A -> nat -> list (nat * Z) -> result (tensor A)).

  Lemma ref_step_perm names names' st st' x :
    Permutation names names' -> snd st = snd st' -> (forall a, fst st a = fst st' a) ->
    match ref_step names st x, ref_step names' st' x with
    | Ok r, Ok r' => snd r = snd r' /\ forall a, fst r a = fst r' a
    | Err e, Err e' => e = e'
    | _, _ => False
    end.
  Proof.
    intros Hp Hs Hf. destruct st as [env need], st' as [env' need'], x as [n g]. simpl in Hs, Hf. subst need'.
    unfold ref_step.
    rewrite (filter_ext (is_known names) (is_known names')) by (intros a; apply is_known_perm; auto).
    rewrite (filter_ext (fun a => negb (is_known names a)) (fun a => negb (is_known names' a)))
      by (intros a; f_equal; apply is_known_perm; auto).
    rewrite (map_ext env env' Hf).
    destruct (filter (is_known names') g) as [|k ks]; destruct (filter (fun a => negb (is_known names' a)) g) as [|u [|u2 us]];
      cbn [bind];
      repeat match goal with |- context [if ?c then _ else _] => destruct c; cbn [bind fst snd] end;
      repeat split; auto; intros a; simpl; unfold upd; try (match goal with |- context [axis_eqb ?b a] => destruct (axis_eqb b a) end); auto.
  Qed.

  Lemma ref_infer_perm names names' shape lcomp st st' :
    Permutation names names' -> snd st = snd st' -> (forall a, fst st a = fst st' a) ->
    match ref_infer names shape lcomp st, ref_infer names' shape lcomp st' with
    | Ok r, Ok r' => snd r = snd r' /\ forall a, fst r a = fst r' a
    | Err e, Err e' => e = e'
    | _, _ => False
    end.
  Proof.
    intros Hp. unfold ref_infer. generalize (combine shape lcomp). intros l. revert st st'.
    induction l as [|x l IH]; intros st st' Hs Hf; cbn [foldM]; auto.
    pose proof (ref_step_perm names names' st st' x Hp Hs Hf) as H.
    destruct (ref_step names st x), (ref_step names' st' x); cbn [bind]; try contradiction; auto.
    apply IH; tauto.
  Qed.

  Lemma closed_cooked_order lcomp rcomp lids rids env env' need :
    resolved lcomp rcomp lids rids -> (forall a, env a = env' a) ->
    closed_cooked o lcomp rcomp rids env need = closed_cooked o' lcomp rcomp rids env' need.
  Proof.
    intros HR He. unfold closed_cooked.
    assert (F : forall q (e : axis -> Z), firstn (length (order_after_of lcomp rcomp rids)) (map e (all_axes q lcomp rids)) = map e (concat lcomp)).
    { intros q e. rewrite <- (Permutation_length (order_after_perm _ _ _ _ HR)). unfold all_axes. rewrite map_app.
      rewrite <- (map_length e (concat lcomp)). apply firstn_exact. }
    rewrite !F. rewrite (map_ext _ _ He).
    rewrite (map_ext (fun '(i, a) => (i, env a)) (fun '(i, a) => (i, env' a))) by (intros [i a]; rewrite He; auto).
    rewrite (map_ext (fun g => prodZ (map env g)) (fun g => prodZ (map env' g))) by (intros g; rewrite (map_ext _ _ He); auto).
    reflexivity.
  Qed.

  Lemma core_call_inv pattern op sizes sizes' (x : tensor A) :
    NoDup (map fst sizes) -> Permutation sizes sizes' ->
    core_call U o lib reduce_ add_ pattern op sizes x = core_call U o' lib reduce_ add_ pattern op sizes' x.
  Proof.
    intros Hn Hp.
    assert (Hpn : Permutation (map fst sizes) (map fst sizes')) by (apply Permutation_map; auto).
    assert (Hn' : NoDup (map fst sizes')) by (eapply Permutation_NoDup; eauto).
    destruct (frontend U pattern op (map fst sizes) (length (int_shape x))) as [v|ef] eqn:Ef.
    2:{ unfold core_call. rewrite !prepare_split. rewrite <- (frontend_perm U pattern op _ _ _ Hpn), Ef. reflexivity. }
    pose proof Ef as Ef'. rewrite (frontend_perm U pattern op _ _ _ Hpn) in Ef'.
    apply frontend_iff in Ef as [L [R [e [w [Hr [Hw [Hi [Hd [Hg [Hk Hv]]]]]]]]]]; auto.
    apply frontend_iff in Ef' as [L' [R' [e' [w' [Hr' [Hw' [Hi' [Hd' [Hg' [Hk' _]]]]]]]]]]; auto.
    destruct (reads_fun U HU pattern L R L' R' Hr Hr') as [<- <-].
    assert (w' = w) as -> by congruence.
    unfold int_shape in Hk, Hk'. rewrite map_length in Hk, Hk'.
    assert (e' = e) as ->.
    { clear -Hk Hk'. unfold rank_fits in *. destruct (has_dots L); lia. }
    rewrite (call_split U HU o Ho lib reduce_ add_ pattern op sizes x Hn L R e w) by auto.
    rewrite (call_split U HU o' Ho' lib reduce_ add_ pattern op sizes' x Hn' L R e w) by auto.
    unfold names_ok. rewrite (forallb_perm _ _ _ Hpn).
    assert (Eg : groups_ok (map fst sizes) (map (map axis_of) (left_groups e L)) = groups_ok (map fst sizes') (map (map axis_of) (left_groups e L))).
    { unfold groups_ok. apply forallb_ext_in. intros g _. do 2 f_equal. apply filter_ext. intros a. f_equal. apply is_known_perm; auto. }
    rewrite Eg. destruct (forallb _ (map fst sizes')); auto. destruct (groups_ok (map fst sizes') _); auto.
    unfold after_front.
    assert (H := ref_infer_perm (map fst sizes) (map fst sizes') (int_shape x) (map (map axis_of) (left_groups e L)) (env0 sizes, false) (env0 sizes', false) Hpn eq_refl).
    assert (H0 : forall a, fst (env0 sizes, false) a = fst (env0 sizes', false) a).
    { intros [s|k n]; simpl; auto. rewrite (dict_get_perm _ _ s Hn Hp). reflexivity. }
    specialize (H H0).
    destruct (ref_infer (map fst sizes) _ _ _) as [[env need]|ex], (ref_infer (map fst sizes') _ _ _) as [[env' need']|ex']; cbn [bind]; try contradiction.
    - destruct H as [H1 H2]. simpl in H1, H2. subst need'.
      destruct (odd_cases L R e) as [Hpl|[Hodd He]].
      + rewrite (closed_cooked_order _ _ (lids_of L e) _ env env' need); auto. eapply front_resolved; eauto.
      + rewrite !(steps_odd U HU _ lib reduce_ add_ pattern); auto.
    - subst; reflexivity.
  Qed.
End Inv.

(** ** the functions themselves *)
Section Api.
  Context {A : Type} (U : unicode) (HU : unicode_ok U).
  Context (lib : bool) (red : pystr -> list A -> result A) (isf : tensor A -> bool) (num : nat -> A).
  Notation be f := (backend_of lib red isf num f).
  Notation ns := (array_api_ns lib red).

  Lemma api_many {T D} o (O : dim_ops D) (B : backend T D) ts pattern rd sizes :
    api_reduce U o O B (Many ts) pattern rd sizes =
    let* _ := check_kwargs reserved_kwargs sizes in
    let* t := match ts with [] => Err TypeError | _ => b_stack B ts end in
    api_reduce U o O B (One t) pattern rd sizes.
  Proof.
    unfold api_reduce. destruct (check_kwargs reserved_kwargs sizes) as [[]|]; cbn [bind]; [destruct ts|]; reflexivity.
  Qed.

  Lemma aa_many {T} o (X : array_ns T) ts pattern rd sizes :
    aa_reduce U o X (Many ts) pattern rd sizes =
    let* _ := check_kwargs reserved_kwargs sizes in
    let* t := match ts with [] => Err TypeError | _ => xp_stack X ts end in
    aa_reduce U o X (One t) pattern rd sizes.
  Proof.
    unfold aa_reduce. destruct (check_kwargs reserved_kwargs sizes) as [[]|]; cbn [bind]; [destruct ts|]; reflexivity.
  Qed.

  Definition aa_reduce_axes (rd : reduction (tensor A)) (t : tensor A) (axes : list nat) : result (tensor A) :=
    match rd with
    | RCall f => f t axes
    | RStr s => let* _ := raise_if (negb (str_mem s reductions)) AssertionError in t_reduce (red s) t axes
    end.

  Lemma aa_core o x pattern rd sizes :
    aa_reduce U o ns (One x) pattern rd sizes =
    let* _ := check_kwargs reserved_kwargs sizes in
    core_call U o lib (aa_reduce_axes rd) aa_add pattern (op_of rd) sizes x.
  Proof.
    unfold aa_reduce. apply bind_ext. intros _ _. cbn [stack_input_array_api bind]. apply bind_ext. intros r _.
    unfold apply_recipe_array_api. apply bind_ext. intros k _. unfold apply_cooked_array_api, steps.
    apply bind_ext. intros t1 _. apply bind_ext. intros t2 _.
    assert (E : match k_reduced k with [] => Ok t2 | n :: l =>
        match rd with RStr s => let* _ := raise_if (negb (str_mem s reductions)) AssertionError in xp_reduce ns t2 s (k_reduced k)
        | RCall f => f t2 (k_reduced k) end end
      = match k_reduced k with [] => Ok t2 | _ => aa_reduce_axes rd t2 (k_reduced k) end).
    { destruct (k_reduced k); auto; destruct rd; reflexivity. }
    rewrite E. apply bind_ext. intros t3 _.
    destruct (k_added k) as [|p l] eqn:Ea; reflexivity.
  Qed.

  Lemma check_kwargs_perm (sizes sizes' : list (pystr * Z)) : Permutation sizes sizes' ->
    check_kwargs reserved_kwargs sizes = check_kwargs reserved_kwargs sizes'.
  Proof.
    intros H. destruct (check_kwargs reserved_kwargs sizes) as [[]|e] eqn:E; symmetry.
    - rewrite check_kwargs_iff in *. intros s Hs. apply E. eapply Permutation_in; [apply Permutation_sym, Permutation_map|]; eauto.
    - destruct (check_kwargs reserved_kwargs sizes') as [[]|e'] eqn:E'.
      + rewrite <- E. symmetry. rewrite check_kwargs_iff in *. intros s Hs. apply E'. eapply Permutation_in; [apply Permutation_map|]; eauto.
      + unfold check_kwargs, raise_if in *. destruct (existsb _ sizes), (existsb _ sizes'); congruence.
  Qed.

  Lemma api_inv f o o' x pattern rd sizes sizes' : orders_ok o -> orders_ok o' ->
    NoDup (map fst sizes) -> Permutation sizes sizes' ->
    api_reduce U o int_ops (be f) x pattern rd sizes = api_reduce U o' int_ops (be f) x pattern rd sizes'.
  Proof.
    intros Ho Ho' Hn Hp.
    assert (H : forall t, api_reduce U o int_ops (be f) (One t) pattern rd sizes = api_reduce U o' int_ops (be f) (One t) pattern rd sizes').
    { intros t. rewrite !api_core. rewrite (check_kwargs_perm _ _ Hp). apply bind_ext. intros _ _. apply core_call_inv; auto. }
    destruct x as [t|ts]; auto. rewrite !api_many, (check_kwargs_perm _ _ Hp). apply bind_ext. intros _ _.
    apply bind_ext. intros t _. auto.
  Qed.

  Lemma aa_inv o o' x pattern rd sizes sizes' : orders_ok o -> orders_ok o' ->
    NoDup (map fst sizes) -> Permutation sizes sizes' ->
    aa_reduce U o ns x pattern rd sizes = aa_reduce U o' ns x pattern rd sizes'.
  Proof.
    intros Ho Ho' Hn Hp.
    assert (H : forall t, aa_reduce U o ns (One t) pattern rd sizes = aa_reduce U o' ns (One t) pattern rd sizes').
    { intros t. rewrite !aa_core. rewrite (check_kwargs_perm _ _ Hp). apply bind_ext. intros _ _. apply core_call_inv; auto. }
    destruct x as [t|ts]; auto. rewrite !aa_many, (check_kwargs_perm _ _ Hp). apply bind_ext. intros _ _.
    apply bind_ext. intros t _. auto.
  Qed.
End Api.
