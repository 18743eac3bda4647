(** * Lengths that are integers of numpy: whole calls *)
From Coq Require Import Permutation.
From Verif Require Import Py Tensor ListFacts TensorFacts SpecSem SpecGrammar SpecPattern SpecOps Parsing Recipe Ops Backends Api RecipeFacts StepFacts FrontFacts2
  FrontFacts FrontFacts3 MainFacts MainFacts3 ApiFacts2 ApiFacts4 ApiFacts5 ApiFacts6 LayerFacts Laws Packing Einsum Cache CacheFacts SymFacts NumpyInts NumpyIntFacts.

Lemma py_ev s : Forall2 ev (map PyInt s) s.
Proof. induction s; constructor; [reflexivity|assumption]. Qed.
Lemma py_py s d : In d (map PyInt s) -> is_np d = false.
Proof. intros H. apply in_map_iff in H as [z [<- _]]. reflexivity. Qed.
Lemma as_ints_keys sizes : map fst (as_ints sizes) = map fst sizes.
Proof. unfold as_ints. rewrite map_map. apply map_ext. intros [s n]. reflexivity. Qed.
Lemma as_ints_kwargs sizes : check_kwargs reserved_kwargs (as_ints sizes) = check_kwargs reserved_kwargs sizes.
Proof.
  unfold check_kwargs, as_ints. f_equal. induction sizes as [|[s n] sizes IH]; [reflexivity|]. cbn [map existsb]. rewrite IH. reflexivity.
Qed.

Lemma enumerate_In {C} (l : list C) i c : In (i, c) (enumerate l) -> In c l.
Proof.
  unfold enumerate. generalize 0. induction l as [|d l IH]; intros n H; cbn in H; [contradiction|].
  destruct H as [E|H]; [injection E as _ ->; left; reflexivity|right; exact (IH _ H)].
Qed.

(** any lengths: the checks may be passed over *)
Lemma reconstruct_loose rec sh s sizes : Forall2 ev sh s ->
  fsim skipped (fun k1 k2 => cooked_value k1 = k2) (reconstruct anyint_ops rec sh sizes) (reconstruct int_ops rec s (as_ints sizes)).
Proof.
  intros Hs. apply (reconstruct_fsim skipped []); [exact Hs|right; split; [auto|reflexivity]|]. intros name z p _ _ [].
Qed.

Section Calls.
  Context {A : Type} (r : runtime A) (Hok : runtime_ok r).
  Notation U := (rt_unicode r).
  Notation B := (rt_backend r).
  Implicit Types (x : input (tensor A)) (pattern : pystr) (sizes : list (pystr * anyint)) (red : reduction (tensor A)).

  Lemma call_fsim slack o x pattern red sizes :
    (forall t rec, stack_input B x = Ok t -> prepare_recipe U o pattern (op_of red) (map fst sizes) (length (b_shape B t)) = Ok rec ->
       fsim slack (fun k1 k2 => cooked_value k1 = k2) (reconstruct anyint_ops rec (map PyInt (b_shape B t)) sizes) (reconstruct int_ops rec (b_shape B t) (as_ints sizes))) ->
    fsim slack eq (api_reduce U o anyint_ops (anyint_backend B) x pattern red sizes) (api_reduce U o int_ops B x pattern red (as_ints sizes)).
  Proof.
    intros H. unfold api_reduce. rewrite as_ints_kwargs, as_ints_keys.
    apply (fsim_bind _ eq); [apply fsim_same|]. intros _ _ _.
    change (stack_input (anyint_backend B) x) with (stack_input B x).
    destruct (stack_input B x) as [t|e] eqn:Et; [|cbn; auto]. cbn [bind anyint_backend b_shape]. rewrite map_length.
    destruct (prepare_recipe U o pattern (op_of red) (map fst sizes) (length (b_shape B t))) as [rec|e] eqn:Ep; [|cbn; auto].
    cbn [bind]. unfold apply_recipe. change (b_shape (anyint_backend B) t) with (map PyInt (b_shape B t)).
    apply (fsim_bind _ (fun k1 k2 => cooked_value k1 = k2)); [exact (H t rec eq_refl Ep)|]. intros k1 k2 <-.
    rewrite apply_value. apply fsim_same.
  Qed.

  Lemma same_outcome x pattern red sizes :
    np_reduce r x pattern red sizes = reduce r x pattern red (as_ints sizes) \/
    reduce r x pattern red (as_ints sizes) = Err EinopsError \/ reduce r x pattern red (as_ints sizes) = Err ZeroDivisionError.
  Proof.
    pose proof (call_fsim skipped (rt_orders r) x pattern red sizes (fun t rec _ _ => reconstruct_loose rec _ _ sizes (py_ev _))) as G.
    unfold np_reduce, reduce. destruct (api_reduce _ _ anyint_ops _ _ _ _ _) as [a|e], (api_reduce _ _ int_ops _ _ _ _ _) as [b|e']; cbn in G.
    - left. congruence.
    - destruct G as [->| ->]; auto.
    - contradiction.
    - destruct G as [->|[->| ->]]; auto.
  Qed.

  (** lengths of new axes *)
  Lemma new_axes_outcome x pattern red sizes :
    (forall L R s z, reads U pattern L R -> In (s, NpInt z) sizes -> ~ In s (keys L)) ->
    np_reduce r x pattern red sizes = reduce r x pattern red (as_ints sizes).
  Proof.
    intros Hnew.
    assert (G : fsim (fun _ => False) eq (np_reduce r x pattern red sizes) (reduce r x pattern red (as_ints sizes))).
    { apply call_fsim. intros t rec _ Ep.
      pose proof (proj1 (prepare_iff U (rt_orders r) pattern (op_of red) (map fst sizes) (length (b_shape B t)) (ro_unicode _ Hok) (ro_orders _ Hok)) (ex_intro _ rec Ep))
        as (L0 & R0 & e0 & Hp0 & _).
      apply (prepare_closed U (ro_unicode _ Hok) (rt_orders r) (ro_orders _ Hok)) in Ep as (L & R & e & w & Hr & Hw & Hi & Hd & Hg & Hk & ->).
      destruct (reads_fun U (ro_unicode _ Hok) pattern L0 R0 L R (pr_reads _ _ _ _ _ _ _ Hp0) Hr) as [-> ->].
      set (names := map fst sizes) in *. set (lcomp := map (map axis_of) (left_groups e L)). set (rcomp := map (map axis_of) (right_groups e L R)).
      set (l := all_axes (rt_orders r) lcomp (rids_of L R e)).
      apply (reconstruct_fsim _ (map (pos_in l) (concat lcomp))).
      - apply py_ev.
      - left. split; [|intros d Hin; eapply py_py; eauto]. intros i known unknown Hin. unfold closed_recipe in Hin. cbn [r_input] in Hin. fold l in Hin.
        assert (Hin' : In (known, unknown) (map (fun g => (map (pos_in l) (rt_orders r 1 (filter (is_known names) g)),
                          map (pos_in l) (filter (fun a => negb (is_known names a)) g))) lcomp)).
        { exact (enumerate_In _ _ _ Hin). }
        apply in_map_iff in Hin' as [g [E Hg']]. injection E as <- _. intros p Hp. apply in_map_iff in Hp as [a [<- Ha]]. apply in_map.
        apply in_concat. exists g. split; [exact Hg'|].
        eapply Permutation_in in Ha; [|apply (ro_orders _ Hok)]. apply filter_In in Ha. tauto.
      - intros name z p Hin Ed Hp. unfold closed_recipe in Ed. cbn [r_name2elem] in Ed. fold l in Ed.
        assert (Hn : In name names) by (apply in_map_iff; exists (name, NpInt z); auto).
        assert (Ep : p = pos_in l (AxName name)).
        { clear -Ed. induction names as [|s names IH]; [discriminate|]. cbn in Ed. destruct (str_eqb name s) eqn:E; [|auto].
          apply str_eqb_eq in E. subst s. congruence. }
        subst p. apply in_map_iff in Hp as [a [E Ha]].
        destruct (pr_names _ _ _ _ _ _ _ Hp0 name Hn) as [Hne Hkeys].
        assert (HnL : ~ In name (keys L)) by (eapply Hnew; eauto).
        apply in_app_or in Hkeys as [Hkeys|Hkeys]; [contradiction|].
        assert (Hname : In (AxName name) l).
        { apply all_axes_In; [apply (ro_orders _ Hok)|]. apply (rcomp_rids L R e Hd).
          apply (in_right L R e Hd). left. split; [exact Hkeys|]. right. exact Hne. }
        assert (Hal : In a l) by (apply all_axes_In; [apply (ro_orders _ Hok)|left; exact Ha]).
        pose proof (pos_in_inj l a (AxName name) Hal Hname E) as ->.
        apply (in_left L R e Hd) in Ha. destruct Ha as [[Ha _]|[_ [_ [i [_ Ha]]]]]; [contradiction|].
        apply (name_not_ell_axis U name i (ro_unicode _ Hok)) in Ha; [exact Ha|]. eapply key_plain_R; eauto. }
    destruct (np_reduce r x pattern red sizes), (reduce r x pattern red (as_ints sizes)); cbn in G; try contradiction; [congruence|].
    destruct G as [->|[]]. reflexivity.
  Qed.
End Calls.

Section Elements.
  Context {A : Type}.
  Implicit Types (t y : tensor A).

  Lemma is_permutation_spec p n : is_permutation p n = true -> Permutation p (seq 0 n).
  Proof.
    unfold is_permutation. intros H. apply andb_true_iff in H as [H H3]. apply andb_true_iff in H as [H1 H2].
    apply Nat.eqb_eq in H1. rewrite forallb_forall in H2.
    assert (Hn : NoDup p).
    { clear -H3. induction p as [|a p IH]; [constructor|]. cbn in H3. apply andb_true_iff in H3 as [Ha Hp]. constructor; [|auto].
      intros Hin. apply negb_true_iff in Ha. unfold nat_mem in Ha. assert (X : existsb (Nat.eqb a) p = true) by (apply existsb_exists; exists a; split; [exact Hin|apply Nat.eqb_refl]). congruence. }
    apply NoDup_Permutation_bis; [exact Hn|rewrite seq_length; lia|]. intros a Ha. apply in_seq. specialize (H2 a Ha). apply Nat.ltb_lt in H2. lia.
  Qed.

  Lemma transpose_permutes t p y : wf t -> t_transpose t p = Ok y -> wf y /\ Permutation (dat t) (dat y).
  Proof.
    intros Hw E. assert (Hp : is_permutation p (length (shp t)) = true) by (unfold t_transpose in E; destruct (is_permutation p (length (shp t))); [reflexivity|discriminate]).
    apply is_permutation_spec in Hp. set (n := length (shp t)) in *.
    set (len := fun l => match l with LDots k => nth k (shp t) 0 | _ => 0 end).
    set (ns := map LDots (seq 0 n)). set (ms := map LDots p).
    assert (Hns : NoDup ns) by (apply FinFun.Injective_map_NoDup; [intros a b X; congruence|apply seq_NoDup]).
    assert (Hshape : map len ns = shp t).
    { unfold ns, len, n. rewrite map_map. clear. induction (shp t) as [|d s IH]; [reflexivity|]. cbn [length seq map nth]. f_equal.
      rewrite <- seq_shift, map_map. exact IH. }
    assert (Rt : repr t ns len (fun ix => getr t (map ix ns))) by (split; [exact Hw|split; [symmetry; exact Hshape|reflexivity]]).
    destruct (transpose_repr label_eqb label_eqb_eq t ns ms len (fun ix => getr t (map ix ns)) p Hns) as (y' & E' & Wy & Sy & Gy).
    - apply Permutation_map, Permutation_sym, Hp.
    - assert (F : forall k, In k p -> k < n) by (intros k Hk; eapply Permutation_in in Hk; [|exact Hp]; apply in_seq in Hk; lia).
      unfold ms. clear -F Hns. induction p as [|k p IH]; constructor.
      + apply (index_of_nth label_eqb label_eqb_eq); [exact Hns|]. unfold ns. apply map_nth_error.
        rewrite (nth_error_nth' (seq 0 n) 0) by (rewrite seq_length; apply F; left; reflexivity). rewrite seq_nth by (apply F; left; reflexivity). reflexivity.
      + apply IH. intros q Hq. apply F. right. exact Hq.
    - exact Rt.
    - rewrite E' in E. injection E as <-. split; [exact Wy|].
      assert (Hms : NoDup ms) by (eapply Permutation_NoDup; [apply Permutation_map, Permutation_sym, Hp|exact Hns]).
      assert (S1 : forall l : list label, Forall (fun g => length g = 1) (map (fun a => [a]) l)) by (intros l; induction l; constructor; auto).
      apply (moves_permutes (map (fun a => [a]) ns) (map (fun a => [a]) ms) len); rewrite ?concat_single; auto.
      + intros a Ha. eapply Permutation_in; [apply Permutation_map, Permutation_sym, Hp|exact Ha].
      + intros a Ha. eapply Permutation_in; [apply Permutation_map, Hp|exact Ha].
      + rewrite gshape_single by apply S1. rewrite concat_single. symmetry. exact Hshape.
      + split; [exact Wy|]. rewrite gshape_single by apply S1. rewrite concat_single. split; [exact Sy|].
        intros ix Hi. rewrite !gindex_single by apply S1. rewrite !concat_single in *.
        assert (X : getr y' (map ix ms) = getr t (map ix ns)) by (apply Gy; intros a Ha; apply Hi, in_or_app; right; exact Ha).
        unfold getr in X. destruct (get y' (map ix ms)), (get t (map ix ns)); cbn in X; congruence.
  Qed.
End Elements.
