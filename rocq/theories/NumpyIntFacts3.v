(** * Lengths that are integers of numpy: elements and caches *)
From Coq Require Import Permutation.
From Verif Require Import Py Tensor ListFacts TensorFacts SpecSem SpecGrammar SpecPattern SpecOps Parsing Recipe Ops Backends Api
  ApiFacts4 ApiFacts5 ApiFacts6 ElementFacts Packing Einsum Cache CacheFacts SymFacts NumpyInts NumpyIntFacts NumpyIntFacts2.

Lemma resolve_size lib n s s' : resolve_shape lib n s = Ok s' -> prodn s' = n.
Proof.
  unfold resolve_shape. destruct (all_nonneg s) eqn:En.
  - destruct (prodn (to_nats s) =? n) eqn:E; [|discriminate]. intros H. injection H as <-. apply Nat.eqb_eq, E.
  - destruct ((length (filter (is_infer lib) s) =? 1) && all_nonneg (filter (fun d => negb (is_infer lib d)) s)) eqn:E1; [|discriminate].
    destruct (prodn (to_nats (filter (fun d => negb (is_infer lib d)) s)) =? 0) eqn:E2; [discriminate|].
    destruct (n mod prodn (to_nats (filter (fun d => negb (is_infer lib d)) s)) =? 0) eqn:E3; [|discriminate].
    intros H. injection H as <-. apply andb_true_iff in E1 as [E1 _]. apply Nat.eqb_eq in E1, E3. apply Nat.eqb_neq in E2.
    set (q := prodn (to_nats (filter (fun d => negb (is_infer lib d)) s))) in *.
    assert (G : forall v l, prodn (map (fun d => if is_infer lib d then v else Z.to_nat d) l) =
                v ^ length (filter (is_infer lib) l) * prodn (to_nats (filter (fun d => negb (is_infer lib d)) l))).
    { intros v l. induction l as [|d l IH]; [reflexivity|]. cbn [map filter]. destruct (is_infer lib d); cbn [negb prodn fold_right length to_nats map Nat.pow].
      - unfold prodn in IH. rewrite IH. unfold prodn, to_nats. lia.
      - unfold prodn in IH. rewrite IH. unfold prodn, to_nats. lia. }
    rewrite G, E1. cbn [Nat.pow]. fold q. rewrite Nat.mul_1_r, Nat.mul_comm. symmetry. apply Nat.div_exact; assumption.
Qed.

Section Elements.
  Context {A : Type} (r : runtime A) (Hok : runtime_ok r).
  Notation U := (rt_unicode r).
  Notation B := (rt_backend r).

  Lemma reshape_elements (t y : tensor A) s : wf t -> b_reshape B t s = Ok y -> wf y /\ dat y = dat t.
  Proof.
    intros Hw E. rewrite backend_reshape in E. unfold t_reshape in E. apply bind_Ok in E as [s' [E1 E2]]. injection E2 as <-.
    apply resolve_size in E1. split; [|reflexivity]. unfold wf in *. cbn [dat shp]. rewrite E1. exact Hw.
  Qed.

  Lemma tensor_elements x t pattern sizes y : stack_input B x = Ok t -> wf t -> np_rearrange r x pattern sizes = Ok y -> Permutation (dat t) (dat y).
  Proof.
    intros Et Hw E. unfold np_rearrange, np_reduce, api_reduce in E. apply bind_Ok in E as [[] [_ E]].
    change (stack_input (anyint_backend B) x) with (stack_input B x) in E. rewrite Et in E. cbn [bind] in E.
    apply bind_Ok in E as [rec [Ep E]]. apply bind_Ok in E as [k [Ek E]]. rewrite apply_value in E.
    assert (Ha : k_added k = []).
    { apply (no_added U (ro_unicode _ Hok) (rt_orders r) (ro_orders _ Hok)) in Ep; [|cbn; discriminate].
      unfold reconstruct in Ek. apply bind_Ok in Ek as [al [_ Ek]]. apply bind_Ok in Ek as [[al' nd] [_ Ek]]. apply bind_Ok in Ek as [gs [_ Ek]].
      apply bind_Ok in Ek as [ad [Ea Ek]]. rewrite Ep in Ea. cbn in Ea. injection Ea as <-. injection Ek as <-. reflexivity. }
    unfold apply_cooked in E. apply bind_Ok in E as [t1 [E1 E]]. apply bind_Ok in E as [t2 [E2 E]]. apply bind_Ok in E as [t3 [E3 E]]. apply bind_Ok in E as [t4 [E4 E]].
    cbn [cooked_value k_init k_reorder k_reduced k_added k_final] in *. rewrite Ha in E4. cbn [map] in E4. injection E4 as <-.
    assert (H1 : wf t1 /\ dat t1 = dat t).
    { destruct (k_init k) as [s|]; cbn [option_map] in E1; [exact (reshape_elements _ _ _ Hw E1)|injection E1 as <-; auto]. }
    destruct H1 as [W1 D1]. rewrite <- D1. clear Et D1.
    assert (H2 : wf t2 /\ Permutation (dat t1) (dat t2)).
    { destruct (k_reorder k) as [p|]; [rewrite backend_transpose in E2; exact (transpose_permutes _ _ _ W1 E2)|injection E2 as <-; auto]. }
    destruct H2 as [W2 D2]. etransitivity; [exact D2|].
    assert (E3' : t3 = t2).
    { destruct (k_reduced k); [congruence|]. cbn in E3. discriminate. }
    subst t3. destruct (k_final k) as [s|]; cbn [option_map] in E; [|injection E as <-; reflexivity].
    apply reshape_elements in E as [_ E]; [|exact W2]. rewrite E. reflexivity.
  Qed.

  Lemma one_elements x pattern sizes y : wf x -> np_rearrange r (One x) pattern sizes = Ok y -> Permutation (dat x) (dat y).
  Proof. intros Hw E. exact (tensor_elements (One x) x pattern sizes y eq_refl Hw E). Qed.
  Lemma many_elements ts pattern sizes y : (forall t, In t ts -> wf t) -> np_rearrange r (Many ts) pattern sizes = Ok y -> Permutation (flat_map dat ts) (dat y).
  Proof.
    intros Hw E. destruct (stack_input B (Many ts)) as [t|e] eqn:Et.
    - assert (Es : t_stack ts = Ok t) by (cbn [stack_input] in Et; destruct ts; [discriminate|]; rewrite backend_stack in Et; exact Et).
      rewrite <- (stack_data ts t Es). apply (tensor_elements (Many ts) t pattern sizes y Et); [|exact E].
      destruct (stack_inv ts t Es) as [Hne [s Hs]]. destruct (stack_Ok ts s Hne) as (t' & E' & Wt & _); [intros u Hu; auto|]. congruence.
    - unfold np_rearrange, np_reduce, api_reduce in E. apply bind_Ok in E as [[] [_ E]].
      change (stack_input (anyint_backend B) (Many ts)) with (stack_input B (Many ts)) in E. rewrite Et in E. discriminate.
  Qed.
End Elements.

Section Caches.
  Context (lim : limits) {A : Type} (r : runtime A) (Hok : runtime_ok r).
  Notation U := (rt_unicode r).
  Notation B := (rt_backend r).
  Notation O := anyint_ops.
  Notation reachable := (reachable_caches O anyint_eqb lim U).

  (** keys that compare equal denote the same numbers *)
  Lemma eqb_values l m : list_eqb anyint_eqb l m = true -> map int_value l = map int_value m.
  Proof.
    revert m. induction l as [|a l IH]; intros [|b m] E; cbn in E; try discriminate; [reflexivity|]. apply andb_true_iff in E as [E1 E2].
    cbn [map]. rewrite (IH _ E2). apply Z.eqb_eq in E1. rewrite E1. reflexivity.
  Qed.
  Lemma eqb_sizes l m : list_eqb (size_eqb anyint_eqb) l m = true -> as_ints l = as_ints m.
  Proof.
    unfold as_ints. revert m. induction l as [|[s a] l IH]; intros [|[s' b] m] E; cbn in E; try discriminate; [reflexivity|]. apply andb_true_iff in E as [E1 E2].
    unfold size_eqb in E1. cbn in E1. apply andb_true_iff in E1 as [E0 E1]. apply str_eqb_eq in E0. apply Z.eqb_eq in E1.
    cbn [map]. rewrite (IH _ E2), E0, E1. reflexivity.
  Qed.
  Lemma values_ev (l : list anyint) : Forall2 ev l (map int_value l).
  Proof. induction l; constructor; [reflexivity|assumption]. Qed.

  Lemma reconstruct_keeps id rec shape sizes st k st' : sound O U st -> nth_error (c_made st) id = Some rec ->
    cached_reconstruct O anyint_eqb lim (id, rec) shape sizes st = (k, st') ->
    sound O U st' /\ exists shape' sizes', map int_value shape' = map int_value shape /\ as_ints sizes' = as_ints sizes /\ k = reconstruct O rec shape' sizes'.
  Proof.
    intros Hs Hm E. unfold cached_reconstruct in E. cbn [fst snd] in E.
    destruct (lru (ckey_eqb anyint_eqb) (l_cooked lim) _ _ (c_cooked st)) as [r0 c0] eqn:El. injection E as <- <-.
    apply lru_spec in El as [([[i' sh'] sz'] & k & Et & Hin & Ek & -> & Hi)|(Et & Er & Hi)].
    - split.
      + destruct Hs as [S1 S2 S3 S4]. split; cbn; try assumption. intros iq sq zq kq Hq. apply (S2 _ _ _ _ (Hi _ Hq)).
      + unfold ckey_eqb in Ek. apply andb_true_iff in Ek as [Ek E3]. apply andb_true_iff in Ek as [E1 E2]. apply Nat.eqb_eq in E1. subst i'.
        destruct (s_cooked _ _ _ Hs _ _ _ _ Hin) as (rec' & H1 & H2). exists sh', sz'.
        split; [symmetry; apply eqb_values, E2|]. split; [symmetry; apply eqb_sizes, E3|]. congruence.
    - split.
      + destruct Hs as [S1 S2 S3 S4]. split; cbn; try assumption.
        intros iq sq zq kq Hq. apply Hi in Hq as [Hq|(v & E1 & E2)]; [eauto|]. injection E1 as -> -> -> ->.
        exists rec. split; [exact Hm|]. rewrite Er in E2. exact E2.
      + exists shape, sizes. auto.
  Qed.

  Lemma np_reachable_sound st : reachable st -> sound O U st.
  Proof.
    induction 1 as [|o [[[p op] ns] n] st _ IH Ho|id rec shape sizes st _ IH Hm|p op st _ IH|p st _ IH|b1 b2 b3 b4 st _ IH].
    - split; cbn; intros; contradiction.
    - destruct (cached_prepare lim U o (p, op, ns, n) st) as [v st'] eqn:E. apply (prepare_sound O) in E as (E & _); assumption.
    - destruct (cached_reconstruct O anyint_eqb lim (id, rec) shape sizes st) as [v st'] eqn:E. apply reconstruct_keeps in E as (E & _); assumption.
    - destruct (cached_analyze lim U p op st) as [v st'] eqn:E. apply (analyze_sound O) in E as (E & _); assumption.
    - destruct (cached_compactify lim U p st) as [v st'] eqn:E. apply (compactify_sound O) in E as (E & _); assumption.
    - destruct IH as [S1 S2 S3 S4]. split; cbn.
      + destruct b1; cbn; [contradiction|exact S1].
      + destruct b2; cbn; [contradiction|exact S2].
      + destruct b3; cbn; [contradiction|exact S3].
      + destruct b4; cbn; [contradiction|exact S4].
  Qed.

  Lemma cached_outcome x pattern red id sizes st v st' : reachable st -> NoDup (map fst sizes) -> opkey_of red id <> None ->
    cached_np_reduce r lim x pattern red id sizes st = (v, st') ->
    reachable st' /\
    (v = reduce r x pattern red (as_ints sizes) \/ reduce r x pattern red (as_ints sizes) = Err EinopsError \/
     reduce r x pattern red (as_ints sizes) = Err ZeroDivisionError).
  Proof.
    intros Hr Hn Hk E. unfold cached_np_reduce, cached_api_reduce in E.
    change (stack_input (anyint_backend B) x) with (stack_input B x) in E.
    assert (G : reachable st' /\ exists o', orders_ok o' /\ fsim skipped eq v (api_reduce U o' int_ops B x pattern red (as_ints sizes))).
    { unfold api_reduce. rewrite as_ints_kwargs, as_ints_keys.
      destruct (check_kwargs reserved_kwargs sizes) as [[]|e]; cbn [bind] in *; [|injection E as <- <-; split; [exact Hr|exists (rt_orders r); split; [apply Hok|cbn; auto]]].
      destruct (stack_input B x) as [t|e]; [|injection E as <- <-; split; [exact Hr|exists (rt_orders r); split; [apply Hok|cbn; auto]]].
      destruct (opkey_of red id) as [op|] eqn:Eop; [|contradiction]. apply opkey_of_op in Eop.
      cbn [anyint_backend b_shape bind] in E |- *. rewrite map_length in E.
      set (key := (pattern, op, map fst sizes, length (b_shape B t))) in *.
      destruct (cached_prepare lim U (rt_orders r) key st) as [r1 st1] eqn:E1.
      assert (Hr1 : reachable st1) by (assert (X := RC_prepare O anyint_eqb lim U (rt_orders r) key st Hr (ro_orders _ Hok)); rewrite E1 in X; exact X).
      apply (prepare_sound O) in E1 as (_ & (o' & Ho' & E1) & Hm); [|apply np_reachable_sound, Hr|apply Hok]. rewrite Eop in E1.
      destruct r1 as [[i rec]|e]; [|cbn [bind snd] in E1; injection E as <- <-; split; [exact Hr1|exists o'; split; [exact Ho'|]]; rewrite <- E1; cbn; auto].
      specialize (Hm i rec eq_refl). cbn [bind snd] in E1.
      assert (K : exists k st2, cooked_for O anyint_eqb (fun _ => true) lim (anyint_backend B) (i, rec) t sizes st1 = (k, st2) /\ reachable st2 /\
                fsim skipped (fun k1 k2 => cooked_value k1 = k2) k (reconstruct int_ops rec (b_shape B t) (as_ints sizes))).
      { unfold cooked_for. change (b_shape (anyint_backend B) t) with (map PyInt (b_shape B t)). destruct (key_hashable (fun _ => true) (map PyInt (b_shape B t)) sizes).
        - destruct (cached_reconstruct O anyint_eqb lim (i, rec) (map PyInt (b_shape B t)) sizes st1) as [r0 st0] eqn:Ec.
          assert (Hr' : reachable st0) by (assert (X := RC_reconstruct O anyint_eqb lim U i rec (map PyInt (b_shape B t)) sizes st1 Hr1 Hm); rewrite Ec in X; exact X).
          apply reconstruct_keeps in Ec as (_ & sh' & sz' & Esh & Esz & ->); [|apply np_reachable_sound, Hr1|exact Hm].
          assert (F : fsim skipped (fun k1 k2 => cooked_value k1 = k2) (reconstruct O rec sh' sz') (reconstruct int_ops rec (b_shape B t) (as_ints sizes))).
          { rewrite <- Esz. apply reconstruct_loose. replace (b_shape B t) with (map int_value sh'); [apply values_ev|]. rewrite Esh, map_map. cbn. apply map_id. }
          assert (F0 : fsim skipped (fun k1 k2 => cooked_value k1 = k2) (reconstruct O rec (map PyInt (b_shape B t)) sizes) (reconstruct int_ops rec (b_shape B t) (as_ints sizes)))
            by apply reconstruct_loose, py_ev.
          destruct (reconstruct O rec sh' sz') as [k0|e]; [eexists; eexists; split; [reflexivity|]; auto|].
          destruct e; eexists; eexists; (split; [reflexivity|]); auto.
        - eexists. eexists. split; [reflexivity|]. split; [exact Hr1|]. apply reconstruct_loose, py_ev. }
      destruct K as (k & st2 & Ec & Hr2 & F). rewrite Ec in E. injection E as <- <-. split; [exact Hr2|]. exists o'. split; [exact Ho'|].
      rewrite <- E1. cbn [bind]. unfold apply_recipe. apply (fsim_bind _ (fun k1 k2 => cooked_value k1 = k2)); [exact F|].
      intros k1 k2 <-. rewrite apply_value. apply fsim_same. }
    destruct G as (G & o' & Ho' & F). split; [exact G|].
    assert (Eo : reduce r x pattern red (as_ints sizes) = api_reduce U o' int_ops B x pattern red (as_ints sizes)).
    { destruct (orders_irrelevant r Hok o' (as_ints sizes) Ho') with (x := x) (pattern := pattern) as (_ & _ & H & _); [rewrite as_ints_keys; exact Hn|apply H]. }
    rewrite Eo. destruct v as [a|e], (api_reduce U o' int_ops B x pattern red (as_ints sizes)) as [b|e']; cbn in F.
    - left. congruence.
    - destruct F as [->| ->]; auto.
    - contradiction.
    - destruct F as [->|[->| ->]]; auto.
  Qed.
End Caches.

Lemma right_stays_right {A} (r : runtime A) x pattern red sizes y : reduce r x pattern red (as_ints sizes) = Ok y -> np_reduce r x pattern red sizes = Ok y.
Proof. intros E. destruct (same_outcome r x pattern red sizes) as [H|[H|H]]; congruence. Qed.
