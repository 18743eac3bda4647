(** * Facts about layers in memory *)
From Verif Require Import Py Tensor ListFacts TensorFacts SpecSem SpecGrammar SpecPattern SpecOps SpecCalls SpecElements ElementFacts Parsing Recipe Ops Backends Api Layers EinMix Strides SpecStrides
  StrideFacts StrideFacts2 StrideFacts3 StrideFacts4 FrontFacts2 FrontFacts3 CallsFacts LayerFacts LayerMemory SpecLayerMemory.

Definition layers_show {A} (mem : memory A) (L : layer (array A)) (L' : layer (tensor A)) : Prop :=
  ly_recipes L = ly_recipes L' /\ ly_sizes L = ly_sizes L' /\ reds_show mem (ly_red L) (ly_red L').
Definition olayers_show {A} (mem : memory A) (L : option (layer (array A))) (L' : option (layer (tensor A))) : Prop :=
  match L, L' with Some L, Some L' => layers_show mem L L' | None, None => True | _, _ => False end.

Section Values.
  Context {A : Type} (mem : memory A) (nocopy : list nat -> list Z -> list nat -> option (list Z)) (Hnc : nocopy_ok nocopy) (r : runtime A).
  Notation shows := (shows mem).

  Lemma recipe_shows L L' x x' : layers_show mem L L' -> shows x x' -> v_recipe_for L x = recipe_for L' x'.
  Proof. intros (E & _) H. unfold v_recipe_for, recipe_for. rewrite E, <- (proj2 (shows_wf _ _ _ H)). reflexivity. Qed.

  Lemma apply_shows rec x x' red red' sizes : shows x x' -> reds_show mem red red' ->
    both shows (apply_recipe int_ops (array_backend mem nocopy r) rec x red sizes) (apply_recipe int_ops (rt_backend r) rec x' red' sizes).
  Proof.
    intros Ht Hr. unfold apply_recipe. rewrite (shape_shows mem nocopy r _ _ Ht). apply both_bind_same. intros k. unfold apply_cooked.
    apply (both_bind shows); [destruct (k_init k); [rewrite backend_reshape; apply reshape_shows; assumption|exact Ht]|]. intros v1 t1 H1.
    apply (both_bind shows); [destruct (k_reorder k); [rewrite backend_transpose; apply transpose_shows, H1|exact H1]|]. intros v2 t2 H2.
    apply (both_bind shows).
    { destruct (k_reduced k) as [|a l]; [exact H2|]. destruct red as [s|f], red' as [s'|g]; cbn in Hr; try contradiction; [subst s'|apply Hr, H2]. cbn [reduce_axes].
      rewrite (float_shows mem nocopy r _ _ H2). apply both_bind_same. intros _. apply both_bind_same. intros _. apply reduce_shows, H2. }
    intros v3 t3 H3. apply (both_bind shows); [destruct (k_added k); [exact H3|apply add_axes_shows, H3]|]. intros v4 t4 H4.
    destruct (k_final k); [rewrite backend_reshape; apply reshape_shows; assumption|exact H4].
  Qed.
  Lemma scriptable_shows rec x x' red red' sizes : shows x x' -> reds_show mem red red' ->
    both shows (v_scriptable_apply mem nocopy r rec x red sizes) (scriptable_apply r rec x' red' sizes).
  Proof.
    intros Ht Hr. unfold v_scriptable_apply, scriptable_apply. set (r' := with_framework r TorchJit). rewrite (shape_shows mem nocopy r' _ _ Ht). apply both_bind_same. intros k.
    apply (both_bind shows); [destruct (k_init k); [rewrite backend_reshape; apply (reshape_shows mem nocopy Hnc r'); assumption|exact Ht]|]. intros v1 t1 H1.
    apply (both_bind shows); [destruct (k_reorder k); [rewrite backend_transpose; apply transpose_shows, H1|exact H1]|]. intros v2 t2 H2.
    apply (both_bind shows).
    { destruct (k_reduced k) as [|a l]; [exact H2|]. destruct red as [s|f], red' as [s'|g]; cbn in Hr; try contradiction; [subst s'|reflexivity]. apply reduce_shows, H2. }
    intros v3 t3 H3. apply (both_bind shows); [destruct (k_added k); [exact H3|apply add_axes_shows, H3]|]. intros v4 t4 H4.
    destruct (k_final k); [rewrite backend_reshape; apply (reshape_shows mem nocopy Hnc r'); assumption|exact H4].
  Qed.
  Lemma layer_values L L' x x' : layers_show mem L L' -> shows x x' -> both shows (v_call_layer mem nocopy r L x) (call_layer r L' x').
  Proof.
    intros HL H. pose proof HL as (_ & Es & Er). unfold v_call_layer, call_layer.
    assert (M : both shows (v_mixin_apply mem nocopy r L x) (mixin_apply r L' x')).
    { unfold v_mixin_apply, mixin_apply. rewrite (recipe_shows _ _ _ _ HL H), Es. apply both_bind_same. intros rec. apply apply_shows; assumption. }
    destruct (rt_framework r); try exact M.
    unfold v_torch_apply, torch_apply. rewrite (recipe_shows _ _ _ _ HL H), Es. apply both_bind_same. intros rec. apply scriptable_shows; assumption.
  Qed.
  Lemma option_values L L' x x' : olayers_show mem L L' -> shows x x' -> both shows (v_call_option mem nocopy r L x) (call_option r L' x').
  Proof. intros HL H. destruct L, L'; cbn in HL |- *; try contradiction; [apply layer_values; assumption|exact H]. Qed.

  (** *** whose buffer *)
  Lemma layer_buf L x y s : ly_red L = RStr s -> v_call_layer mem nocopy r L x = Ok y -> a_buf y = a_buf x \/ own_buffer y.
  Proof.
    intros Es. assert (C : forall r' k (v : array A), (let* t1 := match k_init k with Some s => b_reshape (array_backend mem nocopy r') x s | None => Ok x end in
        match k_reorder k with Some p => b_transpose (array_backend mem nocopy r') t1 p | None => Ok t1 end) = Ok v -> a_buf v = a_buf x \/ own_buffer v).
    { intros r' k v H. apply bind_Ok in H as [v1 [E1 H]].
      assert (F1 : a_buf v1 = a_buf x \/ own_buffer v1) by (destruct (k_init k); [eapply (v_reshape_buf mem nocopy r'), E1|injection E1 as <-; left; reflexivity]).
      assert (F2 : a_buf v = a_buf v1) by (destruct (k_reorder k); [eapply v_transpose_buf, H|injection H as <-; reflexivity]).
      destruct F1 as [F1|F1]; [left; congruence|right]. unfold own_buffer in *. rewrite F2. exact F1. }
    assert (T : forall (v v' z : array A), a_buf v = a_buf x \/ own_buffer v -> v' = v \/ own_buffer v' -> a_buf z = a_buf v' \/ own_buffer z -> a_buf z = a_buf x \/ own_buffer z).
    { intros v v' z H1 H2 [H3|H3]; [|right; exact H3]. destruct H2 as [->|H2]; [|right; unfold own_buffer in *; rewrite H3; exact H2].
      destruct H1 as [H1|H1]; [left; congruence|right; unfold own_buffer in *; rewrite H3; exact H1]. }
    assert (M : v_mixin_apply mem nocopy r L x = Ok y -> a_buf y = a_buf x \/ own_buffer y).
    { unfold v_mixin_apply. intros H. apply bind_Ok in H as [rec [_ H]]. unfold apply_recipe in H. apply bind_Ok in H as [k [_ H]]. unfold apply_cooked in H.
      apply bind_Ok in H as [v1 [E1 H]]. apply bind_Ok in H as [v2 [E2 H]]. apply bind_Ok in H as [v3 [E3 H]]. apply v_tail_buf in H as [H _].
      apply (T v2 v3 y); [apply (C r k); rewrite E1; exact E2| |exact H].
      destruct (k_reduced k); [injection E3 as <-; left; reflexivity|right]. rewrite Es in E3. cbn [reduce_axes] in E3. apply bind_Ok in E3 as [_ [_ E3]]. apply bind_Ok in E3 as [_ [_ E3]]. eapply compute_new, E3. }
    unfold v_call_layer. destruct (rt_framework r) eqn:Ef; try exact M.
    unfold v_torch_apply. intros H. apply bind_Ok in H as [rec [_ H]]. unfold v_scriptable_apply in H. set (r' := with_framework r TorchJit) in *. apply bind_Ok in H as [k [_ H]].
    apply bind_Ok in H as [v1 [E1 H]]. apply bind_Ok in H as [v2 [E2 H]]. apply bind_Ok in H as [v3 [E3 H]].
    assert (H' : (a_buf y = a_buf v3 \/ own_buffer y) /\ (k_added k <> [] -> expands (rt_framework r') = false -> own_buffer y)) by (apply (v_tail_buf mem nocopy r' k); rewrite <- H; destruct (k_added k); reflexivity).
    apply (T v2 v3 y); [apply (C r' k); rewrite E1; exact E2| |apply H'].
    destruct (k_reduced k); [injection E3 as <-; left; reflexivity|right]. rewrite Es in E3. eapply compute_new, E3.
  Qed.
  Lemma option_buf L x y : (forall L0, L = Some L0 -> exists s, ly_red L0 = RStr s) -> v_call_option mem nocopy r L x = Ok y -> a_buf y = a_buf x \/ own_buffer y.
  Proof. intros Hs H. destruct L as [L|]; [|injection H as <-; left; reflexivity]. destruct (Hs L eq_refl) as [s Es]. eapply layer_buf; eauto. Qed.

  (** *** a layer is the function, in memory too *)
  Lemma layer_is_function (Hok : runtime_ok r) os pattern (red : reduction (array A)) sizes M x w L R e len :
    (forall n, orders_ok (os n)) -> NoDup (map fst sizes) -> no_reserved sizes ->
    make_layer (rt_unicode r) os pattern red sizes = Ok M -> op_role (op_of red) = Some w ->
    call_ok (rt_unicode r) w pattern sizes (a_shp x) L R e len -> e < 8 -> missing (left_groups e L) (right_groups e L R) = [] ->
    v_call_layer mem nocopy r M x = v_reduce mem nocopy r (One x) pattern red sizes.
  Proof.
    intros Hos Hn Hres HM Hw Hc He Hmiss.
    destruct (cooked_call mem nocopy r Hok pattern sizes x w L R e len Hn Hres Hc red Hw) as (k & -> & K1 & K2 & K3 & K4 & K5 & K6).
    destruct (cooked_known (rt_unicode r) (ro_unicode _ Hok) (os (length (a_shp x))) (Hos _) pattern (op_of red) sizes (a_shp x) w L R e len Hn Hw Hc) as (rc & k' & E1 & E2 & J1 & J2 & J3 & J4 & J5 & J6).
    unfold make_layer in HM. apply bind_Ok in HM as [recipes [HM E]]. injection E as <-.
    apply all_dims_ok in HM as (l & rr & Hpre & HM); [|apply Hok|exact Hos].
    destruct (Hpre 0) as [Hrd _ _ _ _ _]. destruct (reads_fun (rt_unicode r) (ro_unicode _ Hok) pattern l rr L R Hrd (co_reads _ _ _ _ _ _ _ _ _ Hc)) as [-> ->].
    assert (G := prep_get (rt_unicode r) pattern (op_of red) (map fst sizes) os _ recipes (length (a_shp x)) HM).
    destruct (in_dec Nat.eq_dec (length (a_shp x)) (fitting_ranks L)) as [Hi|Hi]; [|exfalso; apply Hi, fitting_iff; exists e; split; [exact He|exact (co_rank _ _ _ _ _ _ _ _ _ Hc)]].
    rewrite E1 in G.
    assert (Ek : k_init k = k_init k' /\ k_reorder k = k_reorder k' /\ k_reduced k = [] /\ k_reduced k' = [] /\ k_added k = k_added k' /\ (k_added k <> [] -> k_naxes k = k_naxes k') /\ k_final k = k_final k').
    { rewrite Hmiss in K3, J3. cbn in K3, J3. repeat split; try congruence. intros Hne. rewrite K5, J5; [reflexivity| |]; intros X; apply Hne; rewrite K4, X; reflexivity. }
    destruct Ek as (F1 & F2 & F3 & F3' & F4 & F5 & F6).
    assert (Tl : forall (v : array A), (let* t4 := match k_added k' with [] => Ok v | added => b_add_axes (array_backend mem nocopy r) v (k_naxes k') added end in
         match k_final k' with Some s => v_reshape mem nocopy (rt_lib r) t4 s | None => Ok t4 end) =
       (let* t4 := match k_added k with [] => Ok v | added => b_add_axes (array_backend mem nocopy r) v (k_naxes k) added end in
         match k_final k with Some s => v_reshape mem nocopy (rt_lib r) t4 s | None => Ok t4 end)).
    { intros v. rewrite F6, <- F4. destruct (k_added k) as [|p q] eqn:Ea; [reflexivity|]. rewrite F5 by discriminate. reflexivity. }
    unfold v_call_layer. assert (Mx : v_mixin_apply mem nocopy r (mkLayer pattern red sizes recipes) x = apply_cooked (array_backend mem nocopy r) k x red).
    { unfold v_mixin_apply, v_recipe_for. cbn [ly_recipes ly_red ly_sizes]. rewrite G. cbn [of_option bind]. unfold apply_recipe. cbn [b_shape array_backend]. rewrite E2. cbn [bind].
      unfold apply_cooked. rewrite F1, F2, F3, F3'. cbn [b_reshape b_transpose array_backend]. apply bind_ext. intros t1 _. apply bind_ext. intros t2 _. cbn [bind]. specialize (Tl t2). destruct (k_added k'), (k_added k); exact Tl. }
    destruct (rt_framework r) eqn:Ef; try exact Mx.
    unfold v_torch_apply, v_recipe_for. cbn [ly_recipes ly_red ly_sizes]. rewrite G. cbn [of_option bind]. unfold v_scriptable_apply. cbn [b_shape array_backend]. rewrite E2. cbn [bind].
    unfold apply_cooked. rewrite F1, F2, F3, F3'. cbn [b_reshape b_transpose array_backend rt_lib with_framework]. apply bind_ext. intros t1 _. apply bind_ext. intros t2 _. cbn [bind].
    specialize (Tl t2). cbn [b_add_axes array_backend] in Tl |- *. rewrite Ef in Tl |- *. cbn [rt_framework with_framework expands] in *. destruct (k_added k'), (k_added k); exact Tl.
  Qed.
End Values.
