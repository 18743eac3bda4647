(** * Layers with lengths that are integers of numpy: facts *)
From Coq Require Import Permutation.
From Verif Require Import Py Tensor ListFacts TensorFacts SpecSem SpecGrammar SpecPattern SpecOps Parsing Recipe Ops Backends Api Layers RecipeFacts StepFacts
  MainFacts3 ApiFacts2 ApiFacts4 ApiFacts5 ApiFacts6 EquivalentFacts ElementFacts LayerFacts Laws NumpyInts NumpyIntFacts NumpyIntFacts2 NumpyIntFacts3 NumpyIntLayers.

(** the same layer with Python's ints *)
Definition int_layer {T} (L : np_layer T) : layer T := mkLayer (nl_pattern L) (nl_red L) (as_ints (nl_sizes L)) (nl_recipes L).
Definition int_made {T} (m : result (np_layer T)) : result (layer T) := match m with Ok L => Ok (int_layer L) | Err e => Err e end.
Lemma kwargs_ints names sizes : check_kwargs names (as_ints sizes) = check_kwargs names sizes.
Proof.
  unfold check_kwargs, as_ints. f_equal. induction sizes as [|[s n] sizes IH]; [reflexivity|]. cbn [map existsb]. rewrite IH. reflexivity.
Qed.
Lemma make_ints {T} U os pattern (red : reduction T) sizes : make_layer U os pattern red (as_ints sizes) = int_made (np_make_layer U os pattern red sizes).
Proof. unfold make_layer, np_make_layer. rewrite as_ints_keys. destruct (prepare_all_dims _ _ _ _ _); reflexivity. Qed.
Lemma Rearrange_ints {T} U os pattern sizes : @Rearrange T U os pattern (as_ints sizes) = int_made (np_Rearrange U os pattern sizes).
Proof. unfold Rearrange, np_Rearrange. rewrite kwargs_ints, make_ints. destruct (check_kwargs _ sizes); reflexivity. Qed.
Lemma Reduce_ints {T} U os pattern (red : reduction T) sizes : Reduce U os pattern red (as_ints sizes) = int_made (np_Reduce U os pattern red sizes).
Proof. unfold Reduce, np_Reduce. rewrite kwargs_ints, make_ints. destruct (check_kwargs _ sizes); reflexivity. Qed.

Section Call.
  Context {A : Type} (r : runtime A).
  Lemma call_layer_fsim (L : np_layer (tensor A)) x : fsim skipped eq (np_call_layer r L x) (call_layer r (int_layer L) x).
  Proof.
    unfold np_call_layer, call_layer.
    assert (M : fsim skipped eq (np_mixin_apply r L x) (mixin_apply r (int_layer L) x)).
    { unfold np_mixin_apply, mixin_apply, recipe_for, np_recipe_for. cbn [int_layer ly_recipes ly_red ly_sizes].
      apply (fsim_bind _ eq); [apply fsim_same|]. intros rec _ <-. unfold apply_recipe.
      apply (fsim_bind _ (fun k1 k2 => cooked_value k1 = k2)); [apply reconstruct_loose; apply py_ev|]. intros k1 k2 <-. rewrite apply_value. apply fsim_same. }
    assert (S : fsim skipped eq (np_torch_apply r L x) (torch_apply r (int_layer L) x)).
    { unfold np_torch_apply, torch_apply, recipe_for, np_recipe_for. cbn [int_layer ly_recipes ly_red ly_sizes].
      apply (fsim_bind _ eq); [apply fsim_same|]. intros rec _ <-. unfold np_scriptable_apply, scriptable_apply. cbv zeta.
      apply (fsim_bind _ (fun k1 k2 => cooked_value k1 = k2)); [apply reconstruct_loose; apply py_ev|]. intros k1 k2 <-.
      assert (E : forall m1 m2 : result (tensor A), m1 = m2 -> fsim skipped eq m1 m2) by (intros m1 _ <-; apply fsim_same). apply E. clear.
      unfold cooked_value. cbn [k_init k_reorder k_reduced k_added k_final k_naxes].
      destruct (k_init k1); cbn [option_map anyint_backend b_reshape b_transpose b_add_axes b_reduce];
        destruct (k_added k1) as [|[q d] more]; cbn [map]; destruct (k_final k1); reflexivity. }
    destruct (rt_framework r); auto.
  Qed.
  Lemma layer_outcome (L : np_layer (tensor A)) x :
    np_call_layer r L x = call_layer r (int_layer L) x \/ call_layer r (int_layer L) x = Err EinopsError \/ call_layer r (int_layer L) x = Err ZeroDivisionError.
  Proof.
    pose proof (call_layer_fsim L x) as G. destruct (np_call_layer r L x) as [a|e], (call_layer r (int_layer L) x) as [b|e']; cbn in G.
    - left. congruence.
    - destruct G as [->| ->]; auto.
    - contradiction.
    - destruct G as [->|[->| ->]]; auto.
  Qed.
  Theorem Reduce_outcome os pattern red sizes :
    match np_Reduce (rt_unicode r) os pattern red sizes, Reduce (rt_unicode r) os pattern red (as_ints sizes) with
    | Ok L, Ok L' => forall x, np_call_layer r L x = call_layer r L' x \/ call_layer r L' x = Err EinopsError \/ call_layer r L' x = Err ZeroDivisionError
    | Err e, Err e' => e = e'
    | _, _ => False
    end.
  Proof. rewrite Reduce_ints. destruct (np_Reduce _ _ _ _ _) as [L|e]; cbn [int_made]; [exact (layer_outcome L)|reflexivity]. Qed.
  Theorem Rearrange_outcome os pattern sizes :
    match np_Rearrange (rt_unicode r) os pattern sizes, Rearrange (rt_unicode r) os pattern (as_ints sizes) with
    | Ok L, Ok L' => forall x, np_call_layer r L x = call_layer r L' x \/ call_layer r L' x = Err EinopsError \/ call_layer r L' x = Err ZeroDivisionError
    | Err e, Err e' => e = e'
    | _, _ => False
    end.
  Proof. rewrite Rearrange_ints. destruct (np_Rearrange _ _ _ _) as [L|e]; cbn [int_made]; [exact (layer_outcome L)|reflexivity]. Qed.
End Call.

Section Elements.
  Context {A : Type}.
  Lemma moved_elements (r : runtime A) (k : cooked Z) t t1 t2 y : wf t -> k_added k = [] ->
    match k_init k with Some s => b_reshape (rt_backend r) t s | None => Ok t end = Ok t1 ->
    match k_reorder k with Some p => b_transpose (rt_backend r) t1 p | None => Ok t1 end = Ok t2 ->
    match k_final k with Some s => b_reshape (rt_backend r) t2 s | None => Ok t2 end = Ok y -> Permutation (dat t) (dat y).
  Proof.
    intros Hw Ha E1 E2 E.
    assert (H1 : wf t1 /\ dat t1 = dat t) by (destruct (k_init k) as [s|]; [exact (reshape_elements r _ _ _ Hw E1)|injection E1 as <-; auto]).
    destruct H1 as [W1 D1]. rewrite <- D1.
    assert (H2 : wf t2 /\ Permutation (dat t1) (dat t2)).
    { destruct (k_reorder k) as [p|]; [rewrite backend_transpose in E2; exact (transpose_permutes _ _ _ W1 E2)|injection E2 as <-; auto]. }
    destruct H2 as [W2 D2]. etransitivity; [exact D2|]. destruct (k_final k) as [s|]; [|injection E as <-; reflexivity].
    apply reshape_elements in E as [_ E]; [|exact W2]. rewrite E. reflexivity.
  Qed.
  Lemma recipes_made (U : unicode) os pattern op names l : prepare_all_dims U os pattern op names = Ok l -> forall n rec, dict_get Nat.eqb n l = Some rec ->
    exists n', prepare_recipe U (os n') pattern op names n' = Ok rec.
  Proof.
    unfold prepare_all_dims. destruct (str_split s_arrow pattern) as [|a [|b [|? ?]]]; try discriminate. intros H n. apply bind_Ok in H as [[lft ?] [_ H]].
    revert l H n. generalize (dims_of_left lft). intros ds. induction ds as [|d ds IH]; intros l H m rec; cbn [mapM] in H; [injection H as <-; discriminate|].
    apply bind_Ok in H as [p [H1 H]]. apply bind_Ok in H as [ps [H2 H]]. injection H as <-. apply bind_Ok in H1 as [rec' [H1 H3]]. injection H3 as <-.
    cbn [dict_get]. destruct (m =? d); [intros E; injection E as <-; eauto|apply IH, H2].
  Qed.
  Theorem layer_elements (r : runtime A) (Hok : runtime_ok r) os pattern sizes (L : np_layer (tensor A)) x y : (forall n, orders_ok (os n)) ->
    np_Rearrange (rt_unicode r) os pattern sizes = Ok L -> wf x -> np_call_layer r L x = Ok y -> Permutation (dat x) (dat y).
  Proof.
    intros Hos HL Hw E. unfold np_Rearrange, np_make_layer in HL. apply bind_Ok in HL as [? [_ HL]]. apply bind_Ok in HL as [recs [HR HL]]. injection HL as <-.
    assert (ADD : forall n rec sh k, dict_get Nat.eqb n recs = Some rec -> reconstruct anyint_ops rec sh sizes = Ok k -> k_added k = []).
    { intros n rec sh k Er Ek. destruct (recipes_made _ _ _ _ _ _ HR _ _ Er) as (n' & Ep).
      apply (no_added (rt_unicode r) (ro_unicode _ Hok) (os n') (Hos n')) in Ep; [|cbn; discriminate].
      unfold reconstruct in Ek. apply bind_Ok in Ek as [al [_ Ek]]. apply bind_Ok in Ek as [[al' nd] [_ Ek]]. apply bind_Ok in Ek as [gs [_ Ek]].
      apply bind_Ok in Ek as [ad [Ea Ek]]. rewrite Ep in Ea. cbn in Ea. injection Ea as <-. injection Ek as <-. reflexivity. }
    assert (M : np_mixin_apply r (mkNpLayer pattern (RStr s_rearrange) sizes recs) x = Ok y -> Permutation (dat x) (dat y)).
    { clear E. intros E. unfold np_mixin_apply, np_recipe_for in E. cbn [nl_recipes nl_red nl_sizes] in E. destruct (dict_get _ _ _) as [rec|] eqn:Er; [|discriminate]. cbn [of_option bind] in E.
      unfold apply_recipe in E. apply bind_Ok in E as [k [Ek E]]. pose proof (ADD _ _ _ _ Er Ek) as Ha. rewrite apply_value in E. unfold apply_cooked in E.
      apply bind_Ok in E as [t1 [E1 E]]. apply bind_Ok in E as [t2 [E2 E]]. apply bind_Ok in E as [t3 [E3 E]]. apply bind_Ok in E as [t4 [E4 E]].
      assert (t3 = t2) by (destruct (k_reduced (cooked_value k)); [congruence|cbn in E3; discriminate]). subst t3.
      assert (k_added (cooked_value k) = []) as Ha' by (unfold cooked_value; cbn [k_added]; rewrite Ha; reflexivity). rewrite Ha' in E4. injection E4 as <-.
      exact (moved_elements r (cooked_value k) x t1 t2 y Hw Ha' E1 E2 E). }
    assert (S : np_torch_apply r (mkNpLayer pattern (RStr s_rearrange) sizes recs) x = Ok y -> Permutation (dat x) (dat y)).
    { clear E M. intros E. unfold np_torch_apply, np_recipe_for in E. cbn [nl_recipes nl_red nl_sizes] in E. destruct (dict_get _ _ _) as [rec|] eqn:Er; [|discriminate]. cbn [of_option bind] in E.
      unfold np_scriptable_apply in E. cbv zeta in E. apply bind_Ok in E as [k [Ek E]]. pose proof (ADD _ _ _ _ Er Ek) as Ha.
      apply bind_Ok in E as [t1 [E1 E]]. apply bind_Ok in E as [t2 [E2 E]]. apply bind_Ok in E as [t3 [E3 E]]. apply bind_Ok in E as [t4 [E4 E]].
      assert (t3 = t2) by (destruct (k_reduced k); [congruence|cbn in E3; discriminate]). subst t3. rewrite Ha in E4. injection E4 as <-.
      apply (moved_elements (with_framework r TorchJit) (cooked_value k) x t1 t2 y Hw); unfold cooked_value; cbn [k_init k_reorder k_added k_final]; [rewrite Ha; reflexivity| | |].
      - destruct (k_init k); exact E1.
      - destruct (k_reorder k); exact E2.
      - destruct (k_final k); exact E. }
    unfold np_call_layer in E. destruct (rt_framework r); auto.
  Qed.
End Elements.
