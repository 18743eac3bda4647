(** * Operations on related tensors *)
From Verif Require Import Py Tensor Parsing Recipe Ops Backends Api Packing ListFacts SpecElements.

Section Both.
  Lemma both_bind {X Y X' Y'} (P : X -> X' -> Prop) (Q : Y -> Y' -> Prop) m m' f f' :
    both P m m' -> (forall x x', P x x' -> both Q (f x) (f' x')) -> both Q (bind m f) (bind m' f').
  Proof. destruct m, m'; cbn; try contradiction; auto. Qed.
  Lemma both_same {X} (m : result X) : both eq m m.
  Proof. destruct m; reflexivity. Qed.
  Lemma both_bind_same {X Y Y'} (Q : Y -> Y' -> Prop) (m : result X) f f' :
    (forall x, both Q (f x) (f' x)) -> both Q (bind m f) (bind m f').
  Proof. intros H. apply (both_bind eq); [apply both_same|]. intros x ? <-. apply H. Qed.
  Lemma both_mapM {X Y X' Y'} (P : X -> X' -> Prop) (Q : Y -> Y' -> Prop) f f' l l' :
    Forall2 P l l' -> (forall x x', P x x' -> both Q (f x) (f' x')) -> both (Forall2 Q) (mapM f l) (mapM f' l').
  Proof.
    intros F H. induction F as [|x x' l l' Hx F IH]; [constructor|]. cbn [mapM].
    apply (both_bind Q); [auto|]. intros y y' Hy. apply (both_bind (Forall2 Q)); [exact IH|].
    intros ys ys' Hys. constructor; assumption.
  Qed.
  Lemma Forall2_refl_eq {X} (l : list X) : Forall2 eq l l.
  Proof. induction l; constructor; auto. Qed.
  Lemma both_mapM_same {X Y Y'} (Q : Y -> Y' -> Prop) f f' (l : list X) :
    (forall x, both Q (f x) (f' x)) -> both (Forall2 Q) (mapM f l) (mapM f' l).
  Proof. intros H. apply (both_mapM eq); [apply Forall2_refl_eq|]. intros x ? <-. apply H. Qed.
  Lemma both_foldM {X X' Y} (P : X -> X' -> Prop) (f : X -> Y -> result X) (f' : X' -> Y -> result X') l :
    (forall x x' y, P x x' -> both P (f x y) (f' x' y)) -> forall a a', P a a' -> both P (foldM f l a) (foldM f' l a').
  Proof.
    intros H. induction l as [|y l IH]; intros a a' Ha; [exact Ha|]. cbn [foldM]. apply (both_bind P); [auto|]. auto.
  Qed.
  Lemma both_foldM2 {X X' Y Y'} (P : X -> X' -> Prop) (Q : Y -> Y' -> Prop) (f : X -> Y -> result X) (f' : X' -> Y' -> result X') l l' :
    Forall2 Q l l' -> (forall x x' y y', P x x' -> Q y y' -> both P (f x y) (f' x' y')) ->
    forall a a', P a a' -> both P (foldM f l a) (foldM f' l' a').
  Proof.
    intros F H. induction F as [|y y' l l' Hy F IH]; intros a a' Ha; [exact Ha|]. cbn [foldM]. apply (both_bind P); [auto|]. auto.
  Qed.
End Both.

Section Primitives.
  Context {A B : Type} (R : A -> B -> Prop).
  Notation alike := (alike R).
  Lemma alike_shape t t' : alike t t' -> shp t = shp t'.
  Proof. intros H. apply H. Qed.
  Lemma get_alike t t' idx : alike t t' -> both R (getr t idx) (getr t' idx).
  Proof.
    intros [Es F]. unfold getr, get. rewrite <- Es. destruct (inb (shp t) idx); [|reflexivity].
    generalize (ravel (shp t) idx). revert F. generalize (dat t) (dat t'). intros l l' F.
    induction F as [|a b l l' H F IH]; intros [|n]; cbn; auto.
  Qed.
  Lemma tabulate_alike s f f' : (forall idx, both R (f idx) (f' idx)) -> both alike (tabulate s f) (tabulate s f').
  Proof.
    intros H. unfold tabulate. apply (both_bind (Forall2 R)); [apply both_mapM_same, H|].
    intros d d' F. split; [reflexivity|exact F].
  Qed.
  Lemma reshape_alike lib t t' s : alike t t' -> both alike (t_reshape lib t s) (t_reshape lib t' s).
  Proof.
    intros [Es F]. unfold t_reshape. rewrite <- Es. apply both_bind_same. intros s'. split; [reflexivity|exact F].
  Qed.
  Lemma transpose_alike t t' axes : alike t t' -> both alike (t_transpose t axes) (t_transpose t' axes).
  Proof.
    intros H. unfold t_transpose. rewrite <- (alike_shape _ _ H). destruct (is_permutation axes _); [|reflexivity].
    apply tabulate_alike. intros idx. apply get_alike, H.
  Qed.
  Lemma expand_dims_alike t t' p : alike t t' -> both alike (t_expand_dims t p) (t_expand_dims t' p).
  Proof.
    intros [Es F]. unfold t_expand_dims. rewrite <- Es. destruct (_ <=? _); [|reflexivity]. split; [reflexivity|exact F].
  Qed.
  Lemma tile_alike t t' reps : alike t t' -> both alike (t_tile t reps) (t_tile t' reps).
  Proof.
    intros H. unfold t_tile. rewrite <- (alike_shape _ _ H). destruct (_ && _); [|reflexivity].
    apply tabulate_alike. intros idx. apply get_alike, H.
  Qed.
  Lemma expand_alike t t' reps : alike t t' -> both alike (t_expand t reps) (t_expand t' reps).
  Proof.
    intros H. unfold t_expand. rewrite <- (alike_shape _ _ H). apply both_bind_same. intros s.
    apply tabulate_alike. intros idx. apply get_alike, H.
  Qed.
  Lemma broadcast_alike t t' reps : alike t t' -> both alike (t_broadcast_to t reps) (t_broadcast_to t' reps).
  Proof. intros H. unfold t_broadcast_to. destruct (all_nonneg reps); [apply expand_alike, H|reflexivity]. Qed.
  Lemma reduce_alike red red' t t' axes : (forall vs vs', Forall2 R vs vs' -> both R (red vs) (red' vs')) ->
    alike t t' -> both alike (t_reduce red t axes) (t_reduce red' t' axes).
  Proof.
    intros Hr H. unfold t_reduce. rewrite <- (alike_shape _ _ H). destruct (_ && _); [|reflexivity].
    apply tabulate_alike. intros idx. apply (both_bind (Forall2 R)); [|exact Hr].
    apply both_mapM_same. intros r. apply get_alike, H.
  Qed.
  Lemma stack_alike ts ts' : Forall2 alike ts ts' -> both alike (t_stack ts) (t_stack ts').
  Proof.
    intros F. unfold t_stack. destruct F as [|t t' ts ts' H F]; [reflexivity|].
    assert (G : Forall2 alike (t :: ts) (t' :: ts')) by (constructor; assumption).
    assert (E : forallb (fun u => shape_eqb (shp u) (shp t)) (t :: ts) = forallb (fun u => shape_eqb (shp u) (shp t')) (t' :: ts')).
    { rewrite <- (alike_shape _ _ H). clear - G. induction G as [|u u' us us' E G IH]; [reflexivity|]. cbn. now rewrite (alike_shape _ _ E), IH. }
    rewrite <- E. destruct (forallb _ (t :: ts)); [|reflexivity]. split; cbn [shp dat].
    - rewrite (alike_shape _ _ H). cbn [length]. f_equal. f_equal. clear - F. induction F; cbn; congruence.
    - clear - G. induction G as [|u u' us us' E G IH]; [constructor|]. cbn [flat_map]. apply Forall2_app; [apply E|exact IH].
  Qed.
  Lemma concat_get_alike ts ts' axis : Forall2 alike ts ts' -> forall idx, both R (concat_get ts axis idx) (concat_get ts' axis idx).
  Proof.
    intros F. induction F as [|t t' ts ts' H F IH]; intros idx; [reflexivity|]. cbn [concat_get].
    rewrite <- (alike_shape _ _ H). destruct (_ <? _); [apply get_alike, H|apply IH].
  Qed.
  Lemma concat_alike ts ts' axis : Forall2 alike ts ts' -> both alike (t_concat ts axis) (t_concat ts' axis).
  Proof.
    intros F. unfold t_concat. destruct F as [|t t' ts ts' H F]; [reflexivity|].
    assert (G : Forall2 alike (t :: ts) (t' :: ts')) by (constructor; assumption).
    assert (Es : map shp (t :: ts) = map shp (t' :: ts')).
    { clear - G. induction G as [|u u' us us' E G IH]; [reflexivity|]. cbn. now rewrite (alike_shape _ _ E), IH. }
    assert (E : forall f : list nat -> bool, forallb (fun u => f (shp u)) (t :: ts) = forallb (fun u => f (shp u)) (t' :: ts')).
    { intros f. assert (X : forall C (l : list (tensor C)), forallb (fun u => f (shp u)) l = forallb f (map shp l)) by (intros C l; induction l; cbn; congruence).
      now rewrite !X, Es. }
    rewrite <- (alike_shape _ _ H). specialize (E (fun s => shape_eqb (replace_nth axis 0 s) (replace_nth axis 0 (shp t)))). cbn beta in E. rewrite <- E.
    destruct (_ && _); [|reflexivity].
    assert (Em : map (fun u => nth axis (shp u) 0) (t :: ts) = map (fun u => nth axis (shp u) 0) (t' :: ts')).
    { transitivity (map (fun s => nth axis s 0) (map shp (t :: ts))); [now rewrite map_map|]. rewrite Es. now rewrite map_map. }
    rewrite <- Em. apply tabulate_alike. apply concat_get_alike, G.
  Qed.
  Lemma slice_alike t t' axis lo hi : alike t t' -> both alike (t_slice t axis lo hi) (t_slice t' axis lo hi).
  Proof.
    intros H. unfold t_slice. rewrite <- (alike_shape _ _ H). destruct (_ <? _); [|reflexivity].
    apply tabulate_alike. intros idx. apply get_alike, H.
  Qed.

  (** ** Backends *)
  Definition pair_alike (p : tensor A * list Z) (p' : tensor B * list Z) : Prop := alike (fst p) (fst p') /\ snd p = snd p'.
  Lemma add_axes_loop pos2len t t' reps : alike t t' ->
    both pair_alike
      (foldM (fun '(x, repeats) '(p, l) => let* x := t_expand_dims x p in let* repeats := list_upd repeats p l in Ok (x, repeats)) pos2len (t, reps))
      (foldM (fun '(x, repeats) '(p, l) => let* x := t_expand_dims x p in let* repeats := list_upd repeats p l in Ok (x, repeats)) pos2len (t', reps)).
  Proof.
    intros H. apply both_foldM; [|split; [exact H|reflexivity]].
    intros [x s] [x' s'] [p l] [Hx Hs]. cbn in Hx, Hs. subst s'. apply (both_bind alike); [apply expand_dims_alike, Hx|].
    intros y y' Hy. apply both_bind_same. intros s1. split; [exact Hy|reflexivity].
  Qed.
  Lemma tile_add_axes_alike t t' n l : alike t t' -> both alike (tile_add_axes t n l) (tile_add_axes t' n l).
  Proof.
    intros H. unfold tile_add_axes. apply (both_bind pair_alike); [apply add_axes_loop, H|].
    intros [x s] [x' s'] [Hx Hs]. cbn in Hx, Hs. subst s'. apply tile_alike, Hx.
  Qed.
  Lemma expand_add_axes_alike t t' n l : alike t t' -> both alike (expand_add_axes t n l) (expand_add_axes t' n l).
  Proof.
    intros H. unfold expand_add_axes. apply (both_bind pair_alike); [apply add_axes_loop, H|].
    intros [x s] [x' s'] [Hx Hs]. cbn in Hx, Hs. subst s'. apply expand_alike, Hx.
  Qed.

  Section Reduce.
    Context (red : pystr -> list A -> result A) (red' : pystr -> list B -> result B) (s s' : pystr).
    Hypothesis Hr : forall vs vs', Forall2 R vs vs' -> both R (red s vs) (red' s' vs').
    Lemma joint_alike t t' axes : alike t t' -> both alike (joint_reduce red t s axes) (joint_reduce red' t' s' axes).
    Proof. apply reduce_alike, Hr. Qed.
    Lemma sequential_alike t t' axes : alike t t' -> both alike (sequential_reduce red t s axes) (sequential_reduce red' t' s' axes).
    Proof. intros H. apply both_foldM; [|exact H]. intros x x' i Hx. apply reduce_alike; assumption. Qed.
    Lemma paddle_alike t t' axes : alike t t' -> both alike (paddle_reduce red t s axes) (paddle_reduce red' t' s' axes).
    Proof.
      intros H. assert (O : both alike (paddle_own_reduce red t s axes) (paddle_own_reduce red' t' s' axes)).
      { unfold paddle_own_reduce. apply (both_bind alike); [apply joint_alike, H|]. intros u u' [Eu Fu].
        rewrite <- (alike_shape _ _ H). destruct (_ =? _); [split; [reflexivity|exact Fu]|split; assumption]. }
      unfold paddle_reduce. rewrite <- (alike_shape _ _ H). destruct (_ =? _); [|exact O].
      apply (both_bind alike); [exact O|]. intros u u' [Eu Fu]. unfold squeeze0. rewrite <- Eu.
      destruct (shp u) as [|[|[|d]] q]; try reflexivity. split; [reflexivity|exact Fu].
    Qed.
    Lemma oneflow_alike t t' axes : str_mem s reductions = str_mem s' reductions -> alike t t' ->
      both alike (oneflow_reduce red t s axes) (oneflow_reduce red' t' s' axes).
    Proof.
      intros E H. apply both_foldM; [|exact H]. intros x x' i Hx. rewrite E. destruct (str_mem s' reductions); [|reflexivity].
      apply reduce_alike; assumption.
    Qed.
  End Reduce.
End Primitives.

Lemma code_mem s s' : same_code s s' ->
  str_mem s reductions = str_mem s' reductions /\ str_eqb s (lit "mean") = str_eqb s' (lit "mean") /\
  str_mem s [lit "min"; lit "max"; lit "sum"; lit "mean"] = str_mem s' [lit "min"; lit "max"; lit "sum"; lit "mean"] /\
  str_mem s [lit "any"; lit "all"; lit "prod"] = str_mem s' [lit "any"; lit "all"; lit "prod"] /\
  str_eqb s (lit "prod") = str_eqb s' (lit "prod") /\
  (forall L R n, check_identifiers (OpStr s) L R n = check_identifiers (OpStr s') L R n).
Proof.
  intros [->|[[H H']|[H H']]]; [repeat split| |]; cbn [In] in H, H';
    repeat destruct H as [<-|H]; try contradiction; repeat destruct H' as [<-|H']; try contradiction; repeat split.
Qed.

Section Calls.
  Context {A B : Type} (R : A -> B -> Prop) (r : runtime A) (r' : runtime B).
  Hypothesis Hrt : runtimes_alike r r'.
  Notation alike := (alike R).

  Lemma int_shape_alike t t' : alike t t' -> int_shape t = int_shape t'.
  Proof. intros H. unfold int_shape. now rewrite (alike_shape _ _ _ H). Qed.
  Lemma backend_shape {C} (q : runtime C) t : b_shape (rt_backend q) t = int_shape t.
  Proof. unfold rt_backend. destruct (rt_framework q); reflexivity. Qed.
  Lemma backend_reshape {C} (q : runtime C) t s : b_reshape (rt_backend q) t s = t_reshape (rt_lib q) t s.
  Proof. unfold rt_backend. destruct (rt_framework q); reflexivity. Qed.
  Lemma backend_transpose {C} (q : runtime C) t s : b_transpose (rt_backend q) t s = t_transpose t s.
  Proof. unfold rt_backend. destruct (rt_framework q); reflexivity. Qed.
  Lemma backend_stack {C} (q : runtime C) ts : b_stack (rt_backend q) ts = t_stack ts.
  Proof. unfold rt_backend. destruct (rt_framework q); reflexivity. Qed.
  Lemma backend_concat {C} (q : runtime C) ts k : b_concat (rt_backend q) ts k = t_concat ts k.
  Proof. unfold rt_backend. destruct (rt_framework q); reflexivity. Qed.
  Lemma backend_slice {C} (q : runtime C) t k lo hi : b_slice (rt_backend q) t k lo hi = t_slice t k lo hi.
  Proof. unfold rt_backend. destruct (rt_framework q); reflexivity. Qed.
  Lemma backend_isf {C} (q : runtime C) t : b_is_float (rt_backend q) t = rt_isf q t.
  Proof. unfold rt_backend. destruct (rt_framework q); reflexivity. Qed.

  Lemma backend_add_axes_alike t t' n l : alike t t' -> both alike (b_add_axes (rt_backend r) t n l) (b_add_axes (rt_backend r') t' n l).
  Proof.
    intros H. unfold rt_backend. rewrite <- (ra_framework _ _ Hrt).
    destruct (rt_framework r); cbn [backend_of make_backend b_add_axes]; (apply tile_add_axes_alike || apply expand_add_axes_alike); exact H.
  Qed.
  Lemma backend_reduce_alike s s' t t' axes : same_code s s' ->
    (forall vs vs', Forall2 R vs vs' -> both R (rt_red r s vs) (rt_red r' s' vs')) -> alike t t' ->
    both alike (b_reduce (rt_backend r) t s axes) (b_reduce (rt_backend r') t' s' axes).
  Proof.
    intros C Hr H. destruct (code_mem _ _ C) as (Em & _ & E1 & E2 & E3 & _). unfold rt_backend. rewrite <- (ra_framework _ _ Hrt).
    destruct (rt_framework r); cbn [backend_of make_backend b_reduce];
      try (apply joint_alike; [exact Hr|exact H]); try (apply sequential_alike; [exact Hr|exact H]).
    - unfold torch_reduce. rewrite E1, E2. clear Em E1 E2.
      destruct (str_mem s' [lit "min"; lit "max"; lit "sum"; lit "mean"]); [apply joint_alike; [exact Hr|exact H]|].
      destruct (str_mem s' [lit "any"; lit "all"; lit "prod"]); [apply sequential_alike; [exact Hr|exact H]|reflexivity].
    - apply oneflow_alike; [exact Hr|exact Em|exact H].
    - apply paddle_alike; [exact Hr|exact H].
    - unfold torch_jit_reduce. rewrite E1, E3. clear Em E1 E3.
      destruct (str_mem s' [lit "min"; lit "max"; lit "sum"; lit "mean"]); [apply joint_alike; [exact Hr|exact H]|].
      destruct (str_eqb s' (lit "prod")); [apply sequential_alike; [exact Hr|exact H]|reflexivity].
  Qed.

  Section Red.
    Context (red : reduction (tensor A)) (red' : reduction (tensor B)).
    Hypothesis Hred : reductions_alike R r r' red red'.

    Lemma op_of_alike U o pattern names n : prepare_recipe U o pattern (op_of red) names n = prepare_recipe U o pattern (op_of red') names n.
    Proof.
      destruct red as [s|f], red' as [s'|f']; cbn [reductions_alike] in Hred; try contradiction; [|reflexivity]. destruct Hred as [C _].
      destruct (code_mem _ _ C) as (_ & _ & _ & _ & _ & Hc). cbn [op_of]. unfold prepare_recipe.
      destruct (str_split s_arrow pattern) as [|a [|b [|c l]]]; try reflexivity.
      destruct (parse_expression U false false 0 a) as [[lft next]|]; [|reflexivity]. cbn [bind].
      destruct (parse_expression U false false next b) as [[rght nx]|]; [|reflexivity]. cbn [bind]. now rewrite Hc.
    Qed.

    Lemma reduce_axes_alike t t' axes : alike t t' ->
      both alike (reduce_axes (rt_backend r) t red axes) (reduce_axes (rt_backend r') t' red' axes).
    Proof.
      intros H. destruct red as [s|f], red' as [s'|f']; cbn [reductions_alike] in Hred; try contradiction; [|exact (Hred t t' axes H)].
      destruct Hred as (C & Hm & Hr). destruct (code_mem _ _ C) as (Em & En & _). cbn [reduce_axes].
      rewrite !backend_isf, <- Em, <- En.
      assert (X : str_eqb s (lit "mean") && negb (rt_isf r t) = str_eqb s (lit "mean") && negb (rt_isf r' t')).
      { destruct (str_eqb s (lit "mean")) eqn:Ee; [|reflexivity]. cbn [andb]. f_equal. apply Hm; [|exact H]. now apply str_eqb_eq. }
      rewrite <- X. destruct (str_mem s reductions) eqn:Es; [|reflexivity]. cbn [negb raise_if bind]. apply both_bind_same. intros _.
      apply backend_reduce_alike; [exact C| |exact H]. apply Hr. now apply str_mem_In.
    Qed.
    Lemma apply_cooked_alike k t t' : alike t t' ->
      both alike (apply_cooked (rt_backend r) k t red) (apply_cooked (rt_backend r') k t' red').
    Proof.
      intros H. unfold apply_cooked.
      apply (both_bind alike).
      { destruct (k_init k); [|exact H]. rewrite !backend_reshape, <- (ra_lib _ _ Hrt). apply reshape_alike, H. }
      intros t1 t1' H1. apply (both_bind alike).
      { destruct (k_reorder k); [|exact H1]. rewrite !backend_transpose. apply transpose_alike, H1. }
      intros t2 t2' H2. apply (both_bind alike).
      { destruct (k_reduced k); [exact H2|]. apply reduce_axes_alike, H2. }
      intros t3 t3' H3. apply (both_bind alike).
      { destruct (k_added k); [exact H3|]. apply backend_add_axes_alike, H3. }
      intros t4 t4' H4. destruct (k_final k); [|exact H4]. rewrite !backend_reshape, <- (ra_lib _ _ Hrt). apply reshape_alike, H4.
    Qed.
    Lemma stack_input_alike x x' : alike_input R x x' -> both alike (stack_input (rt_backend r) x) (stack_input (rt_backend r') x').
    Proof.
      intros H. destruct x as [t|ts], x' as [t'|ts']; try contradiction; [exact H|]. cbn in H |- *.
      destruct H as [|t t' ts ts' H F]; [reflexivity|]. rewrite !backend_stack. apply stack_alike. constructor; assumption.
    Qed.
    Lemma api_reduce_alike x x' pattern sizes : alike_input R x x' -> both alike (reduce r x pattern red sizes) (reduce r' x' pattern red' sizes).
    Proof.
      intros H. unfold reduce, api_reduce. apply both_bind_same. intros _.
      apply (both_bind alike); [apply stack_input_alike, H|]. intros t t' Ht.
      rewrite !backend_shape, <- (int_shape_alike _ _ Ht), <- (ra_unicode _ _ Hrt), <- (ra_orders _ _ Hrt), <- op_of_alike.
      apply both_bind_same. intros q. unfold apply_recipe. rewrite !backend_shape, <- (int_shape_alike _ _ Ht).
      apply both_bind_same. intros k. apply apply_cooked_alike, Ht.
    Qed.

    Lemma apply_array_api_alike k t t' : alike t t' ->
      both alike (apply_cooked_array_api (rt_ns r) k t red) (apply_cooked_array_api (rt_ns r') k t' red').
    Proof.
      intros H. unfold apply_cooked_array_api. cbn [rt_ns array_api_ns xp_reshape xp_permute_dims xp_reduce xp_expand_dims xp_shape xp_broadcast_to].
      rewrite <- (ra_lib _ _ Hrt). apply (both_bind alike).
      { destruct (k_init k); [|exact H]. apply reshape_alike, H. }
      intros t1 t1' H1. apply (both_bind alike).
      { destruct (k_reorder k); [|exact H1]. apply transpose_alike, H1. }
      intros t2 t2' H2. apply (both_bind alike).
      { destruct (k_reduced k) as [|i l]; [exact H2|]. destruct red as [s|f], red' as [s'|f']; cbn [reductions_alike] in Hred; try contradiction; [|exact (Hred t2 t2' (i :: l) H2)].
        destruct Hred as (C & _ & Hr). destruct (code_mem _ _ C) as (Em & _). rewrite <- Em.
        destruct (str_mem s reductions) eqn:Es; [|reflexivity]. cbn [negb raise_if bind].
        apply joint_alike; [|exact H2]. apply Hr. now apply str_mem_In. }
      intros t3 t3' H3. apply (both_bind alike).
      { destruct (k_added k) as [|a l]; [exact H3|]. apply (both_bind alike).
        - apply both_foldM; [|exact H3]. intros u u' [p n] Hu. apply expand_dims_alike, Hu.
        - intros u u' Hu. rewrite <- (int_shape_alike _ _ Hu). apply both_bind_same. intros sh. apply broadcast_alike, Hu. }
      intros t4 t4' H4. destruct (k_final k); [|exact H4]. apply reshape_alike, H4.
    Qed.
    Lemma aa_reduce_alike x x' pattern sizes : alike_input R x x' -> both alike (xp_reduce_ r x pattern red sizes) (xp_reduce_ r' x' pattern red' sizes).
    Proof.
      intros H. unfold xp_reduce_, aa_reduce. apply both_bind_same. intros _.
      apply (both_bind alike).
      { destruct x as [t|ts], x' as [t'|ts']; try contradiction; [exact H|]. cbn in H |- *.
        destruct H as [|t t' ts ts' H F]; [reflexivity|]. apply stack_alike. constructor; assumption. }
      intros t t' Ht. cbn [rt_ns array_api_ns xp_shape].
      rewrite <- (int_shape_alike _ _ Ht), <- (ra_unicode _ _ Hrt), <- (ra_orders _ _ Hrt), <- op_of_alike.
      apply both_bind_same. intros q. unfold apply_recipe_array_api. cbn [rt_ns array_api_ns xp_shape]. rewrite <- (int_shape_alike _ _ Ht).
      apply both_bind_same. intros k. apply apply_array_api_alike, Ht.
    Qed.
  End Red.

  Lemma named_alike s : ~ In s reductions -> reductions_alike R r r' (RStr s) (RStr s).
  Proof. intros H. split; [now left|]. split; [|intros X; contradiction]. intros ->. destruct H. cbn. tauto. Qed.

  (** ** Packing *)
  Definition packed_alike (p : tensor A * list (list Z)) (p' : tensor B * list (list Z)) : Prop := alike (fst p) (fst p') /\ snd p = snd p'.
  Definition half_alike (p : list (tensor A) * list (list Z)) (p' : list (tensor B) * list (list Z)) : Prop := Forall2 alike (fst p) (fst p') /\ snd p = snd p'.
  Lemma pack_given_alike a ts ts' : Forall2 alike ts ts' ->
    both packed_alike (pack_given int_shape (t_reshape (rt_lib r)) t_concat a ts) (pack_given int_shape (t_reshape (rt_lib r')) t_concat a ts').
  Proof.
    intros F. unfold pack_given. rewrite <- (ra_lib _ _ Hrt). apply both_bind_same. intros [[nb na] mn].
    apply (both_bind (fun _ _ => True)); [destruct F; [reflexivity|exact I]|]. intros _ _ _.
    apply (both_bind half_alike).
    - apply (both_foldM2 half_alike alike); [exact F| |split; [constructor|reflexivity]].
      intros [l s] [l' s'] t t' [Hl Hs] Ht. cbn in Hl, Hs. subst s'. rewrite <- (int_shape_alike _ _ Ht).
      apply both_bind_same. intros _. apply (both_bind alike); [apply reshape_alike, Ht|]. intros u u' Hu.
      split; [|reflexivity]. cbn. apply Forall2_app; [exact Hl|]. constructor; [exact Hu|constructor].
    - intros [l s] [l' s'] [Hl Hs]. cbn in Hl, Hs. subst s'. apply (both_bind alike); [apply concat_alike, Hl|].
      intros u u' Hu. split; [exact Hu|reflexivity].
  Qed.
  Lemma pack_given_ext {C} (q : runtime C) a ts :
    pack_given (b_shape (rt_backend q)) (b_reshape (rt_backend q)) (b_concat (rt_backend q)) a ts = pack_given int_shape (t_reshape (rt_lib q)) t_concat a ts.
  Proof. unfold rt_backend. destruct (rt_framework q); reflexivity. Qed.
  Lemma unpack_given_ext {C} (q : runtime C) a t s :
    unpack_given (b_shape (rt_backend q)) (b_reshape (rt_backend q)) (b_slice (rt_backend q)) a t s = unpack_given int_shape (t_reshape (rt_lib q)) t_slice a t s.
  Proof. unfold rt_backend. destruct (rt_framework q); reflexivity. Qed.
  Lemma pack_alike ts ts' pattern : Forall2 alike ts ts' -> both packed_alike (pack r ts pattern) (pack r' ts' pattern).
  Proof. intros F. unfold pack, pack_with. rewrite !pack_given_ext, <- (ra_unicode _ _ Hrt). apply pack_given_alike, F. Qed.
  Lemma xp_pack_alike ts ts' pattern : Forall2 alike ts ts' -> both packed_alike (xp_pack r ts pattern) (xp_pack r' ts' pattern).
  Proof. intros F. unfold xp_pack, pack_with. rewrite <- (ra_unicode _ _ Hrt). apply pack_given_alike, F. Qed.
  Lemma unpack_given_alike a t t' s : alike t t' ->
    both (Forall2 alike) (unpack_given int_shape (t_reshape (rt_lib r)) t_slice a t s) (unpack_given int_shape (t_reshape (rt_lib r')) t_slice a t' s).
  Proof.
    intros H. unfold unpack_given. rewrite <- (ra_lib _ _ Hrt), <- (int_shape_alike _ _ H). apply both_bind_same. intros [[nb na] mn].
    apply both_bind_same. intros _. apply both_bind_same. intros _. apply both_bind_same. intros n. apply both_bind_same. intros sp.
    match goal with |- both _ (match ?m with _ => _ end) (match ?m' with _ => _ end) => assert (M : both (Forall2 alike) m m') end.
    { apply both_mapM_same. intros [i es]. apply both_bind_same. intros lo. apply both_bind_same. intros hi.
      apply (both_bind alike); [apply slice_alike, H|]. intros u u' Hu. apply reshape_alike, Hu. }
    revert M. repeat match goal with |- context [match ?m with Ok _ => Ok _ | Err _ => _ end] => destruct m end; cbn; auto.
  Qed.
  Lemma unpack_alike t t' s pattern : alike t t' -> both (Forall2 alike) (unpack r t s pattern) (unpack r' t' s pattern).
  Proof. intros F. unfold unpack, unpack_with. rewrite !unpack_given_ext, <- (ra_unicode _ _ Hrt). apply unpack_given_alike, F. Qed.
  Lemma xp_unpack_alike t t' s pattern : alike t t' -> both (Forall2 alike) (xp_unpack r t s pattern) (xp_unpack r' t' s pattern).
  Proof. intros F. unfold xp_unpack, unpack_with. rewrite <- (ra_unicode _ _ Hrt). apply unpack_given_alike, F. Qed.
End Calls.

(** ** Functions on elements *)
Section Maps.
  Context {A B : Type} (f : A -> B).
  Definition graph (a : A) (b : B) : Prop := b = f a.
  Lemma graph_list l l' : Forall2 graph l l' <-> l' = map f l.
  Proof.
    split; [intros F; induction F as [|? ? ? ? E]; [reflexivity|]; cbn; rewrite E; congruence|].
    intros ->. induction l; constructor; [reflexivity|assumption].
  Qed.
  Lemma alike_graph t t' : alike graph t t' <-> t' = t_map f t.
  Proof.
    unfold alike. rewrite graph_list. destruct t, t'; cbn. unfold t_map; cbn. split; [intros [-> ->]; reflexivity|]. intros E. now injection E as -> ->.
  Qed.
  Lemma alike_graphs ts ts' : Forall2 (alike graph) ts ts' <-> ts' = map (t_map f) ts.
  Proof.
    split; [intros F; induction F as [|? ? ? ? E]; [reflexivity|]; cbn; apply alike_graph in E; congruence|].
    intros ->. induction ts; constructor; [now apply alike_graph|assumption].
  Qed.
  Lemma alike_input_graph x : alike_input graph x (input_map f x).
  Proof. destruct x; cbn; [now apply alike_graph|now apply alike_graphs]. Qed.
  Lemma both_graph {X Y} (P : X -> Y -> Prop) (g : X -> Y) m m' : (forall x y, P x y -> y = g x) -> both P m m' -> m' = r_map g m.
  Proof. intros H. destruct m, m'; cbn; try contradiction; [intros E; f_equal; auto|congruence]. Qed.
  Lemma both_graph' (m : result A) m' : m' = r_map f m -> both graph m m'.
  Proof. intros ->. destruct m; reflexivity. Qed.
End Maps.

Section Zip.
  Context {A B C : Type} (f : A -> B -> C) (r : runtime A) (r' : runtime B) (r'' : runtime C).
  Definition pair_red (s : pystr) (ps : list (A * B)) : result (A * B) := r_zip pair (rt_red r s (map fst ps)) (rt_red r' s (map snd ps)).
  Definition pair_runtime : runtime (A * B) :=
    mkR (A * B) (rt_unicode r) (rt_orders r) (rt_framework r) (rt_lib r) pair_red (fun _ => true) (fun n => (rt_num r n, rt_num r' n)).
  Definition unpair (p : A * B) : C := f (fst p) (snd p).
  Lemma zip_pairs l l' : length l = length l' -> map2 f l l' = map unpair (combine l l').
  Proof. revert l'. induction l as [|a l IH]; intros [|b l']; try discriminate; [reflexivity|]. intros E. cbn. rewrite IH by (now injection E). reflexivity. Qed.
  Lemma map_fst_pairs (l : list A) (l' : list B) : length l = length l' -> map fst (combine l l') = l.
  Proof. revert l'. induction l as [|a l IH]; intros [|b l']; try discriminate; [reflexivity|]. intros E. cbn. rewrite IH by (now injection E). reflexivity. Qed.
  Lemma map_snd_pairs (l : list A) (l' : list B) : length l = length l' -> map snd (combine l l') = l'.
  Proof. revert l'. induction l as [|a l IH]; intros [|b l']; try discriminate; [reflexivity|]. intros E. cbn. rewrite IH by (now injection E). reflexivity. Qed.
  Lemma combine_map_pairs (ps : list (A * B)) : combine (map fst ps) (map snd ps) = ps.
  Proof. induction ps as [|[a b] ps IH]; cbn; congruence. Qed.

  Section Red.
    Context (s : pystr).
    Hypothesis Hr : In s reductions -> red_zips f (rt_red r s) (rt_red r' s) (rt_red r'' s).
    Hypothesis Hf : s = lit "mean" -> (forall t, rt_isf r t = true) /\ (forall t, rt_isf r' t = true) /\ (forall t, rt_isf r'' t = true).
    Lemma pair_first : reductions_alike (graph fst) pair_runtime r (RStr s) (RStr s).
    Proof.
      split; [now left|]. split; [intros E t t' _; cbn; symmetry; now apply (Hf E)|].
      intros Hs vs vs' F. apply graph_list in F. subst vs'. apply both_graph'. cbn [pair_runtime rt_red]. unfold pair_red, r_zip, r_map.
      generalize (Hr Hs (map fst vs) (map snd vs)). rewrite !map_length. intros H. specialize (H eq_refl).
      destruct (rt_red r s _), (rt_red r' s _); try contradiction; reflexivity.
    Qed.
    Lemma pair_second : reductions_alike (graph snd) pair_runtime r' (RStr s) (RStr s).
    Proof.
      split; [now left|]. split; [intros E t t' _; cbn; symmetry; now apply (Hf E)|].
      intros Hs vs vs' F. apply graph_list in F. subst vs'. apply both_graph'. cbn [pair_runtime rt_red]. unfold pair_red, r_zip, r_map.
      generalize (Hr Hs (map fst vs) (map snd vs)). rewrite !map_length. intros H. specialize (H eq_refl).
      destruct (rt_red r s _), (rt_red r' s _); try contradiction; cbn; try reflexivity. destruct H. congruence.
    Qed.
    Lemma pair_zipped : reductions_alike (graph unpair) pair_runtime r'' (RStr s) (RStr s).
    Proof.
      split; [now left|]. split; [intros E t t' _; cbn; symmetry; now apply (Hf E)|].
      intros Hs vs vs' F. apply graph_list in F. subst vs'. apply both_graph'. cbn [pair_runtime rt_red]. unfold pair_red, r_zip, r_map.
      generalize (Hr Hs (map fst vs) (map snd vs)). rewrite zip_pairs by (now rewrite !map_length). rewrite !map_length, combine_map_pairs. intros H. specialize (H eq_refl).
      destruct (rt_red r s _), (rt_red r' s _); try contradiction; cbn; [exact H|]. apply H.
    Qed.
    Hypothesis Hr1 : runtimes_alike r r'.
    Hypothesis Hr2 : runtimes_alike r r''.
    Definition pairs (x : tensor A) (y : tensor B) : tensor (A * B) := mkT (shp x) (combine (dat x) (dat y)).
    Lemma pairs_maps x y : same_shape x y ->
      t_map fst (pairs x y) = x /\ t_map snd (pairs x y) = y /\ t_map unpair (pairs x y) = t_zip f x y.
    Proof.
      intros [Es El]. unfold pairs, t_map, t_zip. cbn. rewrite map_fst_pairs, map_snd_pairs, zip_pairs by exact El.
      destruct x, y; cbn in *; subst. auto.
    Qed.
    Lemma zip_unpaired z : t_map unpair z = t_zip f (t_map fst z) (t_map snd z).
    Proof. unfold t_zip, t_map. cbn. now rewrite zip_pairs, combine_map_pairs by (now rewrite !map_length). Qed.
    Lemma pair_runtimes : runtimes_alike pair_runtime r /\ runtimes_alike pair_runtime r' /\ runtimes_alike pair_runtime r''.
    Proof. split; [constructor; reflexivity|]. split; [destruct Hr1; constructor; assumption|destruct Hr2; constructor; assumption]. Qed.
    Lemma reduce_zip x y pattern sizes : same_shape x y ->
      reduce r'' (One (t_zip f x y)) pattern (RStr s) sizes =
      r_zip (t_zip f) (reduce r (One x) pattern (RStr s) sizes) (reduce r' (One y) pattern (RStr s) sizes).
    Proof.
      intros H. destruct (pairs_maps _ _ H) as (E1 & E2 & E3). destruct pair_runtimes as (P1 & P2 & P3).
      pose proof (both_graph (alike (graph fst)) (t_map fst) _ _ (fun _ _ => proj1 (alike_graph _ _ _)) (api_reduce_alike _ _ _ P1 _ _ pair_first _ _ pattern sizes (alike_input_graph fst (One (pairs x y))))) as Xfst.
      pose proof (both_graph (alike (graph snd)) (t_map snd) _ _ (fun _ _ => proj1 (alike_graph _ _ _)) (api_reduce_alike _ _ _ P2 _ _ pair_second _ _ pattern sizes (alike_input_graph snd (One (pairs x y))))) as Xsnd.
      pose proof (both_graph (alike (graph unpair)) (t_map unpair) _ _ (fun _ _ => proj1 (alike_graph _ _ _)) (api_reduce_alike _ _ _ P3 _ _ pair_zipped _ _ pattern sizes (alike_input_graph unpair (One (pairs x y))))) as Xunpair.
      cbn [input_map] in Xfst, Xsnd, Xunpair. rewrite E1 in Xfst. rewrite E2 in Xsnd. rewrite E3 in Xunpair. rewrite Xfst, Xsnd, Xunpair.
      destruct (reduce pair_runtime _ _ _ _); [|reflexivity]. cbn. now rewrite zip_unpaired.
    Qed.
    Lemma xp_reduce_zip x y pattern sizes : same_shape x y ->
      xp_reduce_ r'' (One (t_zip f x y)) pattern (RStr s) sizes =
      r_zip (t_zip f) (xp_reduce_ r (One x) pattern (RStr s) sizes) (xp_reduce_ r' (One y) pattern (RStr s) sizes).
    Proof.
      intros H. destruct (pairs_maps _ _ H) as (E1 & E2 & E3). destruct pair_runtimes as (P1 & P2 & P3).
      pose proof (both_graph (alike (graph fst)) (t_map fst) _ _ (fun _ _ => proj1 (alike_graph _ _ _)) (aa_reduce_alike _ _ _ P1 _ _ pair_first _ _ pattern sizes (alike_input_graph fst (One (pairs x y))))) as Xfst.
      pose proof (both_graph (alike (graph snd)) (t_map snd) _ _ (fun _ _ => proj1 (alike_graph _ _ _)) (aa_reduce_alike _ _ _ P2 _ _ pair_second _ _ pattern sizes (alike_input_graph snd (One (pairs x y))))) as Xsnd.
      pose proof (both_graph (alike (graph unpair)) (t_map unpair) _ _ (fun _ _ => proj1 (alike_graph _ _ _)) (aa_reduce_alike _ _ _ P3 _ _ pair_zipped _ _ pattern sizes (alike_input_graph unpair (One (pairs x y))))) as Xunpair.
      cbn [input_map] in Xfst, Xsnd, Xunpair. rewrite E1 in Xfst. rewrite E2 in Xsnd. rewrite E3 in Xunpair. rewrite Xfst, Xsnd, Xunpair.
      destruct (xp_reduce_ pair_runtime _ _ _ _); [|reflexivity]. cbn. now rewrite zip_unpaired.
    Qed.
  End Red.
End Zip.

Section MapCalls.
  Context {A B : Type} (f : A -> B) (r : runtime A) (r' : runtime B).
  Hypothesis Hrt : runtimes_alike r r'.
  Lemma reduce_map red red' x pattern sizes : reductions_alike (graph f) r r' red red' ->
    reduce r' (input_map f x) pattern red' sizes = r_map (t_map f) (reduce r x pattern red sizes).
  Proof.
    intros H. exact (both_graph (alike (graph f)) (t_map f) _ _ (fun _ _ => proj1 (alike_graph _ _ _)) (api_reduce_alike _ _ _ Hrt _ _ H _ _ pattern sizes (alike_input_graph f x))).
  Qed.
  Lemma xp_reduce_map red red' x pattern sizes : reductions_alike (graph f) r r' red red' ->
    xp_reduce_ r' (input_map f x) pattern red' sizes = r_map (t_map f) (xp_reduce_ r x pattern red sizes).
  Proof.
    intros H. exact (both_graph (alike (graph f)) (t_map f) _ _ (fun _ _ => proj1 (alike_graph _ _ _)) (aa_reduce_alike _ _ _ Hrt _ _ H _ _ pattern sizes (alike_input_graph f x))).
  Qed.
  Lemma red_maps_alike s s' : same_code s s' -> (s = lit "mean" -> forall t, rt_isf r' (t_map f t) = rt_isf r t) ->
    red_maps f (rt_red r s) (rt_red r' s') -> reductions_alike (graph f) r r' (RStr s) (RStr s').
  Proof.
    intros C M H. split; [exact C|]. split.
    - intros E t t' Ht. apply alike_graph in Ht. subst t'. symmetry. now apply M.
    - intros _ vs vs' F. apply graph_list in F. subst vs'. apply both_graph', H.
  Qed.
  Lemma pack_map ts pattern : pack r' (map (t_map f) ts) pattern = r_map (fun p => (t_map f (fst p), snd p)) (pack r ts pattern).
  Proof.
    apply (both_graph (packed_alike (graph f))); [|apply pack_alike; [exact Hrt|now apply alike_graphs]].
    intros [t s] [t' s'] [H1 H2]. apply alike_graph in H1. cbn in *. congruence.
  Qed.
  Lemma xp_pack_map ts pattern : xp_pack r' (map (t_map f) ts) pattern = r_map (fun p => (t_map f (fst p), snd p)) (xp_pack r ts pattern).
  Proof.
    apply (both_graph (packed_alike (graph f))); [|apply xp_pack_alike; [exact Hrt|now apply alike_graphs]].
    intros [t s] [t' s'] [H1 H2]. apply alike_graph in H1. cbn in *. congruence.
  Qed.
  Lemma unpack_map t s pattern : unpack r' (t_map f t) s pattern = r_map (map (t_map f)) (unpack r t s pattern).
  Proof.
    apply (both_graph (Forall2 (alike (graph f)))); [|apply unpack_alike; [exact Hrt|now apply alike_graph]].
    intros l l' H. now apply alike_graphs in H.
  Qed.
  Lemma xp_unpack_map t s pattern : xp_unpack r' (t_map f t) s pattern = r_map (map (t_map f)) (xp_unpack r t s pattern).
  Proof.
    apply (both_graph (Forall2 (alike (graph f)))); [|apply xp_unpack_alike; [exact Hrt|now apply alike_graph]].
    intros l l' H. now apply alike_graphs in H.
  Qed.
End MapCalls.

Lemma not_reduction_rearrange : ~ In s_rearrange reductions.
Proof. intros H. apply str_mem_In in H. discriminate. Qed.
Lemma not_reduction_repeat : ~ In s_repeat reductions.
Proof. intros H. apply str_mem_In in H. discriminate. Qed.

Section Moves.
  Lemma moves_map {A B} (f : A -> B) (r : runtime A) (r' : runtime B) x pattern sizes : runtimes_alike r r' ->
    rearrange r' (input_map f x) pattern sizes = r_map (t_map f) (rearrange r x pattern sizes) /\
    repeat_ r' (input_map f x) pattern sizes = r_map (t_map f) (repeat_ r x pattern sizes) /\
    xp_rearrange r' (input_map f x) pattern sizes = r_map (t_map f) (xp_rearrange r x pattern sizes) /\
    xp_repeat r' (input_map f x) pattern sizes = r_map (t_map f) (xp_repeat r x pattern sizes).
  Proof.
    intros H. pose proof (named_alike (graph f) r r' s_rearrange not_reduction_rearrange) as H1.
    pose proof (named_alike (graph f) r r' s_repeat not_reduction_repeat) as H2.
    exact (conj (reduce_map f r r' H _ _ x pattern sizes H1) (conj (reduce_map f r r' H _ _ x pattern sizes H2)
      (conj (xp_reduce_map f r r' H _ _ x pattern sizes H1) (xp_reduce_map f r r' H _ _ x pattern sizes H2)))).
  Qed.
  Lemma moves_zip {A B C} (f : A -> B -> C) (r : runtime A) (r' : runtime B) (r'' : runtime C) x y pattern sizes :
    runtimes_alike r r' -> runtimes_alike r r'' -> same_shape x y ->
    rearrange r'' (One (t_zip f x y)) pattern sizes = r_zip (t_zip f) (rearrange r (One x) pattern sizes) (rearrange r' (One y) pattern sizes) /\
    repeat_ r'' (One (t_zip f x y)) pattern sizes = r_zip (t_zip f) (repeat_ r (One x) pattern sizes) (repeat_ r' (One y) pattern sizes) /\
    xp_rearrange r'' (One (t_zip f x y)) pattern sizes = r_zip (t_zip f) (xp_rearrange r (One x) pattern sizes) (xp_rearrange r' (One y) pattern sizes) /\
    xp_repeat r'' (One (t_zip f x y)) pattern sizes = r_zip (t_zip f) (xp_repeat r (One x) pattern sizes) (xp_repeat r' (One y) pattern sizes).
  Proof.
    intros H H' S.
    assert (Z1 : In s_rearrange reductions -> red_zips f (rt_red r s_rearrange) (rt_red r' s_rearrange) (rt_red r'' s_rearrange)) by (intros X; destruct (not_reduction_rearrange X)).
    assert (Z2 : In s_repeat reductions -> red_zips f (rt_red r s_repeat) (rt_red r' s_repeat) (rt_red r'' s_repeat)) by (intros X; destruct (not_reduction_repeat X)).
    assert (M1 : s_rearrange = lit "mean" -> (forall t, rt_isf r t = true) /\ (forall t, rt_isf r' t = true) /\ (forall t, rt_isf r'' t = true)) by discriminate.
    assert (M2 : s_repeat = lit "mean" -> (forall t, rt_isf r t = true) /\ (forall t, rt_isf r' t = true) /\ (forall t, rt_isf r'' t = true)) by discriminate.
    exact (conj (reduce_zip f r r' r'' _ Z1 M1 H H' x y pattern sizes S) (conj (reduce_zip f r r' r'' _ Z2 M2 H H' x y pattern sizes S)
      (conj (xp_reduce_zip f r r' r'' _ Z1 M1 H H' x y pattern sizes S) (xp_reduce_zip f r r' r'' _ Z2 M2 H H' x y pattern sizes S)))).
  Qed.
End Moves.
