(** * Element types in layers, einsum and EinMix: proofs *)
From Verif Require Import Py Tensor ListFacts TensorFacts SpecSem SpecGrammar SpecPattern SpecOps SpecElements SpecDtypes SpecLayerDtypes SpecLayers ElementFacts Parsing Recipe Ops Backends Api Layers Einsum EinMix Dtypes LayerDtypes
  FrontFacts2 FrontFacts3 MainFacts3 ApiFacts CallsFacts LayerFacts DtypeFacts.

Definition layers_forget {A} (L : layer (typed A)) (L' : layer (tensor A)) : Prop :=
  ly_recipes L = ly_recipes L' /\ ly_sizes L = ly_sizes L' /\ forgets_to (ly_red L) (ly_red L').

Section Values.
  Context {A : Type} (rules : type_rules) (r : runtime A).
  Notation f := (rt_framework r).
  Notation rd d := (with_isf r (fun _ => is_float_type rules (rt_framework r) d)).

  Let P (x : typed A) (t : tensor A) : Prop := ty_val x = t.
  Lemma both_forget m m' : both P m m' -> forget m = m'.
  Proof. destruct m, m'; cbn; unfold P; intros H; try contradiction; congruence. Qed.
  Lemma both_same_type d (m : result (tensor A)) : both P (same_type d m) m.
  Proof. destruct m; reflexivity. Qed.

  Lemma scriptable_forget isf rec x red red' sizes : forgets_to red red' ->
    forget (ty_scriptable_apply rules r rec x red sizes) = scriptable_apply (with_isf r isf) rec (ty_val x) red' sizes.
  Proof.
    intros HR. apply both_forget. unfold ty_scriptable_apply, scriptable_apply.
    apply both_bind_same. intros k.
    apply (both_bind P). { destruct (k_init k); [apply both_same_type|reflexivity]. } intros x1 t1 <-.
    apply (both_bind P). { destruct (k_reorder k); [apply both_same_type|reflexivity]. } intros x2 t2 <-.
    apply (both_bind P). { destruct (k_reduced k); [reflexivity|]. destruct HR; [apply both_same_type|reflexivity]. } intros x3 t3 <-.
    apply (both_bind P). { destruct (k_added k); [reflexivity|apply both_same_type]. } intros x4 t4 <-.
    destruct (k_final k); [apply both_same_type|reflexivity].
  Qed.

  Lemma layer_forget L L' x : layers_forget L L' -> forget (ty_call_layer rules r L x) = call_layer (rd (ty_dtype x)) L' (ty_val x).
  Proof.
    intros (E1 & E2 & HR). unfold ty_call_layer, call_layer. change (rt_framework (rd (ty_dtype x))) with f.
    assert (M : forget (ty_mixin_apply rules r L x) = mixin_apply (rd (ty_dtype x)) L' (ty_val x)).
    { unfold ty_mixin_apply, mixin_apply, ty_recipe_for, recipe_for. rewrite E1, E2. destruct (of_option KeyError _) as [rec|]; [|reflexivity]. cbn [bind].
      unfold apply_recipe. rewrite (shape_rd rules r). cbn [b_shape typed_backend]. destruct (reconstruct int_ops rec _ _) as [k|ex]; [|reflexivity]. cbn [bind]. apply cooked_forget, HR. }
    destruct f eqn:Ef; try exact M.
    unfold ty_torch_apply, torch_apply, ty_recipe_for, recipe_for. rewrite E1, E2. destruct (of_option KeyError _) as [rec|]; [|reflexivity]. cbn [bind].
    apply scriptable_forget, HR.
  Qed.
  (** the torch layer does not look at the type *)
  Lemma torch_forget L L' x : f = Torch -> layers_forget L L' -> forget (ty_call_layer rules r L x) = call_layer r L' (ty_val x).
  Proof.
    intros Ef (E1 & E2 & HR). unfold ty_call_layer, call_layer. rewrite Ef. unfold ty_torch_apply, torch_apply, ty_recipe_for, recipe_for. rewrite E1, E2.
    destruct (of_option KeyError _) as [rec|]; [|reflexivity]. cbn [bind]. rewrite (scriptable_forget (rt_isf r) rec x _ _ _ HR). destruct r; reflexivity.
  Qed.

  (** *** types *)
  Lemma scriptable_type rec x s sizes y : ty_scriptable_apply rules r rec x (RStr s) sizes = Ok y ->
    exists k, reconstruct int_ops rec (b_shape (rt_backend r) (ty_val x)) sizes = Ok k /\
      ty_dtype y = match k_reduced k with [] => ty_dtype x | _ => reduced_type rules TorchJit s (k_reduced k) (ty_dtype x) end /\
      (k_reduced k <> [] -> str_mem s reductions = true).
  Proof.
    unfold ty_scriptable_apply. set (r' := with_framework r TorchJit). intros H. apply bind_Ok in H as [k [Hk H]]. exists k.
    split. { rewrite <- Hk. cbn [b_shape typed_backend]. f_equal. unfold rt_backend. cbn. destruct f; reflexivity. }
    apply bind_Ok in H as [t1 [H1 H]]. apply bind_Ok in H as [t2 [H2 H]]. apply bind_Ok in H as [t3 [H3 H]]. apply bind_Ok in H as [t4 [H4 H]].
    assert (D1 : ty_dtype t1 = ty_dtype x) by (destruct (k_init k); [apply same_inv in H1 as [H1 _]; auto|congruence]).
    assert (D2 : ty_dtype t2 = ty_dtype t1) by (destruct (k_reorder k); [apply same_inv in H2 as [H2 _]; auto|congruence]).
    assert (D4 : ty_dtype t4 = ty_dtype t3) by (destruct (k_added k); [congruence|apply same_inv in H4 as [H4 _]; auto]).
    assert (D5 : ty_dtype y = ty_dtype t4) by (destruct (k_final k); [apply same_inv in H as [H _]; auto|congruence]).
    rewrite D5, D4. destruct (k_reduced k) as [|a l]; [split; [injection H3 as <-; congruence|congruence]|].
    apply same_inv in H3 as [H3 H6]. split; [rewrite H3, D2, D1; reflexivity|]. intros _.
    change (torch_jit_reduce (rt_red r) (ty_val t2) s (a :: l) = Ok (ty_val t3)) in H6. unfold torch_jit_reduce in H6.
    destruct (str_mem s [lit "min"; lit "max"; lit "sum"; lit "mean"]) eqn:E.
    - apply str_mem_In in E. apply str_mem_In. cbn in E |- *. tauto.
    - destruct (str_eqb s (lit "prod")) eqn:E'; [|discriminate]. apply str_eqb_eq in E'. subst s. reflexivity.
  Qed.
  Lemma mixin_type L x s y : ly_red L = RStr s -> ty_mixin_apply rules r L x = Ok y ->
    exists rec k, ty_recipe_for L x = Ok rec /\ reconstruct int_ops rec (b_shape (rt_backend r) (ty_val x)) (ly_sizes L) = Ok k /\
      ty_dtype y = match k_reduced k with [] => ty_dtype x | _ => reduced_type rules f s (k_reduced k) (ty_dtype x) end /\
      (k_reduced k <> [] -> str_mem s reductions = true).
  Proof.
    intros Es H. unfold ty_mixin_apply in H. apply bind_Ok in H as [rec [Hr H]]. unfold apply_recipe in H. apply bind_Ok in H as [k [Hk H]]. rewrite Es in H.
    exists rec, k. split; [exact Hr|]. split; [exact Hk|]. split; [apply cooked_type, H|]. intros Hne.
    unfold apply_cooked in H. apply bind_Ok in H as [t1 [_ H]]. apply bind_Ok in H as [t2 [_ H]]. destruct (k_reduced k) as [|a l]; [contradiction|]. cbn [reduce_axes] in H.
    destruct (str_mem s reductions); [reflexivity|discriminate].
  Qed.
  Definition layer_framework : framework := match f with Torch => TorchJit | g => g end.
  Lemma layer_type L x s y : ly_red L = RStr s -> ty_call_layer rules r L x = Ok y ->
    exists rec k, ty_recipe_for L x = Ok rec /\ reconstruct int_ops rec (b_shape (rt_backend r) (ty_val x)) (ly_sizes L) = Ok k /\
      ty_dtype y = match k_reduced k with [] => ty_dtype x | _ => reduced_type rules layer_framework s (k_reduced k) (ty_dtype x) end /\
      (k_reduced k <> [] -> str_mem s reductions = true).
  Proof.
    intros Es H. unfold ty_call_layer in H. unfold layer_framework. destruct f eqn:Ef; try (rewrite <- Ef; apply mixin_type; [exact Es|]; rewrite ?Ef; exact H).
    unfold ty_torch_apply in H. apply bind_Ok in H as [rec [Hr H]]. rewrite Es in H. apply scriptable_type in H as [k H]. exists rec, k. split; [exact Hr|exact H].
  Qed.
  Lemma rearranged_type L x y : ly_red L = RStr s_rearrange -> ty_call_layer rules r L x = Ok y -> ty_dtype y = ty_dtype x.
  Proof.
    intros Es H. apply (layer_type L x _ y Es) in H as (rec & k & _ & _ & H & H'). destruct (k_reduced k); [exact H|]. discriminate H'. discriminate.
  Qed.
  (** a layer that rearranges has no use for the test of floating types *)
  Lemma rearranged_isf isf (L : layer (tensor A)) x : ly_red L = RStr s_rearrange -> call_layer (with_isf r isf) L x = call_layer r L x.
  Proof.
    intros Es. unfold call_layer. change (rt_framework (with_isf r isf)) with f.
    assert (M : mixin_apply (with_isf r isf) L x = mixin_apply r L x).
    { unfold mixin_apply, apply_recipe. rewrite Es. apply bind_ext. intros rec _. unfold rt_backend. cbn [with_isf rt_framework rt_lib rt_red rt_isf rt_num].
      destruct f; apply bind_ext; intros k _; unfold apply_cooked; apply bind_ext; intros t1 _; apply bind_ext; intros t2 _; (destruct (k_reduced k); [reflexivity|]); reflexivity. }
    destruct f; try exact M. reflexivity.
  Qed.
End Values.

(** *** constructors *)
Section Make.
  Context {A : Type} (U : unicode).
  Lemma make_forget os pattern (red : reduction (typed A)) (red' : reduction (tensor A)) sizes : forgets_to red red' ->
    both layers_forget (make_layer U os pattern red sizes) (make_layer U os pattern red' sizes).
  Proof. intros H. unfold make_layer. rewrite (op_forget _ _ H). apply both_bind_same. intros recipes. split; [reflexivity|]. split; [reflexivity|exact H]. Qed.
  Lemma Reduce_forget os pattern (red : reduction (typed A)) (red' : reduction (tensor A)) sizes : forgets_to red red' ->
    both layers_forget (Reduce U os pattern red sizes) (Reduce U os pattern red' sizes).
  Proof. intros H. unfold Reduce. apply both_bind_same. intros _. apply make_forget, H. Qed.
  Definition moves_alike (L : layer (typed A)) (L' : layer (tensor A)) : Prop :=
    layers_forget L L' /\ ly_red L = RStr s_rearrange /\ ly_red L' = RStr s_rearrange.
  Lemma Rearrange_forget os pattern sizes : both moves_alike (Rearrange (T := typed A) U os pattern sizes) (Rearrange (T := tensor A) U os pattern sizes).
  Proof.
    unfold Rearrange. apply both_bind_same. intros _. unfold make_layer. cbn [op_of]. apply both_bind_same. intros recipes. repeat split. constructor.
  Qed.
  Definition omoves_alike (L : option (layer (typed A))) (L' : option (layer (tensor A))) : Prop :=
    match L, L' with Some L, Some L' => moves_alike L L' | None, None => True | _, _ => False end.
  Definition mixes_alike (M : einmix (typed A)) (M' : einmix (tensor A)) : Prop :=
    em_einsum M = em_einsum M' /\ em_weight M = em_weight M' /\ em_bias M = em_bias M' /\ omoves_alike (em_pre M) (em_pre M') /\ omoves_alike (em_post M) (em_post M').
  Lemma EinMix_forget os os' pattern wt bt sizes : both mixes_alike (EinMix (T := typed A) U os os' pattern wt bt sizes) (EinMix (T := tensor A) U os os' pattern wt bt sizes).
  Proof.
    unfold EinMix, initialize_einmix. apply both_bind_same. intros _. apply both_bind_same. intros [[[[[lp rp] l] rg] w] next].
    apply (both_bind (fun p q => omoves_alike (fst p) (fst q) /\ omoves_alike (snd p) (snd q))).
    - unfold rearrange_layers. apply (both_bind omoves_alike).
      { destruct (pre_reshape lp l sizes) as [[p ls]|]; [|exact I]. eapply both_bind; [apply Rearrange_forget|]. intros L L' H. exact H. }
      intros o1 o2 H1. apply (both_bind omoves_alike).
      { destruct (post_reshape rp rg) as [p|]; [|exact I]. eapply both_bind; [apply Rearrange_forget|]. intros L L' H. exact H. }
      intros o3 o4 H2. exact (conj H1 H2).
    - intros [p q] [p' q'] [H1 H2]. cbn in H1, H2. repeat (apply both_bind_same; intros ?). repeat split; assumption.
  Qed.
  Lemma both_Ok {X Y} (P : X -> Y -> Prop) m m' x : both P m m' -> m = Ok x -> exists y, m' = Ok y /\ P x y.
  Proof. intros H ->. destruct m'; cbn in H; [eauto|contradiction]. Qed.
End Make.

Section Calls.
  Context {A : Type} (rules : type_rules) (r : runtime A).
  Notation f := (rt_framework r).

  Lemma option_forget L L' x : omoves_alike L L' -> forget (ty_call_option rules r L x) = call_option r L' (ty_val x).
  Proof.
    destruct L as [L|], L' as [L'|]; cbn; try contradiction; [|reflexivity]. intros (H & _ & E). rewrite (layer_forget rules r L L' x H). apply rearranged_isf, E.
  Qed.
  Lemma option_type L (L' : option (layer (tensor A))) x y : omoves_alike L L' -> ty_call_option rules r L x = Ok y -> ty_dtype y = ty_dtype x.
  Proof.
    destruct L as [L|], L' as [L'|]; cbn [omoves_alike ty_call_option]; try contradiction; [|intros _ H; injection H as <-; reflexivity]. intros (_ & E & _). apply (rearranged_type rules r L x y E).
  Qed.

  Context (lib : pystr -> list (tensor A) -> result (tensor A)) (iadd : tensor A -> tensor A -> result (tensor A))
    (einsum_type : list dtype -> result dtype) (iadd_type : dtype -> dtype -> result dtype).


  Lemma mix_forget M M' w b x d1 d : mixes_alike M M' -> einsum_type [ty_dtype x; ty_dtype w] = Ok d1 -> bias_type iadd_type d1 b = Ok d ->
    forget (ty_call_einmix rules r lib iadd einsum_type iadd_type M w b x) = call_einmix r lib iadd M' (ty_val w) (option_map ty_val b) (ty_val x).
  Proof.
    intros (E1 & _ & _ & H1 & H2) T1 T2. unfold ty_call_einmix, call_einmix. rewrite <- (option_forget _ _ x H1).
    destruct (ty_call_option rules r (em_pre M) x) as [i|ex] eqn:Ei; [|reflexivity]. cbn [forget bind].
    assert (Di := option_type _ _ _ _ H1 Ei). unfold ty_lib_einsum. cbn [map]. rewrite Di, T1, E1.
    destruct (lib (em_einsum M') [ty_val i; ty_val w]) as [t|ex]; [|reflexivity]. cbn [bind].
    destruct b as [b|]; cbn [option_map bias_type] in *.
    - unfold ty_iadd. cbn [ty_val ty_dtype]. rewrite T2. destruct (iadd t (ty_val b)) as [t'|ex]; [|reflexivity]. cbn [bind]. apply (option_forget _ _ (mkTy d t') H2).
    - cbn [bind]. apply (option_forget _ _ (mkTy d1 t) H2).
  Qed.
  Lemma mix_type M (M' : einmix (tensor A)) w b x y : mixes_alike M M' -> ty_call_einmix rules r lib iadd einsum_type iadd_type M w b x = Ok y ->
    exists d1, einsum_type [ty_dtype x; ty_dtype w] = Ok d1 /\ bias_type iadd_type d1 b = Ok (ty_dtype y).
  Proof.
    intros (_ & _ & _ & H1 & H2) H. unfold ty_call_einmix in H. apply bind_Ok in H as [i [Hi H]]. apply bind_Ok in H as [z [Hz H]]. apply bind_Ok in H as [z' [Hz' H]].
    apply (option_type _ _ _ _ H1) in Hi. apply (option_type _ _ _ _ H2) in H. unfold ty_lib_einsum in Hz. cbn [map] in Hz. apply bind_Ok in Hz as [t [_ Hz]]. apply bind_Ok in Hz as [d1 [T1 Hz]]. injection Hz as <-.
    exists d1. rewrite Hi in T1. split; [exact T1|]. rewrite H. destruct b as [b|]; cbn [bias_type]; [|injection Hz' as <-; reflexivity].
    unfold ty_iadd in Hz'. apply bind_Ok in Hz' as [t' [_ Hz']]. apply bind_Ok in Hz' as [d [T2 Hz']]. injection Hz' as <-. exact T2.
  Qed.

  (** *** einsum *)

  Lemma as_tensors (l : list (typed A + pystr)) : (let* ts := mapM as_tensor l in Ok (map ty_val ts)) = mapM as_tensor (map value_of l).
  Proof.
    induction l as [|[t|s] l IH]; [reflexivity| |reflexivity]. cbn [mapM map value_of as_tensor bind]. rewrite <- IH. destruct (mapM as_tensor l); reflexivity.
  Qed.
  Lemma as_types (l : list (typed A + pystr)) ts : mapM as_tensor l = Ok ts -> map ty_dtype ts = types_in l.
  Proof.
    revert ts. induction l as [|[t|s] l IH]; intros ts H; cbn [mapM as_tensor bind] in H; [injection H as <-; reflexivity| |discriminate].
    apply bind_Ok in H as [ts' [H' H]]. injection H as <-. cbn. rewrite (IH _ H'). reflexivity.
  Qed.
  Lemma removelast_map {X Y} (g : X -> Y) l : removelast (map g l) = map g (removelast l).
  Proof. induction l as [|x [|y l] IH]; [reflexivity|reflexivity|]. cbn [map removelast] in *. rewrite IH. reflexivity. Qed.
  Lemma last_value (l : list (typed A + pystr)) : last (map value_of l) (inr []) = value_of (last l (inr [])).
  Proof. induction l as [|x [|y l] IH]; [reflexivity|reflexivity|]. cbn [map last] in *. exact IH. Qed.
  Lemma types_removelast (l : list (typed A + pystr)) s : last l (inr []) = inr s -> types_in (removelast l) = types_in l.
  Proof.
    induction l as [|x [|y l] IH]; [reflexivity| |]; intros H; [cbn in H; subst x; reflexivity|]. specialize (IH H).
    change (types_in (removelast (x :: y :: l))) with (match x with inl t => [ty_dtype t] | inr _ => [] end ++ types_in (removelast (y :: l))). rewrite IH. reflexivity.
  Qed.
  Lemma einsum_forget args d : einsum_type (types_in args) = Ok d ->
    forget (ty_einsum r lib einsum_type args) = einsum_with (rt_unicode r) lib (map value_of args).
  Proof.
    intros Hd. unfold ty_einsum, einsum_with, einsum_given. rewrite map_length, last_value, removelast_map.
    destruct (raise_if (length args <=? 1) ValueError); [|reflexivity]. cbn [bind]. destruct (last args (inr [])) as [t|s] eqn:El; [reflexivity|]. cbn [value_of].
    destruct (compactify (rt_unicode r) s) as [c|ex]; [|reflexivity]. cbn [bind].
    assert (G : forget (let* ts := mapM as_tensor (removelast args) in ty_lib_einsum lib einsum_type c ts) = (let* ts := mapM as_tensor (map value_of (removelast args)) in lib c ts)).
    { rewrite <- as_tensors. destruct (mapM as_tensor (removelast args)) as [ts|ex] eqn:Em; [|reflexivity]. cbn [bind]. unfold ty_lib_einsum.
      rewrite (as_types _ _ Em), (types_removelast _ _ El), Hd. destruct (lib c (map ty_val ts)); reflexivity. }
    destruct (removelast args) as [|[t|s'] l] eqn:Er; [exact G|exact G|reflexivity].
  Qed.
  Lemma einsum_typed args y : ty_einsum r lib einsum_type args = Ok y -> einsum_type (types_in args) = Ok (ty_dtype y).
  Proof.
    unfold ty_einsum, einsum_with, einsum_given. intros H. apply bind_Ok in H as [_ [_ H]]. destruct (last args (inr [])) as [t|s] eqn:El; [discriminate|].
    apply bind_Ok in H as [c [_ H]].
    assert (G : (let* ts := mapM as_tensor (removelast args) in ty_lib_einsum lib einsum_type c ts) = Ok y) by (destruct (removelast args) as [|[t|s'] l]; [exact H|exact H|discriminate]).
    apply bind_Ok in G as [ts [Em G]]. unfold ty_lib_einsum in G. apply bind_Ok in G as [t [_ G]]. apply bind_Ok in G as [d [T G]]. injection G as <-.
    rewrite (as_types _ _ Em), (types_removelast _ _ El) in T. exact T.
  Qed.
End Calls.

(** *** the type of a Reduce layer's result *)
Section Reduced.
  Context {A : Type} (rules : type_rules) (r : runtime A) (Hok : runtime_ok r).
  Notation f := (rt_framework r).

  Lemma one_by_one_layer s : one_by_one (layer_framework r) s = one_by_one f s.
  Proof. unfold layer_framework. destruct f; reflexivity. Qed.

  Lemma layer_reduced os pattern s sizes (L : layer (typed A)) x y Le Re e len : (forall n, orders_ok (os n)) -> NoDup (map fst sizes) -> builtin s ->
    Reduce (rt_unicode r) os pattern (RStr s) sizes = Ok L ->
    call_ok (rt_unicode r) Reducing pattern sizes (shp (ty_val x)) Le Re e len ->
    ty_call_layer rules r L x = Ok y ->
    ty_dtype y = match missing (left_groups e Le) (right_groups e Le Re) with
                 | [] => ty_dtype x
                 | m => if one_by_one f s then Nat.iter (length m) (tr_reduced rules s) (ty_dtype x) else tr_reduced rules s (ty_dtype x)
                 end.
  Proof.
    intros Hos Hn Hb HM Hc H. unfold Reduce in HM. apply bind_Ok in HM as [_ [_ HM]]. unfold make_layer in HM. apply bind_Ok in HM as [recipes [HM E]]. injection E as <-.
    apply all_dims_ok in HM as (l & rr & _ & HM); [|apply Hok|exact Hos].
    assert (G := prep_get (rt_unicode r) pattern (OpStr s) (map fst sizes) os _ recipes (length (shp (ty_val x))) HM).
    apply (layer_type rules r (mkLayer pattern (RStr s) sizes recipes) x s y eq_refl) in H as (rec & k & E1 & E2 & H & _). unfold ty_recipe_for in E1. cbn [ly_recipes ly_sizes] in E1, E2. rewrite G in E1.
    assert (Es : b_shape (rt_backend r) (ty_val x) = map Z.of_nat (shp (ty_val x))) by (unfold rt_backend; destruct f; reflexivity). rewrite Es in E2.
    assert (Hr : op_role (OpStr s) = Some Reducing) by (unfold builtin in Hb; repeat (destruct Hb as [<-|Hb]; [reflexivity|]); destruct Hb).
    destruct (cooked_known (rt_unicode r) (ro_unicode _ Hok) (os (length (shp (ty_val x)))) (Hos _) pattern (OpStr s) sizes (shp (ty_val x)) Reducing Le Re e len Hn Hr Hc)
      as (rc' & k' & F1 & F2 & _ & _ & Kd & _).
    destruct (in_dec Nat.eq_dec (length (shp (ty_val x))) (fitting_ranks l)) as [_|]; [|discriminate E1]. rewrite F1 in E1. injection E1 as <-. rewrite E2 in F2. injection F2 as <-.
    rewrite H, Kd. destruct (missing (left_groups e Le) (right_groups e Le Re)) as [|a m]; [reflexivity|]. cbn [length seq]. unfold reduced_type. rewrite one_by_one_layer. cbn [length]. rewrite seq_length. reflexivity.
  Qed.

  Lemma layer_mean os pattern sizes (L : layer (typed A)) x Le Re e len : (forall n, orders_ok (os n)) -> NoDup (map fst sizes) -> wf (ty_val x) -> no_reserved sizes ->
    Reduce (rt_unicode r) os pattern (RStr (lit "mean")) sizes = Ok L ->
    call_ok (rt_unicode r) Reducing pattern sizes (shp (ty_val x)) Le Re e len -> e < 8 ->
    missing (left_groups e Le) (right_groups e Le Re) <> [] -> f <> Torch -> is_float_type rules f (ty_dtype x) = false ->
    ty_call_layer rules r L x = Err NotImplementedError.
  Proof.
    intros Hos Hn Hw Hres HM Hc He Hm Hf Hi. apply forget_Err.
    destruct (both_Ok _ _ _ _ (Reduce_forget (rt_unicode r) os pattern (RStr (lit "mean")) (RStr (lit "mean")) sizes (F_str _)) HM) as [L' [HM' HL]].
    rewrite (layer_forget rules r L L' x HL).
    destruct (reduce_layer (with_isf r (fun _ => is_float_type rules f (ty_dtype x))) (with_ok r Hok _) os pattern (RStr (lit "mean")) sizes L' Hos Hn Hres) as (l & rr & Hrd & HF); [|exact HM'|].
    { intros E. cbn in E. contradiction. }
    destruct (reads_fun (rt_unicode r) (ro_unicode _ Hok) pattern l rr Le Re Hrd (co_reads _ _ _ _ _ _ _ _ _ Hc)) as [-> ->].
    rewrite (proj1 (HF (ty_val x)) e (co_rank _ _ _ _ _ _ _ _ _ Hc) He).
    apply (reduce_mean_refused _ (with_ok r Hok _) _ _ _ Le Re e len); auto.
  Qed.
End Reduced.

Section Made.
  Context {A : Type} (rules : type_rules) (r : runtime A).
  Lemma both_weaken {X Y} (P Q : X -> Y -> Prop) m m' : (forall x y, P x y -> Q x y) -> both P m m' -> both Q m m'.
  Proof. intros H. destruct m, m'; cbn; auto. Qed.
  Lemma reduce_layer_forget os pattern (red : reduction (typed A)) (red' : reduction (tensor A)) sizes : forgets_to red red' ->
    both (fun L L' => forall x, forget (ty_call_layer rules r L x) = call_layer (with_isf r (fun _ => is_float_type rules (rt_framework r) (ty_dtype x))) L' (ty_val x))
      (Reduce (rt_unicode r) os pattern red sizes) (Reduce (rt_unicode r) os pattern red' sizes).
  Proof. intros H. eapply both_weaken; [|apply Reduce_forget, H]. intros L L' HL x. apply layer_forget, HL. Qed.
  Lemma torch_layer_forget os pattern (red : reduction (typed A)) (red' : reduction (tensor A)) sizes : rt_framework r = Torch -> forgets_to red red' ->
    both (fun L L' => forall x, forget (ty_call_layer rules r L x) = call_layer r L' (ty_val x))
      (Reduce (rt_unicode r) os pattern red sizes) (Reduce (rt_unicode r) os pattern red' sizes).
  Proof. intros Ht H. eapply both_weaken; [|apply Reduce_forget, H]. intros L L' HL x. apply torch_forget; assumption. Qed.
  Lemma rearrange_layer_forget os pattern sizes :
    both (fun (L : layer (typed A)) L' => forall x, forget (ty_call_layer rules r L x) = call_layer r L' (ty_val x) /\ forall y, ty_call_layer rules r L x = Ok y -> ty_dtype y = ty_dtype x)
      (Rearrange (rt_unicode r) os pattern sizes) (Rearrange (rt_unicode r) os pattern sizes).
  Proof.
    eapply both_weaken; [|apply Rearrange_forget]. intros L L' HL x. split; [apply (option_forget rules r (Some L) (Some L') x HL)|]. intros y. apply (option_type rules r (Some L) (Some L') x y HL).
  Qed.
  Lemma einmix_types lib iadd einsum_type iadd_type os os' pattern wt bt sizes :
    both (fun (M : einmix (typed A)) M' => em_weight M = em_weight M' /\ em_bias M = em_bias M' /\ forall w b x,
          (forall d1 d, einsum_type [ty_dtype x; ty_dtype w] = Ok d1 -> bias_type iadd_type d1 b = Ok d ->
             forget (ty_call_einmix rules r lib iadd einsum_type iadd_type M w b x) = call_einmix r lib iadd M' (ty_val w) (option_map ty_val b) (ty_val x)) /\
          (forall y, ty_call_einmix rules r lib iadd einsum_type iadd_type M w b x = Ok y ->
             exists d1, einsum_type [ty_dtype x; ty_dtype w] = Ok d1 /\ bias_type iadd_type d1 b = Ok (ty_dtype y)))
    (EinMix (rt_unicode r) os os' pattern wt bt sizes) (EinMix (rt_unicode r) os os' pattern wt bt sizes).
  Proof.
    eapply both_weaken; [|apply EinMix_forget]. intros M M' HM. pose proof HM as (_ & H1 & H2 & _). split; [exact H1|]. split; [exact H2|]. intros w b x. split.
    - intros d1 d. apply mix_forget, HM.
    - intros y. eapply mix_type, HM.
  Qed.
End Made.
