(** * EinMix with lengths that are integers of numpy: facts *)
From Verif Require Import Py ListFacts Tensor SpecGrammar Parsing ParseFacts2 LayerFacts Recipe Ops Backends Api Einsum Layers EinMix NumpyInts NumpyIntFacts NumpyIntFacts2 NumpyIntLayers NumpyIntLayerFacts NumpyIntMix.

Definition rmap {X Y} (f : X -> Y) (m : result X) : result Y := match m with Ok x => Ok (f x) | Err e => Err e end.

Lemma get_ints sizes s : dict_get str_eqb s (as_ints sizes) = option_map int_value (dict_get str_eqb s sizes).
Proof.
  unfold as_ints. induction sizes as [|[t n] sizes IH]; [reflexivity|]. cbn [map dict_get]. destruct (str_eqb s t); [reflexivity|exact IH].
Qed.
Lemma has_ints sizes s : dict_has str_eqb s (as_ints sizes) = dict_has str_eqb s sizes.
Proof. unfold dict_has. rewrite get_ints. destruct (dict_get _ _ sizes); reflexivity. Qed.
Lemma length_of_ints sizes a : length_of (as_ints sizes) a = rmap int_value (np_length_of sizes a).
Proof. destruct a as [s|? ?]; [|reflexivity]. cbn [length_of np_length_of]. rewrite get_ints. destruct (dict_get _ _ sizes); reflexivity. Qed.
Lemma lengths_ints sizes l : mapM (length_of (as_ints sizes)) l = rmap (map int_value) (mapM (np_length_of sizes) l).
Proof.
  induction l as [|a l IH]; [reflexivity|]. cbn [mapM]. rewrite length_of_ints. destruct (np_length_of sizes a) as [n|]; [|reflexivity]. cbn [rmap bind].
  rewrite IH. destruct (mapM (np_length_of sizes) l); reflexivity.
Qed.
Lemma weight_ints w sizes : weight_lengths w (as_ints sizes) = rmap (map int_value) (np_weight_lengths w sizes).
Proof.
  unfold weight_lengths, np_weight_lengths. induction (p_composition w) as [|c l IH]; [reflexivity|]. cbn [mapM].
  destruct (only_axis c) as [a|]; [|reflexivity]. cbn [bind]. rewrite length_of_ints. destruct (np_length_of sizes a) as [n|]; [|reflexivity]. cbn [rmap bind].
  rewrite IH. destruct (mapM (fun c => let* axis := only_axis c in np_length_of sizes axis) l); reflexivity.
Qed.
Lemma op_value f a b : int_value (anyint_op f a b) = f (int_value a) (int_value b).
Proof. destruct a, b; reflexivity. Qed.
Lemma product_ints l a : fold_left Z.mul (map int_value l) (int_value a) = int_value (fold_left (anyint_op Z.mul) l a).
Proof. revert a. induction l as [|n l IH]; intros a; [reflexivity|]. cbn [map fold_left]. rewrite <- op_value. apply IH. Qed.
Lemma fan_in_ints rght w sizes : fan_in rght w (as_ints sizes) = rmap int_value (np_fan_in rght w sizes).
Proof.
  unfold fan_in, np_fan_in. destruct (mapM only_axis _) as [axes|]; [|reflexivity]. cbn [bind]. rewrite lengths_ints.
  destruct (mapM (np_length_of sizes) _) as [l|]; [|reflexivity]. cbn [rmap bind]. f_equal. exact (product_ints l (PyInt 1)).
Qed.
Lemma bias_step_ints ids sizes st a :
  bias_step ids (as_ints sizes) (map int_value (fst st), snd st) a = rmap (fun p => (map int_value (fst p), snd p)) (np_bias_step ids sizes st a).
Proof.
  destruct st as [shape used]. unfold bias_step, np_bias_step. cbn [fst snd]. destruct (axis_eqb a ax_ellipsis); [destruct used; reflexivity|].
  destruct (axis_mem a ids); [|cbn [rmap fst snd]; rewrite map_app; reflexivity].
  rewrite length_of_ints. destruct (np_length_of sizes a); [|reflexivity]. cbn [rmap bind fst snd]. rewrite map_app. reflexivity.
Qed.
Lemma bias_fold_ints ids sizes l st :
  foldM (bias_step ids (as_ints sizes)) l (map int_value (fst st), snd st) = rmap (fun p => (map int_value (fst p), snd p)) (foldM (np_bias_step ids sizes) l st).
Proof.
  revert st. induction l as [|a l IH]; intros st; [reflexivity|]. cbn [foldM]. rewrite bias_step_ints. destruct (np_bias_step ids sizes st a) as [st'|]; [|reflexivity].
  cbn [rmap bind]. apply IH.
Qed.
Lemma bias_ints U rght next bias sizes : bias_lengths U rght next bias (as_ints sizes) = rmap (option_map (map int_value)) (np_bias_lengths U rght next bias sizes).
Proof.
  destruct bias as [text|]; [|reflexivity]. cbn [bias_lengths np_bias_lengths]. destruct (parse_expression _ _ _ _ _) as [[b ?]|]; [|reflexivity]. cbn [bind].
  destruct (report_axes _); [|reflexivity]. cbn [bind]. rewrite as_ints_keys. destruct (report_axes _); [|reflexivity]. cbn [bind].
  pose proof (bias_fold_ints (p_identifiers b) sizes (flat_axes rght) ([], false)) as E. cbn [fst snd map] in E. rewrite E.
  destruct (foldM (np_bias_step _ _) _ _) as [[sh u]|]; reflexivity.
Qed.
Lemma check_ints lft rght w sizes : einmix_check lft rght w (as_ints sizes) = np_einmix_check lft rght w sizes.
Proof.
  unfold einmix_check, np_einmix_check. rewrite as_ints_keys. f_equal. f_equal.
  induction (p_identifiers w) as [|a l IH]; [reflexivity|]. cbn [existsb]. rewrite IH. destruct a; [rewrite has_ints|]; reflexivity.
Qed.
Definition int_pre {T} (p : option (np_layer T)) : option (layer T) := option_map int_layer p.
Lemma pre_ints lp lft sizes : pre_reshape lp lft (as_ints sizes) = option_map (fun '(p, l) => (p, as_ints l)) (np_pre_reshape lp lft sizes).
Proof.
  unfold pre_reshape, np_pre_reshape. destruct (any_composed lft); [|reflexivity]. cbn [option_map]. do 2 f_equal.
  unfold as_ints. induction sizes as [|[s n] sizes IH]; [reflexivity|]. cbn [map filter]. destruct (str_mem s _); [cbn [map]; f_equal|]; exact IH.
Qed.
Lemma layers_ints {T} U os os' pre post :
  rearrange_layers (T := T) U os os' (option_map (fun '(p, l) => (p, as_ints l)) pre) post = rmap (fun '(a, b) => (int_pre a, b)) (np_rearrange_layers U os os' pre post).
Proof.
  unfold rearrange_layers, np_rearrange_layers. destruct pre as [[p l]|]; cbn [option_map].
  - rewrite Rearrange_ints. destruct (np_Rearrange _ _ _ _) as [L|]; [|reflexivity]. cbn [int_made bind].
    destruct post as [q|]; [|reflexivity]. destruct (Rearrange _ _ _ _); reflexivity.
  - destruct post as [q|]; [|reflexivity]. cbn [bind]. destruct (Rearrange _ _ _ _); reflexivity.
Qed.

(** the same layer with ints *)
Definition int_mix {T} (M : np_einmix T) : einmix T :=
  mkMix (nm_pattern M) (nm_weight_text M) (nm_bias_text M) (as_ints (nm_sizes M)) (int_pre (nm_pre M)) (nm_post M)
    (map int_value (nm_weight M)) (option_map (map int_value) (nm_bias M)) (int_value (nm_fan_in M)) (nm_einsum M).

Section Made.
  Context {T : Type} (U : unicode) (os os' : nat -> orders) (infinite : result unit).
  Lemma product_py l a : fold_left (anyint_op Z.mul) l a = NpInt 0 -> (exists z, a = NpInt z) \/ exists z, In (NpInt z) l.
  Proof.
    revert a. induction l as [|n l IH]; intros a; cbn [fold_left]; [intros ->; eauto|]. intros E. destruct (IH _ E) as [[z Ez]|[z Hz]].
    - destruct a as [x|x], n as [y|y]; cbn in Ez; try discriminate; [right; exists y; left; reflexivity|left; eauto|left; eauto].
    - right. exists z. right. exact Hz.
  Qed.
  Lemma length_of_in sizes a n : np_length_of sizes a = Ok n -> exists s, In (s, n) sizes.
  Proof.
    destruct a as [s|]; [|discriminate]. cbn [np_length_of]. intros E. exists s. induction sizes as [|[t m] sizes IH]; [discriminate|].
    cbn [dict_get] in E. destruct (str_eqb s t) eqn:Es; [apply str_eqb_eq in Es; subst t; injection E as <-; left; reflexivity|right; exact (IH E)].
  Qed.
  Lemma lengths_in sizes l ns n : mapM (np_length_of sizes) l = Ok ns -> In n ns -> exists s, In (s, n) sizes.
  Proof.
    revert ns. induction l as [|a l IH]; intros ns E; cbn [mapM] in E; [injection E as <-; intros []|].
    destruct (np_length_of sizes a) as [m|] eqn:Em; [|discriminate]. cbn [bind] in E. destruct (mapM _ l) as [ms|]; [|discriminate]. injection E as <-.
    intros [<-|H]; [exact (length_of_in _ _ _ Em)|exact (IH _ eq_refl H)].
  Qed.
  (** what the constructors have in common *)
  Theorem EinMix_ints pattern wt bt sizes :
    match np_EinMix (T := T) U os os' infinite pattern wt bt sizes, EinMix U os os' pattern wt bt (as_ints sizes) with
    | Ok M, Ok M' => M' = int_mix M /\ int_value (nm_fan_in M) <> 0%Z
    | Ok M, Err e => e = ZeroDivisionError /\ nm_fan_in M = NpInt 0 /\ (exists s z, In (s, NpInt z) sizes) /\ infinite = Ok tt
    | Err e, Err e' => e = e' \/ e' = ZeroDivisionError /\ exists s z, In (s, NpInt z) sizes
    | Err _, Ok _ => False
    end.
  Proof.
    unfold EinMix, np_EinMix. rewrite kwargs_ints. destruct (check_kwargs _ sizes) as [?|e]; [|left; reflexivity]. cbn [bind].
    unfold initialize_einmix, np_initialize_einmix. destruct (einmix_parse _ _ _) as [[[[[[lp rp] lft] rght] w] next]|e]; [|left; reflexivity]. cbn [bind].
    rewrite pre_ints, layers_ints. destruct (np_rearrange_layers _ _ _ _ _) as [[pre post]|e]; [|left; reflexivity]. cbn [rmap bind].
    rewrite check_ints. destruct (np_einmix_check _ _ _ _); [|left; reflexivity]. cbn [bind].
    rewrite weight_ints. destruct (np_weight_lengths _ _) as [wl|e]; [|left; reflexivity]. cbn [rmap bind].
    rewrite fan_in_ints. destruct (np_fan_in _ _ _) as [fi|e] eqn:Ef; [|left; reflexivity]. cbn [rmap bind].
    rewrite bias_ints. destruct (np_bias_lengths _ _ _ _ _) as [bl|e]; [|left; reflexivity]. cbn [rmap bind].
    destruct fi as [z|z]; cbn [np_bounds int_value].
    - destruct (z =? 0)%Z eqn:E0; [left; reflexivity|]. cbn [raise_if bind]. destruct (einsum_text _ _ _); [|left; reflexivity]. cbn [bind].
      split; [reflexivity|]. cbn. apply Z.eqb_neq. exact E0.
    - destruct (z =? 0)%Z eqn:E0; cbn [raise_if bind].
      + apply Z.eqb_eq in E0. subst z.
        assert (N : exists s z, In (s, NpInt z) sizes).
        { unfold np_fan_in in Ef. destruct (mapM only_axis _) as [axes|]; [|discriminate]. cbn [bind] in Ef.
          destruct (mapM (np_length_of sizes) _) as [l|] eqn:El; [|discriminate]. cbn [bind] in Ef. injection Ef as Ef.
          destruct (product_py _ _ Ef) as [[z Ez]|[z Hz]]; [discriminate|]. destruct (lengths_in _ _ _ _ El Hz) as [s Hs]. eauto. }
        destruct infinite as [[]|e]; [|right; auto]. cbn [bind]. destruct (einsum_text _ _ _); cbn [bind]; [repeat split; auto|right; auto].
      + destruct (einsum_text _ _ _); [|left; reflexivity]. cbn [bind]. split; [reflexivity|]. cbn. apply Z.eqb_neq. exact E0.
  Qed.
End Made.

(** the constructor with ints divides by zero in one place only *)
Section Zero.
  Context {T : Type} (U : unicode) (HU : unicode_ok U) (os os' : nat -> orders) (Ho : forall n, orders_ok (os n)) (Ho' : forall n, orders_ok (os' n)).
  Definition calm {X} (m : result X) : Prop := m <> Err ZeroDivisionError.
  Lemma calm_bind {X Y} (m : result X) (f : X -> result Y) : calm m -> (forall x, m = Ok x -> calm (f x)) -> calm (let* x := m in f x).
  Proof. unfold calm. destruct m as [x|e]; cbn [bind]; [intros _ H; apply (H x eq_refl)|intros H _ E; apply H; congruence]. Qed.
  Lemma calm_Ok {X} (x : X) : calm (Ok x).
  Proof. discriminate. Qed.
  Lemma calm_raise b e : e <> ZeroDivisionError -> calm (raise_if b e).
  Proof. unfold calm, raise_if. destruct b; congruence. Qed.
  Lemma calm_report l : calm (report_axes l).
  Proof. apply calm_raise. discriminate. Qed.
  Lemma calm_parse au ad k s : calm (parse_expression U au ad k s).
  Proof. intros E. apply parse_expression_err in E. discriminate. Qed.
  Lemma calm_mapM {X Y} (f : X -> result Y) l : (forall x, In x l -> calm (f x)) -> calm (mapM f l).
  Proof.
    induction l as [|x l IH]; intros H; [apply calm_Ok|]. cbn [mapM]. apply calm_bind; [apply H; left; reflexivity|]. intros y _.
    apply calm_bind; [apply IH; intros z Hz; apply H; right; exact Hz|]. intros; apply calm_Ok.
  Qed.
  Lemma calm_foldM {X Y} (f : X -> Y -> result X) l x : (forall a b, calm (f a b)) -> calm (foldM f l x).
  Proof. intros H. revert x. induction l as [|y l IH]; intros x; [apply calm_Ok|]. cbn [foldM]. apply calm_bind; auto. Qed.
  Lemma calm_Rearrange o p sizes : (forall n, orders_ok (o n)) -> calm (@Rearrange T U o p sizes).
  Proof.
    intros H. unfold Rearrange. apply calm_bind; [apply calm_raise; discriminate|]. intros _ _. unfold make_layer. apply calm_bind; [|intros; apply calm_Ok].
    unfold prepare_all_dims. destruct (str_split s_arrow p) as [|? [|? [|? ?]]]; try (intros ?; discriminate). apply calm_bind; [apply calm_parse|]. intros [lft ?] _.
    apply calm_mapM. intros nd _. apply calm_bind; [|intros; apply calm_Ok]. intros E. apply prepare_error in E; auto. destruct (one_arrow p); discriminate.
  Qed.
  Lemma calm_length_of sizes a : calm (length_of sizes a).
  Proof. destruct a; cbn [length_of]; [destruct (dict_get _ _ _)|]; intros ?; discriminate. Qed.
  Lemma calm_only c : calm (only_axis c).
  Proof. unfold only_axis. destruct (comp_axes c) as [|? [|? ?]]; intros ?; discriminate. Qed.
  Lemma calm_text lft rght w : calm (einsum_text lft rght w).
  Proof.
    unfold einsum_text. cbv zeta.
    assert (H : forall m p, calm (write_flat_remapped m p)).
    { intros m p. unfold write_flat_remapped. apply calm_bind; [|intros; apply calm_Ok]. apply calm_mapM. intros c _. destruct c as [|l]; [apply calm_Ok|].
      apply calm_bind; [|intros; apply calm_Ok]. apply calm_mapM. intros a _. destruct a; cbn [remap]; [destruct (dict_get _ _ _)|]; intros ?; discriminate. }
    apply calm_bind; [apply H|]. intros ? _. apply calm_bind; [apply H|]. intros ? _. apply calm_bind; [apply H|]. intros; apply calm_Ok.
  Qed.
  Ltac calmly := repeat first [apply calm_Ok | apply calm_report | apply calm_parse | apply calm_raise; discriminate | apply calm_length_of | apply calm_only
    | apply calm_mapM; intros | apply calm_bind; [|let x := fresh in let E := fresh in intros x E; clear E; try destruct x]].
  Lemma calm_start pattern wt : calm (einmix_parse U pattern wt).
  Proof. unfold einmix_parse. destruct (str_split s_arrow pattern) as [|? [|? [|? ?]]]; try (intros ?; discriminate). calmly. Qed.
  Lemma calm_layers pre post : calm (rearrange_layers (T := T) U os os' pre post).
  Proof.
    unfold rearrange_layers. apply calm_bind; [destruct pre as [[p l]|]; [apply calm_bind; [apply calm_Rearrange, Ho|intros; apply calm_Ok]|apply calm_Ok]|]. intros ? _.
    apply calm_bind; [destruct post as [p|]; [apply calm_bind; [apply calm_Rearrange, Ho'|intros; apply calm_Ok]|apply calm_Ok]|]. intros; apply calm_Ok.
  Qed.
  Lemma calm_bias rght next bt sizes : calm (bias_lengths U rght next bt sizes).
  Proof.
    destruct bt as [text|]; [|apply calm_Ok]. cbn [bias_lengths]. apply calm_bind; [apply calm_parse|]. intros [b ?] _. apply calm_bind; [apply calm_report|]. intros _ _.
    apply calm_bind; [apply calm_report|]. intros _ _. apply calm_bind; [|intros [? ?] _; apply calm_Ok]. apply calm_foldM. intros [sh used] a. unfold bias_step.
    destruct (axis_eqb a ax_ellipsis); [calmly|]. destruct (axis_mem a _); calmly.
  Qed.
  Lemma product_np l a : (forall n, In n l -> exists z, n = NpInt z) -> (exists z, a = NpInt z) \/ l <> [] -> exists z, fold_left (anyint_op Z.mul) l a = NpInt z.
  Proof.
    revert a. induction l as [|n l IH]; intros a H [[z ->]|E]; cbn [fold_left]; [eauto|contradiction| |]; apply IH; try (intros m Hm; apply H; right; exact Hm);
      left; destruct (H n (or_introl eq_refl)) as [y ->]; [|destruct a]; cbn; eauto.
  Qed.
  Theorem EinMix_zero pattern wt bt sizes e : (forall s n, In (s, n) sizes -> exists z, n = NpInt z) ->
    EinMix (T := T) U os os' pattern wt bt (as_ints sizes) = Err ZeroDivisionError -> np_EinMix (T := T) U os os' (Err e) pattern wt bt sizes = Err e.
  Proof.
    intros HN. unfold EinMix, np_EinMix. rewrite kwargs_ints. destruct (check_kwargs _ sizes) as [?|e1] eqn:E1.
    2: { unfold check_kwargs, raise_if in E1. destruct (existsb _ sizes); [injection E1 as <-; discriminate|discriminate]. }
    cbn [bind]. unfold initialize_einmix, np_initialize_einmix.
    destruct (einmix_parse _ _ _) as [[[[[[lp rp] lft] rght] w] next]|e2] eqn:E2; [|intros E; exfalso; cbn [bind] in E; injection E as ->; exact (calm_start pattern wt E2)]. cbn [bind].
    pose proof (calm_layers (pre_reshape lp lft (as_ints sizes)) (post_reshape rp rght)) as C3. rewrite pre_ints, layers_ints in *.
    destruct (np_rearrange_layers _ _ _ _ _) as [[pre post]|e3]; [|intros E; exfalso; cbn [bind rmap] in E; injection E as ->; apply C3; reflexivity]. cbn [rmap bind].
    assert (C4 : calm (einmix_check lft rght w (as_ints sizes))) by (unfold einmix_check; calmly). rewrite check_ints in *.
    destruct (np_einmix_check _ _ _ _) as [?|e4]; [|intros E; exfalso; cbn [bind rmap] in E; injection E as ->; apply C4; reflexivity]. cbn [bind].
    assert (C5 : calm (weight_lengths w (as_ints sizes))) by (unfold weight_lengths; calmly). rewrite weight_ints in *.
    destruct (np_weight_lengths _ _) as [wl|e5]; [|intros E; exfalso; cbn [bind rmap] in E; injection E as ->; apply C5; reflexivity]. cbn [rmap bind].
    assert (C6 : calm (fan_in rght w (as_ints sizes))) by (unfold fan_in; calmly). rewrite fan_in_ints in *.
    destruct (np_fan_in _ _ _) as [fi|e6] eqn:Ef; [|intros E; exfalso; cbn [bind rmap] in E; injection E as ->; apply C6; reflexivity]. cbn [rmap bind].
    pose proof (calm_bias rght next bt (as_ints sizes)) as C7. rewrite bias_ints in *.
    destruct (np_bias_lengths _ _ _ _ _) as [bl|e7]; [|intros E; exfalso; cbn [bind rmap] in E; injection E as ->; apply C7; reflexivity]. cbn [rmap bind].
    destruct (int_value fi =? 0)%Z eqn:E0; cbn [raise_if bind].
    2: { pose proof (calm_text lft rght w) as C8. destruct (einsum_text _ _ _) as [?|e8]; [discriminate|intros E; exfalso; cbn [bind rmap] in E; injection E as ->; apply C8; reflexivity]. }
    intros _. destruct fi as [z|z]; cbn [np_bounds int_value] in *; [|rewrite E0; reflexivity].
    exfalso. unfold np_fan_in in Ef. destruct (mapM only_axis _) as [axes|]; [|discriminate]. cbn [bind] in Ef.
    destruct (mapM (np_length_of sizes) _) as [l|] eqn:El; [|discriminate]. cbn [bind] in Ef. injection Ef as Ef.
    destruct l as [|n l]; [injection Ef as <-; discriminate|].
    destruct (product_np (n :: l) (PyInt 1)) as [y Ey]; [|right; discriminate|congruence].
    intros m Hm. destruct (lengths_in _ _ _ _ El Hm) as [s Hs]. exact (HN _ _ Hs).
  Qed.
End Zero.

Section Call.
  Context {A : Type} (r : runtime A) (lib_einsum : pystr -> list (tensor A) -> result (tensor A)) (iadd : tensor A -> tensor A -> result (tensor A)).
  Theorem mix_outcome (M : np_einmix (tensor A)) w b x :
    np_call_einmix r lib_einsum iadd M w b x = call_einmix r lib_einsum iadd (int_mix M) w b x \/
    call_einmix r lib_einsum iadd (int_mix M) w b x = Err EinopsError \/ call_einmix r lib_einsum iadd (int_mix M) w b x = Err ZeroDivisionError.
  Proof.
    unfold np_call_einmix, call_einmix. cbn [int_mix em_pre em_post em_einsum]. destruct (nm_pre M) as [L|]; cbn [int_pre option_map call_option np_call_option]; [|left; reflexivity].
    destruct (layer_outcome r L x) as [E|[E|E]]; rewrite E; [left; reflexivity|right; left; reflexivity|right; right; reflexivity].
  Qed.
  Theorem EinMix_outcome os os' infinite pattern wt bt sizes :
    match np_EinMix (rt_unicode r) os os' infinite pattern wt bt sizes, EinMix (rt_unicode r) os os' pattern wt bt (as_ints sizes) with
    | Ok M, Ok M' => em_weight M' = map int_value (nm_weight M) /\ em_bias M' = option_map (map int_value) (nm_bias M) /\
        em_fan_in M' = int_value (nm_fan_in M) /\
        forall w b x, np_call_einmix r lib_einsum iadd M w b x = call_einmix r lib_einsum iadd M' w b x \/
          call_einmix r lib_einsum iadd M' w b x = Err EinopsError \/ call_einmix r lib_einsum iadd M' w b x = Err ZeroDivisionError
    | Ok M, Err e => e = ZeroDivisionError /\ nm_fan_in M = NpInt 0 /\ infinite = Ok tt /\ exists s z, In (s, NpInt z) sizes
    | Err e, Err e' => e = e' \/ e' = ZeroDivisionError /\ exists s z, In (s, NpInt z) sizes
    | Err _, Ok _ => False
    end.
  Proof.
    pose proof (@EinMix_ints (tensor A) (rt_unicode r) os os' infinite pattern wt bt sizes) as H.
    destruct (np_EinMix _ _ _ _ _ _ _ _) as [M|e], (EinMix _ _ _ _ _ _ _) as [M'|e']; auto.
    - destruct H as [-> _]. repeat split; auto. intros w b x. apply mix_outcome.
    - tauto.
  Qed.
  Corollary EinMix_right os os' infinite pattern wt bt sizes M' : EinMix (rt_unicode r) os os' pattern wt bt (as_ints sizes) = Ok M' ->
    exists M, np_EinMix (rt_unicode r) os os' infinite pattern wt bt sizes = Ok M /\
      forall w b x y, call_einmix r lib_einsum iadd M' w b x = Ok y -> np_call_einmix r lib_einsum iadd M w b x = Ok y.
  Proof.
    intros E. pose proof (EinMix_outcome os os' infinite pattern wt bt sizes) as H. rewrite E in H. destruct (np_EinMix _ _ _ _ _ _ _ _) as [M|e]; [|contradiction].
    exists M. split; [reflexivity|]. destruct H as (_ & _ & _ & H). intros w b x y Ey. destruct (H w b x) as [G|[G|G]]; congruence.
  Qed.
End Call.
