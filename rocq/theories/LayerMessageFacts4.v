(** * Facts: every EinopsError of a layer has a message; what else EinMix raises *)
From Verif Require Import Py Tensor ListFacts SpecSem SpecGrammar SpecEinsum SpecPattern SpecOps Parsing Compile Recipe Ops Backends ParseFacts ParseFacts2 ParseFacts3 Einsum
  FrontFacts FrontFacts2 MainFacts EinsumFacts2 Layers LayerFacts EinMix SpecEinMix MixFacts MixFacts2 MixFacts3 MixFacts4 Texts Messages SpecMessages MessageFacts MessageFacts2 MessageFacts3 MessageFacts4
  ComplaintFacts3 LayerMessages SpecLayerMessages LayerMessageFacts LayerMessageFacts2 LayerMessageFacts3.

(** ** no EinopsError without a message *)
Definition worded {A} (x : outcome A) : Prop := x <> Fails EinopsError.
Lemma worded_then {A B} (m : outcome A) (f : A -> outcome B) : worded m -> (forall a, worded (f a)) -> worded (and_then m f).
Proof. intros H1 H2. destruct m as [a|w|e]; cbn; [apply H2|discriminate|]. intros E. injection E as ->. apply H1. reflexivity. Qed.
Lemma worded_lift {A} (r : result A) : worded (lift r).
Proof. intros H. destruct r as [a|[]]; discriminate. Qed.
Lemma worded_if c m : worded (wrong_if c m).
Proof. destruct c; discriminate. Qed.
Lemma worded_fine {A} (a : A) : worded (Fine a).
Proof. discriminate. Qed.
Lemma worded_map {A B} (f : A -> outcome B) l : (forall a, worded (f a)) -> worded (mapO f l).
Proof. intros H. induction l as [|a l IH]; cbn [mapO]; [discriminate|]. apply worded_then; [apply H|]. intros b. apply worded_then; [exact IH|]. intros; apply worded_fine. Qed.
Lemma worded_fold {A B} (f : A -> B -> outcome A) l : (forall a b, worded (f a b)) -> forall acc, worded (foldO f l acc).
Proof. intros H. induction l as [|b l IH]; intros acc; cbn [foldO]; [discriminate|]. apply worded_then; [apply H|exact IH]. Qed.
Lemma worded_add U au ad x st : worded (add_axis_name_msg U au ad x st).
Proof.
  unfold add_axis_name_msg. destruct (_ && _); [discriminate|]. destruct (str_eqb x ellipsis_str); [apply worded_lift|]. cbv zeta. destruct (_ && _); [apply worded_lift|].
  apply worded_then; [destruct (axis_name_reason U au x); [apply worded_if|apply worded_fine]|]. intros _. apply worded_then; [apply worded_if|]. intros _. apply worded_lift.
Qed.
Lemma worded_loop U au ad whole cs : forall cur st, worded (parse_loop_msg U au ad whole cs cur st).
Proof.
  assert (F : forall cur st, worded (flush_msg U au ad cur st)) by (intros [x|] st; [apply worded_add|apply worded_fine]).
  induction cs as [|c cs IH]; intros cur st; cbn [parse_loop_msg]; [destruct (s_bracket st); [discriminate|apply F]|].
  destruct ((c =? c_open)%N || (c =? c_close)%N || (c =? c_space)%N).
  - apply worded_then; [apply F|]. intros st1. destruct (c =? c_open)%N; [destruct (s_bracket st1); [discriminate|apply IH]|].
    destruct (c =? c_close)%N; [destruct (s_bracket st1); [apply IH|discriminate]|apply IH].
  - destruct (u_alnum U c || (c =? c_under)%N || (c =? c_ell)%N); [apply IH|discriminate].
Qed.
Lemma worded_parse U au ad k s : worded (parse_expression_msg U au ad k s).
Proof.
  unfold parse_expression_msg. cbv zeta. apply worded_then; [apply worded_if|]. intros _. apply worded_then; [apply worded_if|]. intros _.
  apply worded_then; [apply worded_loop|]. intros; apply worded_fine.
Qed.
Lemma worded_prepare U o p op names n : worded (prepare_recipe_msg U o p op names n).
Proof.
  unfold prepare_recipe_msg. destruct (str_split s_arrow p) as [|l [|r [|? ?]]]; try discriminate.
  apply worded_then; [apply worded_parse|]. intros [lft k]. apply worded_then; [apply worded_parse|]. intros [rght k'].
  apply worded_then; [apply worded_if|]. intros _. apply worded_then; [apply worded_if|]. intros _. apply worded_then.
  { unfold check_identifiers_msg. cbv zeta. destruct op as [s|]; [|apply worded_if]. destruct (str_eqb s s_rearrange); [apply worded_then; [apply worded_if|]; intros _; apply worded_if|].
    destruct (str_eqb s s_repeat); [apply worded_then; [apply worded_if|]; intros _; apply worded_if|]. destruct (str_mem s reductions); [apply worded_if|discriminate]. }
  intros _. apply worded_then.
  { unfold resolve_ellipsis_msg. cbv zeta. apply worded_then; [destruct (p_has_ellipsis lft); apply worded_if|]. intros _. apply worded_lift. }
  intros [[[lcomp rcomp] lids] rids]. cbv zeta. apply worded_then.
  { unfold mark_expected_msg. apply worded_fold. intros d x. apply worded_then; [apply worded_if|]. intros _. apply worded_then; [apply worded_if|]. intros; apply worded_fine. }
  intros d3. apply worded_then.
  { apply worded_map. intros g. unfold known_unknown_msg. apply worded_then; [apply worded_lift|]. intros vs. cbv zeta. apply worded_then; [apply worded_if|]. intros _.
    do 3 (apply worded_then; [apply worded_lift|]; intros ?). apply worded_fine. }
  intros input. do 4 (apply worded_then; [apply worded_lift|]; intros ?). apply worded_fine.
Qed.
Section Layer.
  Context {T : Type} (U : unicode) (os : nat -> orders).
  Lemma worded_make p (red : reduction T) sizes : worded (make_layer_msg U os p red sizes).
  Proof.
    unfold make_layer_msg, prepare_all_dims_msg. apply worded_then; [|intros; apply worded_fine]. destruct (str_split s_arrow p) as [|l [|r [|? ?]]]; try discriminate.
    apply worded_then; [apply worded_parse|]. intros [lft k]. apply worded_map. intros n. apply worded_then; [apply worded_prepare|]. intros; apply worded_fine.
  Qed.
  Lemma worded_rearrange p sizes : worded (Rearrange_msg (T := T) U os p sizes).
  Proof. unfold Rearrange_msg. apply worded_then; [apply worded_lift|]. intros _. apply worded_make. Qed.
  Lemma worded_reduce p (red : reduction T) sizes : worded (Reduce_msg U os p red sizes).
  Proof. unfold Reduce_msg. apply worded_then; [apply worded_lift|]. intros _. apply worded_make. Qed.
End Layer.

Definition phrased {A} (x : attempt A) : Prop := x <> Throws EinopsError.
Lemma phrased_then {A B} (m : attempt A) (f : A -> attempt B) : phrased m -> (forall a, m = Made a -> phrased (f a)) -> phrased (and_made m f).
Proof. intros H1 H2. destruct m as [a|w|e]; cbn; [apply H2; reflexivity|discriminate|]. intros E. injection E as ->. apply H1. reflexivity. Qed.
Lemma phrased_silent {A} (r : result A) : clean r -> phrased (silent r).
Proof. intros H E. apply H. destruct r as [a|e]; [discriminate|]. cbn in E. congruence. Qed.
Lemma phrased_text {A} (x : outcome A) : worded x -> phrased (text_of x).
Proof. intros H E. apply H. destruct x; try discriminate. cbn in E. congruence. Qed.
Lemma phrased_if c f : phrased (faulty_if c f).
Proof. destruct c; discriminate. Qed.
Lemma phrased_fold {A B} (f : A -> B -> attempt A) l : (forall a b, phrased (f a b)) -> forall acc, phrased (foldA f l acc).
Proof. intros H. induction l as [|b l IH]; intros acc; cbn [foldA]; [discriminate|]. apply phrased_then; [apply H|]. intros; apply IH. Qed.
Lemma clean_length sizes a : clean (length_of sizes a).
Proof. destruct a; cbn; [apply clean_option|]; discriminate. Qed.
Lemma clean_only c : clean (only_axis c).
Proof. unfold only_axis. destruct (comp_axes c) as [|a [|? ?]]; discriminate. Qed.
Lemma text_error lft rght weight e : einsum_text lft rght weight = Err e -> e = KeyError.
Proof.
  assert (Hr : forall mp a x, remap mp a = Err x -> x = KeyError) by (intros mp [s|] x; cbn; [destruct (dict_get _ _ _); cbn|]; congruence).
  assert (Hw : forall mp p x, write_flat_remapped mp p = Err x -> x = KeyError).
  { intros mp p x H. unfold write_flat_remapped in H. apply bind_Err in H as [H|[ts [_ H]]]; [|discriminate]. apply mapM_Err_in in H as [c [_ H]].
    destruct c as [|g]; [discriminate|]. apply bind_Err in H as [H|[us [_ H]]]; [|discriminate]. apply mapM_Err_in in H as [a [_ H]]. eapply Hr, H. }
  unfold einsum_text. cbv zeta. intros H. apply bind_Err in H as [H|[l [_ H]]]; [eapply Hw, H|]. apply bind_Err in H as [H|[w [_ H]]]; [eapply Hw, H|].
  apply bind_Err in H as [H|[r [_ H]]]; [eapply Hw, H|discriminate].
Qed.
Lemma kwargs_error {D} names (d : list (pystr * D)) e : check_kwargs names d = Err e -> e = TypeError /\ exists s, In s (map fst d) /\ In s names.
Proof.
  unfold check_kwargs. intros H. apply raise_if_Err in H as [H ->]. split; [reflexivity|]. apply existsb_exists in H as [[k v] [H1 H2]]. apply str_mem_In in H2.
  exists k. split; [apply (in_map fst _ _ H1)|exact H2].
Qed.

Section Phrased.
  Context {T : Type} (U : unicode) (o : orders) (os os' : nat -> orders).
  Lemma phrased_parse p w : phrased (einmix_parse_msg U o p w).
  Proof.
    unfold einmix_parse_msg. destruct (str_split s_arrow p) as [|l [|r [|? ?]]]; try discriminate.
    apply phrased_then; [apply phrased_text, worded_parse|]. intros [lft k1] _. apply phrased_then; [apply phrased_text, worded_parse|]. intros [rght k2] _.
    apply phrased_then; [apply phrased_text, worded_parse|]. intros [weight k3] _. do 6 (apply phrased_then; [apply phrased_if|]; intros _ _). discriminate.
  Qed.
  Lemma phrased_layer os1 p d : phrased (rearrange_layer_msg (T := T) U os1 p d).
  Proof. unfold rearrange_layer_msg. pose proof (worded_rearrange (T := T) U os1 p d) as H. destruct (Rearrange_msg U os1 p d); try discriminate. intros E. injection E as ->. apply H. reflexivity. Qed.
  Lemma phrased_mix p w b sizes : phrased (EinMix_msg (T := T) U o os os' p w b sizes).
  Proof.
    unfold EinMix_msg. apply phrased_then; [apply phrased_silent; unfold check_kwargs; apply clean_if; discriminate|]. intros _ _. unfold initialize_einmix_msg.
    apply phrased_then; [apply phrased_parse|]. intros [[[[[l r] lft] rght] weight] k] _. apply phrased_then.
    { unfold rearrange_layers_msg. apply phrased_then; [destruct (pre_reshape l lft sizes) as [[q d]|]; [apply phrased_then; [apply phrased_layer|]|]; discriminate|]. intros pre _.
      apply phrased_then; [destruct (post_reshape r rght) as [q|]; [apply phrased_then; [apply phrased_layer|]|]; discriminate|]. discriminate. }
    intros [pre post] _. apply phrased_then.
    { unfold einmix_check_msg. apply phrased_then; [apply phrased_fold; intros; apply phrased_if|]. intros _ _. apply phrased_then; [apply phrased_if|]. intros _ _. apply phrased_if. }
    intros _ _. apply phrased_then; [apply phrased_silent; unfold weight_lengths; apply clean_mapM; intros c; apply clean_bind; [apply clean_only|apply clean_length]|]. intros wl _.
    apply phrased_then; [apply phrased_silent; unfold fan_in; apply clean_bind; [apply clean_mapM, clean_only|]; intros axs; apply clean_bind; [apply clean_mapM, clean_length|]; intros; apply clean_Ok|].
    intros fi _. apply phrased_then.
    { unfold bias_lengths_msg. destruct b as [text|]; [|discriminate]. apply phrased_then; [apply phrased_text, worded_parse|]. intros [bias k'] _.
      do 2 (apply phrased_then; [apply phrased_if|]; intros _ _). apply phrased_then; [|intros [sh u] _; discriminate].
      apply phrased_fold. intros [sh u] a. unfold bias_step_msg. destruct (axis_eqb a ax_ellipsis); [apply phrased_then; [apply phrased_if|]; discriminate|].
      destruct (axis_mem a (p_identifiers bias)); [apply phrased_then; [apply phrased_silent, clean_length|]|]; discriminate. }
    intros bl _. apply phrased_then; [apply phrased_silent, clean_if; discriminate|]. intros _ _. apply phrased_then; [|discriminate].
    apply phrased_silent. intros E. apply text_error in E. discriminate.
  Qed.
End Phrased.

(** ** all messages of EinMix *)
Section Mix.
  Context {T : Type} (U : unicode) (HU : unicode_ok U) (o : orders) (os os' : nat -> orders) (Ho : orders_ok o) (Hos : forall n, orders_ok (os n)) (Hos' : forall n, orders_ok (os' n)).
  Context (pattern wt : pystr) (bt : option pystr) (sizes : list (pystr * Z)) (Hns : NoDup (map fst sizes)).

  Lemma parse_shapes v : einmix_parse U pattern wt = Ok v -> exists l r L R W, str_split s_arrow pattern = [l; r] /\ written U l L /\ written U r R /\ written U wt W /\ parse_ok L R W /\
    v = (l, r, fst (compile 0 L), fst (compile (nbig (atoms L)) R), fst (compile (nbig (atoms L) + nbig (atoms R)) W), nbig (atoms L) + nbig (atoms R) + nbig (atoms W)).
  Proof.
    intros H. assert (X : exists l r L R W, str_split s_arrow pattern = [l; r] /\ written U l L /\ written U r R /\ written U wt W).
    { unfold einmix_parse in H. destruct (str_split s_arrow pattern) as [|l [|r [|? ?]]] eqn:Es; try discriminate.
      apply bind_Ok in H as [[lft k1] [H1 H]]. apply (parse_expression_iff U HU) in H1 as [L [WL _]]. apply bind_Ok in H as [[rght k2] [H1 H]]. apply (parse_expression_iff U HU) in H1 as [R [WR _]].
      apply bind_Ok in H as [[weight k3] [H1 H]]. apply (parse_expression_iff U HU) in H1 as [W [WW _]]. exists l, r, L, R, W. auto. }
    destruct X as (l & r & L & R & W & Es & WL & WR & WW). exists l, r, L, R, W. destruct (proj1 (parse_iff U HU pattern wt l r L R W Es WL WR WW v) H) as [Hpo Ev]. repeat (split; [assumption|]). exact Ev.
  Qed.

  Lemma mix_true f : EinMix_msg (T := T) U o os os' pattern wt bt sizes = Faulty f -> true_of_mix U pattern wt bt sizes f.
  Proof.
    unfold EinMix_msg. intros H. apply then_Faulty in H as [H|[[] [_ H]]]; [destruct (silent_Faulty _ _ H)|]. unfold initialize_einmix_msg in H.
    apply then_Faulty in H as [H|[v [Hv H]]]; [apply (parse_faulty U HU o Ho _ _ _ _ _ H)|].
    apply (f_equal plain_attempt) in Hv. rewrite made_parse in Hv. apply parse_shapes in Hv as (l & r & L & R & W & Es & WL & WR & WW & Hpo & ->).
    apply then_Faulty in H as [H|[[pre post] [_ H]]]; [exact (layers_faulty (T := T) U HU os os' Hos Hos' pattern wt l r bt sizes L R W Es WL WR WW Hpo f H)|].
    apply then_Faulty in H as [H|[[] [_ H]]]; [exact (check_faulty U HU o Ho pattern wt l r bt sizes L R W Es WL WR WW Hns Hpo f H)|].
    apply then_Faulty in H as [H|[wl [_ H]]]; [destruct (silent_Faulty _ _ H)|]. apply then_Faulty in H as [H|[fi [_ H]]]; [destruct (silent_Faulty _ _ H)|].
    apply then_Faulty in H as [H|[bl [_ H]]]; [exact (bias_faulty U HU o Ho pattern wt l r bt sizes L R W Es WL WR WW Hpo f H)|].
    apply then_Faulty in H as [H|[[] [_ H]]]; [destruct (silent_Faulty _ _ H)|]. apply then_Faulty in H as [H|[text [_ H]]]; [destruct (silent_Faulty _ _ H)|discriminate].
  Qed.

  (** ** other exceptions *)
  Lemma arrows : (forall l r, str_split s_arrow pattern <> [l; r]) -> forall l r, pattern = l ++ lit "->" ++ r -> exists l' r', pattern = l' ++ lit "->" ++ r' /\ l' <> l.
  Proof.
    intros H l r ->. destruct (str_contains s_arrow l) eqn:E1.
    - apply str_contains_spec in E1 as (a & b & ->). exists a, (b ++ lit "->" ++ r). split; [rewrite <- !app_assoc; reflexivity|].
      intros E. apply (f_equal (@length N)) in E. rewrite !app_length in E. cbn in E. lia.
    - destruct (str_contains s_arrow r) eqn:E2.
      + apply str_contains_spec in E2 as (a & b & ->). exists (l ++ lit "->" ++ a), b. split; [rewrite <- !app_assoc; reflexivity|].
        intros E. apply (f_equal (@length N)) in E. rewrite !app_length in E. cbn in E. lia.
      + exfalso. apply (H l r). change (lit "->") with s_arrow. rewrite split_one_arrow, split_free by assumption. reflexivity.
  Qed.
  Lemma mix_other e : (forall L R, reads U pattern L R -> plain L /\ plain R) -> (forall W, written U wt W -> plain W) ->
    EinMix (T := T) U os os' pattern wt bt sizes = Err e -> e <> EinopsError -> other_of_mix U pattern wt sizes e.
  Proof.
    intros Hp1 Hp2 H He. unfold EinMix in H. apply bind_Err in H as [H|[[] [Hk H]]]; [left; exact (kwargs_error _ _ _ H)|]. right.
    pose proof (proj1 (kwargs_iff _ sizes) Hk) as Hfree. unfold initialize_einmix in H. apply bind_Err in H as [H|[v [Hv H]]].
    { left. unfold einmix_parse in H. destruct (str_split s_arrow pattern) as [|l [|r [|? ?]]] eqn:Es;
        try (injection H as <-; split; [reflexivity|]; apply arrows; intros; congruence). exfalso. apply He.
      apply bind_Err in H as [H|[[lft k1] [_ H]]]; [eapply parse_expression_err; eauto|]. apply bind_Err in H as [H|[[rght k2] [_ H]]]; [eapply parse_expression_err; eauto|].
      apply bind_Err in H as [H|[[weight k3] [_ H]]]; [eapply parse_expression_err; eauto|].
      do 6 (apply bind_Err in H as [H|[[] [_ H]]]; [apply raise_if_Err in H; symmetry; apply H|]). discriminate. }
    right. apply parse_shapes in Hv as (l & r & L & R & W & Es & WL & WR & WW & Hpo & ->).
    assert (Hr : reads U pattern L R) by (apply (reads_split U HU); exists l, r; auto). destruct (Hp1 L R Hr) as [PL PR]. pose proof (Hp2 W WW) as PW.
    exists L, R, W. split; [exact Hr|]. split; [exact WW|]. destruct (po_numbers _ _ _ Hpo) as (N1 & N2 & N3).
    apply bind_Err in H as [H|[[pre post] [_ H]]].
    { exfalso. unfold rearrange_layers in H. rewrite (pre_eq l sizes L R W PL Hpo), (post_eq r L R W PR Hpo) in H. apply bind_Err in H as [H|[pr [_ H]]].
      - destruct (any_composed (fst (compile 0 L))); [|discriminate]. apply bind_Err in H as [H|[P [_ H]]]; [|discriminate]. unfold Rearrange in H.
        apply bind_Err in H as [H|[[] [_ H]]].
        + apply kwargs_error in H as [_ (s & H1 & H2)]. apply in_pre_sizes in H1 as [H1 _]. apply (Hfree s H1). destruct H2 as [H2|[H2|[]]]; [left|right; left]; exact H2.
        + unfold make_layer in H. apply bind_Err in H as [H|[rec [_ H]]]; [|discriminate].
          pose proof (all_dims_error U HU _ _ _ os e Hos H (os 0) 0 (Hos 0)) as X. apply (prepare_error U (os 0) _ _ _ _ _ HU (Hos 0)) in X.
          pose proof (pre_reads U HU l L R W WL Hpo) as Hrd. apply (reads_split U HU) in Hrd as (a & b & E & _). unfold one_arrow in X. rewrite E in X. contradiction.
      - apply bind_Err in H as [H|[po [_ H]]]; [|discriminate]. destruct (post_needed L R); [|discriminate]. apply bind_Err in H as [H|[P [_ H]]]; [|discriminate].
        destruct (post_made (T := T) U HU os' Hos' r L R W WR PR Hpo) as [P E]. congruence. }
    apply bind_Err in H as [H|[[] [Hc H]]].
    { exfalso. apply He. unfold einmix_check in H. apply bind_Err in H as [H|[[] [_ H]]]; [apply raise_if_Err in H; symmetry; apply H|].
      apply bind_Err in H as [H|[[] [_ H]]]; apply raise_if_Err in H; symmetry; apply H. }
    apply (check_iff sizes L R W Hpo) in Hc as (Hsz & Hus & Hne).
    apply bind_Err in H as [H|[wl [Hw H]]].
    { left. unfold weight_lengths in H. apply mapM_Err_in in H as [c [Hin H]]. apply comps_In in Hin as (i & k' & Hi & ->).
      destruct (po_weight _ _ _ Hpo i Hi) as [a ->]. assert (Ha : In a (atoms W)) by (apply in_flat_map; exists (Atom a); split; [exact Hi|left; reflexivity]).
      destruct a as [s|n|].
      - exfalso. cbn [item_comp] in H. destruct (is_ell (AName s)) eqn:Ei; cbn [comp_axes only_axis bind atom_axes] in H.
        + cbn in Ei. apply str_eqb_eq in Ei. subst s. apply (PW Ha).
        + unfold only_axis in H. cbn in H. rewrite <- (length_size sizes s) in H || idtac. pose proof (length_size sizes s) as Hlen. cbn [length_of] in Hlen. rewrite Hlen in H; [discriminate|].
          apply Hsz, in_flat_map. exists (AName s). split; [exact Ha|left; reflexivity].
      - assert (n = 1%Z) as ->.
        { destruct (Z.eq_dec n 1) as [E|E]; [exact E|exfalso]. assert (X : has_numbers W = true); [|congruence]. apply existsb_exists. exists (ANum n). split; [exact Ha|].
          cbn. apply negb_true_iff, Z.eqb_neq, E. }
        cbn in H. injection H as <-. auto.
      - exfalso. assert (X : has_dots W = true) by (apply existsb_exists; exists ADots; auto). rewrite (po_weight_dots _ _ _ Hpo) in X. discriminate. }
    apply (weight_iff sizes L R W PW Hpo wl Hsz) in Hw as [Hnm ->].
    rewrite (fan_eq sizes L R W PW Hpo Hnm Hsz) in H. cbn [bind] in H.
    apply bind_Err in H as [H|[bl [_ H]]].
    { exfalso. apply He. unfold bias_lengths in H. destruct bt as [text|]; [|discriminate]. apply bind_Err in H as [H|[[bias k] [Hb H]]]; [eapply parse_expression_err; eauto|].
      apply (parse_expression_iff U HU) in Hb as [B [WB E]]. assert (Epb : bias = fst (compile (nbig (atoms L) + nbig (atoms R) + nbig (atoms W)) B)) by (rewrite <- E; reflexivity). subst bias.
      rewrite !ids_eq in H. apply bind_Err in H as [H|[[] [_ H]]]; [apply raise_if_Err in H; symmetry; apply H|]. apply bind_Err in H as [H|[[] [Hb H]]]; [apply raise_if_Err in H; symmetry; apply H|].
      apply report_ok in Hb. apply bind_Err in H as [H|[[sh u] [_ H]]]; [|discriminate]. apply foldM_Err in H as ([sh u] & a & _ & H). unfold bias_step in H.
      destruct (axis_eqb a ax_ellipsis); [apply bind_Err in H as [H|[[] [_ H]]]; [apply raise_if_Err in H; symmetry; apply H|discriminate]|].
      destruct (axis_mem a _) eqn:Em; [|discriminate]. apply bind_Err in H as [H|[z [_ H]]]; [|discriminate]. apply axis_mem_In in Em. apply Hb in Em.
      apply in_name_axes in Em as [s [-> Em]]. rewrite length_size in H by exact Em. discriminate. }
    right. apply bind_Err in H as [H|[[] [_ H]]].
    { left. apply raise_if_Err in H as [H ->]. split; [reflexivity|]. apply Z.eqb_eq in H. unfold fan_of in H. apply product_zero in H as [H|H]; [discriminate|].
      apply in_map_iff in H as [s [E H]]. apply filter_In in H as [H1 H2]. exists s. split; [exact H1|]. split.
      - intros X. apply str_mem_In in X. rewrite X in H2. discriminate.
      - rewrite <- E. apply size_in, Hsz, H1. }
    right. apply bind_Err in H as [H|[text [_ H]]]; [|discriminate]. split; [exact (text_error _ _ _ _ H)|].
    rewrite <- (mix_names_length 0 (nbig (atoms L)) (nbig (atoms L) + nbig (atoms R))).
    destruct (le_lt_dec (length (mix_names 0 (nbig (atoms L)) (nbig (atoms L) + nbig (atoms R)) L R W)) 26) as [X|X]; [exfalso|exact X].
    pose proof (proj2 (text_iff 0 (nbig (atoms L)) (nbig (atoms L) + nbig (atoms R)) L R W _ N1 N2 N3 PL PR PW) (conj X eq_refl)). congruence.
  Qed.
End Mix.

(** ** the answers *)
Section Answers.
  Context {T : Type} (U : unicode) (HU : unicode_ok U) (o : orders) (os os' : nat -> orders) (Ho : orders_ok o) (Hos : forall n, orders_ok (os n)) (Hos' : forall n, orders_ok (os' n)).
  Context (printable : N -> bool) (callable foreign : pystr) (fun_repr : (T -> list nat -> result T) -> pystr) (class_name : pystr).
  Lemma rearrange_answer p sizes a : Rearrange_answer (T := T) U os printable callable foreign class_name p sizes = a ->
    match a with
    | Returns L => Rearrange U os p sizes = Ok L
    | Raises e => e <> EinopsError /\ Rearrange (T := T) U os p sizes = Err e
    | Reports text => Rearrange (T := T) U os p sizes = Err EinopsError /\ exists m, true_of_layer U p (OpStr (lit "rearrange")) sizes m /\
        text = preparing printable callable foreign (Rearrange_repr printable class_name (mkLayer (T := T) p (RStr (lit "rearrange")) sizes [])) m
    | UnboundLocal => False
    end.
  Proof.
    intros <-. unfold Rearrange_answer. rewrite <- plain_rearrange. pose proof (worded_rearrange (T := T) U os p sizes) as Hw.
    destruct (Rearrange_msg U os p sizes) as [L|m|e] eqn:E; cbn; [reflexivity| |].
    - split; [reflexivity|]. exists m. split; [exact (rearrange_true (T := T) U os HU Hos p sizes m E)|reflexivity].
    - split; [|reflexivity]. intros ->. apply Hw. reflexivity.
  Qed.
  Lemma reduce_answer_layer p red sizes a : Reduce_answer (T := T) U os printable callable foreign fun_repr class_name p red sizes = a ->
    match a with
    | Returns L => Reduce U os p red sizes = Ok L
    | Raises e => e <> EinopsError /\ Reduce U os p red sizes = Err e
    | Reports text => Reduce U os p red sizes = Err EinopsError /\ exists m, true_of_layer U p (op_of red) sizes m /\
        text = preparing printable callable foreign (Reduce_repr printable fun_repr class_name (mkLayer p red sizes [])) m
    | UnboundLocal => False
    end.
  Proof.
    intros <-. unfold Reduce_answer. rewrite <- plain_reduce. pose proof (worded_reduce (T := T) U os p red sizes) as Hw.
    destruct (Reduce_msg U os p red sizes) as [L|m|e] eqn:E; cbn; [reflexivity| |].
    - split; [reflexivity|]. exists m. split; [exact (reduce_true (T := T) U os HU Hos p red sizes m E)|reflexivity].
    - split; [|reflexivity]. intros ->. apply Hw. reflexivity.
  Qed.
  Lemma einmix_answer p w b sizes a : NoDup (map fst sizes) -> EinMix_answer (T := T) U o os os' printable p w b sizes = a ->
    match a with
    | Returns M => EinMix U os os' p w b sizes = Ok M
    | Raises e => e <> EinopsError /\ EinMix (T := T) U os os' p w b sizes = Err e
    | Reports text => EinMix (T := T) U os os' p w b sizes = Err EinopsError /\ exists f, true_of_mix U p w b sizes f /\ text = fault_text (T := T) printable f
    | UnboundLocal => False
    end.
  Proof.
    intros Hn <-. unfold EinMix_answer. rewrite <- (made_einmix U o os os' Ho). pose proof (phrased_mix (T := T) U o os os' p w b sizes) as Hw.
    destruct (EinMix_msg U o os os' p w b sizes) as [L|m|e] eqn:E; cbn; [reflexivity| |].
    - split; [reflexivity|]. exists m. split; [exact (mix_true U HU o os os' Ho Hos Hos' p w b sizes Hn m E)|reflexivity].
    - split; [|reflexivity]. intros ->. apply Hw. reflexivity.
  Qed.
End Answers.
