(** * Facts: messages of EinMix are true (continued); what else is raised *)
From Verif Require Import Py Tensor ListFacts SpecSem SpecGrammar SpecEinsum SpecPattern SpecOps Parsing Compile Recipe Ops Backends ParseFacts ParseFacts2 ParseFacts3 Einsum
  FrontFacts FrontFacts2 MainFacts Layers LayerFacts EinMix SpecEinMix MixFacts MixFacts2 MixFacts3 MixFacts4 Texts Messages SpecMessages MessageFacts MessageFacts2 MessageFacts3 MessageFacts4
  LayerMessages SpecLayerMessages LayerMessageFacts LayerMessageFacts2.

Lemma written_proper U s E x : written U s E -> plain E -> In (AName x) (atoms E) -> proper_name U x.
Proof.
  intros [ts [_ [He _]]] Hp Hx. destruct (structured_words U false ts E He _ Hx) as [w Hw]. inversion Hw as [| |w' Hl]; subst.
  destruct Hl as [->|(H1 & _ & [H2|[H2 _]])]; [contradiction|split; [exact H1|exact H2]|discriminate].
Qed.
Lemma in_pre_sizes s d (texts : list pystr) : In s (map fst (filter (fun '(name, _) => str_mem name texts) d)) <-> In s (map fst (d : list (pystr * Z))) /\ In s texts.
Proof.
  rewrite !in_map_iff. split.
  - intros [[k z] [<- H]]. apply filter_In in H as [H1 H2]. apply str_mem_In in H2. split; [exists (k, z); auto|exact H2].
  - intros [[[k z] [<- H1]] H2]. exists (k, z). split; [reflexivity|]. apply filter_In. split; [exact H1|apply str_mem_In, H2].
Qed.

Section Mix.
  Context {T : Type} (U : unicode) (HU : unicode_ok U) (o : orders) (os os' : nat -> orders) (Ho : orders_ok o) (Hos : forall n, orders_ok (os n)) (Hos' : forall n, orders_ok (os' n)).
  Context (pattern wt l r : pystr) (bt : option pystr) (sizes : list (pystr * Z)) (L R W : expr).
  Context (Hsplit : str_split s_arrow pattern = [l; r]) (WL : written U l L) (WR : written U r R) (WW : written U wt W).
  Context (Hns : NoDup (map fst sizes)) (Hpo : parse_ok L R W).
  Notation cL := (fst (compile 0 L)).
  Notation kR := (nbig (atoms L)).
  Notation cR := (fst (compile kR R)).
  Notation kW := (kR + nbig (atoms R)).
  Notation cW := (fst (compile kW W)).
  Notation kB := (kW + nbig (atoms W)).

  Lemma pattern_reads : reads U pattern L R.
  Proof. apply (reads_split U HU). exists l, r. auto. Qed.
  Lemma layer_Faulty os1 p d f : rearrange_layer_msg (T := T) U os1 p d = Faulty f -> exists m, Rearrange_msg (T := T) U os1 p d = Wrong m /\ f = Preparing p d m.
  Proof. unfold rearrange_layer_msg. destruct (Rearrange_msg U os1 p d) as [x|m|e]; intros H; try discriminate. injection H as <-. eauto. Qed.

  Lemma pre_message m : plain L -> Rearrange_msg (T := T) U os (pre_pattern l L) (pre_sizes sizes L) = Wrong m ->
    (m = BadSizeName (lit "...") /\ In (lit "...") (map fst sizes) /\ has_dots L = true) \/
    exists axes e g, m = CannotInfer axes /\ In g (left_groups e L) /\ 2 <= length axes /\ NoDup axes /\
      forall a, In a axes <-> exists s, a = AxName s /\ In (LName s) g /\ ~ In s (map fst sizes).
  Proof.
    intros PL H. pose proof (rearrange_true (T := T) U os HU Hos _ _ _ H) as [Ht [n Hc]].
    pose proof (pre_reads U HU l L R W WL Hpo) as Hrd.
    assert (Hl : late U m).
    { unfold Rearrange_msg in H. apply then_Wrong in H as [H|[u [_ H]]]; [exfalso; exact (kwargs_quiet _ _ _ H)|]. unfold make_layer_msg in H.
      apply then_Wrong in H as [H|[u' [_ H]]]; [|discriminate]. exact (late_all_dims U HU os _ _ _ L (flat L) Hrd m H). }
    destruct Hl as [Ha Hu]. specialize (Hc (repeat 0 n) (repeat_length _ _)). unfold true_of_call in Hc. cbv zeta in Hc. rewrite Ha in Hc.
    destruct Hc as (L' & R' & Hr' & Hc). destruct (reads_fun U HU _ _ _ _ _ Hr' Hrd) as [-> ->]. destruct (po_numbers _ _ _ Hpo) as (N1 & N2 & N3).
    destruct m; try discriminate Ha; try discriminate Ht; try contradiction.
    - destruct Hc as (_ & E1 & E2). rewrite has_dots_flat in E2. congruence.
    - destruct Hc as [_ Hg]. exfalso. apply (proj1 (grouped_dots_none U l L WL) (po_flat _ _ _ Hpo) Hg).
    - destruct Hc as [_ [X|X]]; [|rewrite has_numbers_flat in X]; congruence.
    - destruct Hc as (_ & Hne & _ & H1 & H2). exfalso. apply Hne. destruct axes as [|[s|j v] axes]; [reflexivity| |].
      + exfalso. destruct (proj1 (H1 s) (or_introl eq_refl)) as [[X Y]|[X Y]]; rewrite keys_flat in *; contradiction.
      + exfalso. destruct (proj1 (H2 v) (ex_intro _ j (or_introl eq_refl))) as [[] _].
    - destruct Hc as [X _]. discriminate.
    - destruct Hc as [X _]. discriminate.
    - destruct Hc as (_ & X & _). cbn in X. intuition discriminate.
    - destruct Hc as (_ & s & E & X). injection E as <-. exfalso. apply X. left. reflexivity.
    - destruct Hc as [X Y]. apply in_pre_sizes in X as [X1 X2]. left. pose proof X2 as X3. apply (text_atom U l L x HU WL N1) in X2. destruct X2 as [->|X2].
      + split; [reflexivity|]. split; [exact X1|]. apply in_map_iff in X3 as [a [Ea X3]]. apply in_no_ones in X3. destruct a as [s|z|]; cbn in Ea; try discriminate.
        * exfalso. subst s. apply (dots_not_name U HU). apply (written_keys U false false l L). exact WL. apply in_flat_map. exists (AName s_dots). split; [exact X3|left; reflexivity].
        * apply existsb_exists. exists ADots. auto.
      + destruct (Y (written_proper U l L x WL PL X2)).
    - destruct Hc as (X & Y & _). apply in_pre_sizes in X as [X1 X2]. apply (text_atom U l L x HU WL N1) in X2. destruct X2 as [->|X2].
      + exfalso. specialize (Hu _ eq_refl). apply check_proper in Hu. destruct Hu as [Hu _]. apply (dots_not_name U HU). right. exact Hu.
      + exfalso. apply Y. apply in_flat_map. exists (AName x). split; [exact X2|left; reflexivity].
    - right. destruct Hc as (e & g & _ & Hg & Hlen & Hnd & Hax). exists axes, e, g. split; [reflexivity|]. split; [exact Hg|]. split; [exact Hlen|]. split; [exact Hnd|].
      intros a. rewrite Hax. split; intros (s & -> & Hs & Hn); exists s; (split; [reflexivity|]; split; [exact Hs|]); intros X; apply Hn.
      + apply in_pre_sizes. split; [exact X|]. apply (atom_text L s PL). apply (in_alabs_name e). apply (left_labels L R W PL Hpo e g); assumption.
      + apply in_pre_sizes in X. apply X.
  Qed.
  Lemma layers_faulty f : rearrange_layers_msg (T := T) U os os' (pre_reshape l cL sizes) (post_reshape r cR) = Faulty f -> true_of_mix U pattern wt bt sizes f.
  Proof.
    unfold rearrange_layers_msg. intros H.
    assert (Done : forall p d m, incl d sizes -> true_of_layer U p (OpStr (lit "rearrange")) d m ->
      (plain L -> plain R -> (m = BadSizeName (lit "...") /\ In (lit "...") (map fst sizes) /\ has_dots L = true) \/
           exists axes e g, m = CannotInfer axes /\ In g (left_groups e L) /\ 2 <= length axes /\ NoDup axes /\
             forall a, In a axes <-> exists s, a = AxName s /\ In (LName s) g /\ ~ In s (map fst sizes)) -> true_of_mix U pattern wt bt sizes (Preparing p d m)).
    { intros p d m H1 H2 H3. exists L, R, W. split; [exact pattern_reads|]. split; [exact WW|]. auto. }
    apply then_Faulty in H as [H|[pre [_ H]]].
    - destruct (pre_reshape l cL sizes) as [[p d]|] eqn:Ep; [|discriminate]. apply then_Faulty in H as [H|[P [_ H]]]; [|discriminate].
      apply layer_Faulty in H as [m [H ->]]. apply Done.
      + unfold pre_reshape in Ep. destruct (any_composed cL); [|discriminate]. injection Ep as <- <-. intros x Hx. apply filter_In in Hx. apply Hx.
      + exact (rearrange_true (T := T) U os HU Hos _ _ _ H).
      + intros PL PR. rewrite (pre_eq l sizes L R W PL Hpo) in Ep. destruct (any_composed cL); [|discriminate]. injection Ep as <- <-. apply pre_message; assumption.
    - apply then_Faulty in H as [H|[post [_ H]]]; [|discriminate].
      destruct (post_reshape r cR) as [p|] eqn:Ep; [|discriminate]. apply then_Faulty in H as [H|[P [_ H]]]; [|discriminate].
      apply layer_Faulty in H as [m [H ->]]. apply Done.
      + intros x [].
      + exact (rearrange_true (T := T) U os' HU Hos' _ _ _ H).
      + intros PL PR. exfalso. rewrite (post_eq r L R W PR Hpo) in Ep. destruct (post_needed L R); [|discriminate]. injection Ep as <-.
        destruct (post_made (T := T) U HU os' Hos' r L R W WR PR Hpo) as [P E]. rewrite <- plain_rearrange, H in E. discriminate.
  Qed.

  Lemma name_axes_NoDup : NoDup (map AxName (map fst sizes)).
  Proof. apply FinFun.Injective_map_NoDup; [|exact Hns]. intros a b E. injection E as <-. reflexivity. Qed.
  Lemma in_name_axes a (d : list (pystr * Z)) : In a (map AxName (map fst d)) <-> exists s, a = AxName s /\ In s (map fst d).
  Proof. rewrite in_map_iff. split; intros [s [E H]]; exists s; auto. Qed.
  Lemma no_big k E j v : has_numbers E = false -> ~ big_at k (atoms E) j v.
  Proof. apply no_numbers_big. Qed.

  Lemma check_faulty f : einmix_check_msg o cL cR cW sizes = Faulty f -> true_of_mix U pattern wt bt sizes f.
  Proof.
    destruct (po_numbers _ _ _ Hpo) as (N1 & N2 & N3).
    unfold einmix_check_msg. rewrite !ids_eq. intros H. apply then_Faulty in H as [H|[[] [_ H]]].
    - apply foldA_Faulty in H as (l1 & a & l2 & acc & El & _ & H). apply if_Faulty in H as [H ->].
      assert (Ha : In a (ids kW W)) by (apply (Permutation_in _ (Ho 3 (ids kW W))); rewrite El; apply in_or_app; right; left; reflexivity).
      exists L, R, W. split; [exact pattern_reads|]. split; [exact WW|]. apply in_ids in Ha. destruct a as [s|j v]; [|destruct (no_big _ _ _ _ N3 Ha)].
      exists s. split; [reflexivity|]. split; [exact Ha|]. intros X. apply dict_has_In in X. rewrite X in H. discriminate.
    - apply then_Faulty in H as [H|[[] [_ H]]]; apply report_Faulty in H as [Hne ->]; exists L, R, W; (split; [exact pattern_reads|]); (split; [exact WW|]).
      + apply (consists_list o _ _ _ Ho Hne).
        * apply NoDup_filter, name_axes_NoDup.
        * intros s. rewrite in_diff, union_ids, in_name_axes. split.
          -- intros [[t [E X]] Y]. injection E as <-. tauto.
          -- intros (X & Y & Z). split; [eauto|tauto].
        * intros n. split; [|intros [[] _]]. intros [j Hj]. apply in_diff in Hj as [Hj _]. apply in_name_axes in Hj as [s [E _]]. discriminate.
      + apply (consists_list o _ _ _ Ho Hne).
        * apply NoDup_filter, ids_NoDup.
        * intros s. rewrite in_diff, union_ids, in_ids. tauto.
        * intros n. split; [|intros [[] _]]. intros [j Hj]. apply in_diff in Hj as [Hj _]. apply in_ids in Hj. destruct (no_big _ _ _ _ N3 Hj).
  Qed.

  Lemma used_before ids0 : forall l1 k st1 l2, l2 = atoms_axes k l1 -> foldA (bias_step_msg ids0 sizes) l2 ([], false) = Made st1 -> snd st1 = true -> exists a, In a l2 /\ In a ids0 /\ a <> ax_ellipsis.
  Proof.
    intros l1 k st1 l2 _. assert (G : forall l3 sh u, foldA (bias_step_msg ids0 sizes) l3 (sh, u) = Made st1 -> snd st1 = true -> u = true \/ exists a, In a l3 /\ In a ids0 /\ a <> ax_ellipsis).
    { induction l3 as [|a l3 IH]; intros sh u H E; cbn [foldA] in H; [injection H as <-; auto|].
      destruct (bias_step_msg ids0 sizes (sh, u) a) as [[sh' u']|w|e] eqn:Es; try discriminate. cbn [and_made] in H. specialize (IH _ _ H E).
      destruct IH as [->|(b & X & Y)]; [|right; exists b; split; [right; exact X|exact Y]]. unfold bias_step_msg in Es.
      destruct (axis_eqb a ax_ellipsis) eqn:Ea.
      - destruct u; discriminate Es.
      - destruct (axis_mem a ids0) eqn:Em.
        + right. exists a. split; [left; reflexivity|]. split; [apply axis_mem_In, Em|]. intros ->. rewrite (proj2 (axis_eqb_eq _ _) eq_refl) in Ea. discriminate.
        + injection Es as <- <-. left. reflexivity. }
    intros H E. destruct (G l2 [] false H E) as [X|X]; [discriminate|exact X].
  Qed.
  Lemma axes_split k as0 l1 a l2 : atoms_axes k as0 = l1 ++ a :: l2 ->
    exists pre b post k', as0 = pre ++ b :: post /\ In a (atom_axes k' b) /\ l1 = atoms_axes k pre.
  Proof.
    revert k l1. induction as0 as [|b as0 IH]; intros k l1 H; [destruct l1; discriminate|]. cbn [atoms_axes] in H.
    destruct b as [s|z|].
    - cbn [atom_axes app] in H. destruct l1 as [|c l1].
      + injection H as <- _. exists [], (AName s), as0, k. split; [reflexivity|]. split; [left; reflexivity|reflexivity].
      + injection H as <- H. apply IH in H as (pre & b & post & k' & -> & Hb & ->). exists (AName s :: pre), b, post, k'. auto.
    - cbn [atom_axes] in H. destruct (z =? 1)%Z eqn:Ez.
      + cbn [app] in H. apply IH in H as (pre & b & post & k' & -> & Hb & ->). exists (ANum z :: pre), b, post, k'. split; [reflexivity|]. split; [exact Hb|].
        cbn [atoms_axes atom_axes]. rewrite Ez. reflexivity.
      + cbn [app] in H. destruct l1 as [|c l1].
        * injection H as <- _. exists [], (ANum z), as0, k. split; [reflexivity|]. split; [cbn; rewrite Ez; left; reflexivity|reflexivity].
        * injection H as <- H. apply IH in H as (pre & b & post & k' & -> & Hb & ->). exists (ANum z :: pre), b, post, k'. split; [reflexivity|]. split; [exact Hb|].
          cbn [atoms_axes atom_axes]. rewrite Ez. reflexivity.
    - cbn [atom_axes app] in H. destruct l1 as [|c l1].
      + injection H as <- _. exists [], ADots, as0, k. split; [reflexivity|]. split; [left; reflexivity|reflexivity].
      + injection H as <- H. apply IH in H as (pre & b & post & k' & -> & Hb & ->). exists (ADots :: pre), b, post, k'. auto.
  Qed.
  Lemma bias_faulty f : bias_lengths_msg U o cR kB bt sizes = Faulty f -> true_of_mix U pattern wt bt sizes f.
  Proof.
    destruct (po_numbers _ _ _ Hpo) as (N1 & N2 & N3).
    unfold bias_lengths_msg. destruct bt as [text|]; [|discriminate]. intros H.
    apply then_Faulty in H as [H|[[bias k] [H1 H]]].
    { apply text_Faulty in H as [m [H ->]]. apply (parse_true U false false _ text m HU) in H as [_ H]. apply split_two in Hsplit. exists l, r. split; [exact Hsplit|].
      right; right; right. exists text. auto. }
    apply text_Made, (side_fine U HU) in H1 as [B [WB E]]. apply pair_equal_spec in E as [-> _]. rewrite !ids_eq in H.
    apply then_Faulty in H as [H|[[] [H2 H]]].
    { apply report_Faulty in H as [Hne ->]. exists L, R, W. split; [exact pattern_reads|]. split; [exact WW|]. exists text, B. split; [reflexivity|]. split; [exact WB|].
      apply (consists_list o _ _ _ Ho Hne); [apply NoDup_filter, ids_NoDup| |].
      - intros s. rewrite in_diff, !in_ids. tauto.
      - intros n. rewrite <- (big_numbers kB B n). split; intros [j Hj]; exists j; rewrite in_diff, !in_ids in *; [apply Hj|]. split; [exact Hj|]. apply no_big, N2. }
    assert (NB : has_numbers B = false).
    { destruct (has_numbers B) eqn:Eb; [|reflexivity]. exfalso. apply existsb_exists in Eb as [[s|n|] [X Y]]; try discriminate.
      cbn in Y. apply negb_true_iff, Z.eqb_neq in Y. destruct (proj2 (big_numbers kB B n) (conj X Y)) as [j Hj].
      assert (C : In (AxAnon j n) (set_diff (ids kB B) (ids kR R))) by (rewrite in_diff, !in_ids; split; [exact Hj|apply no_big, N2]).
      unfold report_axes_msg in H2. destruct (set_diff (ids kB B) (ids kR R)); [destruct C|discriminate]. }
    apply then_Faulty in H as [H|[[] [H3 H]]].
    { apply report_Faulty in H as [Hne ->]. exists L, R, W. split; [exact pattern_reads|]. split; [exact WW|]. exists text, B. split; [reflexivity|]. split; [exact WB|].
      apply (consists_list o _ _ _ Ho Hne); [apply NoDup_filter, ids_NoDup| |].
      - intros s. rewrite in_diff, in_ids, in_name_axes. split.
        + intros [X Y]. split; [exact X|]. intros Z. apply Y. eauto.
        + intros [X Y]. split; [exact X|]. intros [t [E Z]]. injection E as <-. contradiction.
      - intros n. split; [|intros [[] _]]. intros [j Hj]. apply in_diff in Hj as [Hj _]. apply in_ids in Hj. destruct (no_big _ _ _ _ NB Hj). }
    apply then_Faulty in H as [H|[[sh u] [_ H]]]; [|discriminate].
    rewrite flat_axes_compile in H. apply foldA_Faulty in H as (l1 & a & l2 & [sh u] & El & Hm & H). unfold bias_step_msg in H.
    destruct (axis_eqb a ax_ellipsis) eqn:Ea; [|destruct (axis_mem a (ids kB B)); [|discriminate]; apply then_Faulty in H as [H|[z [_ H]]]; [destruct (silent_Faulty _ _ H)|discriminate]].
    apply then_Faulty in H as [H|[z [_ H]]]; [|discriminate]. apply if_Faulty in H as [-> ->]. apply axis_eqb_eq in Ea. subst a.
    apply axes_split in El as (pre & b & post & k' & Eatoms & Hb & El). destruct (used_before _ pre kR _ l1 El Hm eq_refl) as (a & A1 & A2 & A3).
    exists L, R, W. split; [exact pattern_reads|]. split; [exact WW|]. exists text, B. split; [reflexivity|]. split; [exact WB|].
    exists pre, b, post. rewrite El in A1. apply in_atoms_axes in A1. apply in_ids in A2. destruct a as [s|j v]; [|destruct (no_big _ _ _ _ NB A2)].
    exists s. split; [exact Eatoms|]. split; [|split; [|exact A2]].
    - destruct b as [t|z|]; [|cbn in Hb; destruct (z =? 1)%Z; [destruct Hb|destruct Hb as [Hb|[]]; discriminate]|left; reflexivity].
      right. destruct Hb as [Hb|[]]. injection Hb as ->. reflexivity.
    - apply in_flat_map in A1 as [c [C1 C2]]. destruct c as [t|z|]; cbn in C2; [destruct C2 as [->|[]]; exact C1|destruct C2|].
      destruct C2 as [C2|[]]. exfalso. apply A3. rewrite <- C2. reflexivity.
  Qed.
End Mix.
