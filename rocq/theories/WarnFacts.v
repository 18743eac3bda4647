(** * Which warnings are issued *)
From Verif Require Import Py Tensor ListFacts SpecSem SpecGrammar SpecPacking SpecPattern Parsing Compile Recipe Packing Cache Warnings SpecWarnings
  ParseFacts ParseFacts2 ParseFacts3 FrontFacts2 PackFacts CacheFacts.

Lemma snd_wbind {A B} (a : logged A) (f : A -> logged B) : snd (wbind a f) = bind (snd a) (fun x => snd (f x)).
Proof. unfold wbind. destruct (snd a); reflexivity. Qed.

Lemma wbind_log {A B} (a : logged A) (f : A -> logged B) w :
  In w (fst (wbind a f)) -> In w (fst a) \/ exists x, snd a = Ok x /\ In w (fst (f x)).
Proof. unfold wbind. destruct (snd a) eqn:E; simpl; [|auto]. rewrite in_app_iff. intros [H|H]; eauto. Qed.

Lemma wbind_Ok {A B} (a : logged A) (f : A -> logged B) y : snd (wbind a f) = Ok y ->
  exists x, snd a = Ok x /\ snd (f x) = Ok y /\ fst (wbind a f) = fst a ++ fst (f x).
Proof. unfold wbind. destruct (snd a) as [x|]; simpl; [|discriminate]. eauto. Qed.

Section Warn.
  Context (U : unicode) (K : pystr -> bool).

  Lemma discouraged_eq s : (if K s then [KeywordName s] else []) ++ (if str_mem s [lit "axis"] then [AxisName] else []) = discouraged K s.
  Proof.
    unfold discouraged, str_mem. f_equal. cbn [existsb]. rewrite orb_false_r. unfold str_eqb.
    destruct (str_eq_dec s (lit "axis")); reflexivity.
  Qed.

  Lemma check_w_snd au s : snd (check_axis_name_w U K au s) = check_axis_name U au s.
  Proof. unfold check_axis_name_w, check_axis_name. destruct (negb (isidentifier U s)); [reflexivity|]. destruct ((hd 0%N s =? c_under)%N || (last s 0%N =? c_under)%N); reflexivity. Qed.

  Lemma check_w_fst au s : fst (check_axis_name_w U K au s) = if check_axis_name U false s then discouraged K s else [].
  Proof.
    unfold check_axis_name_w, check_axis_name. destruct (negb (isidentifier U s)); [reflexivity|].
    destruct ((hd 0%N s =? c_under)%N || (last s 0%N =? c_under)%N); simpl; [rewrite andb_false_r; reflexivity|apply discouraged_eq].
  Qed.

  (** a name without a problem *)
  Definition proper (s : pystr) : Prop := isidentifier U s = true /\ hd 0%N s <> c_under /\ last s 0%N <> c_under.
  Lemma check_false s : check_axis_name U false s = true <-> proper s.
  Proof. rewrite check_axis_name_spec. unfold proper. split; [intros [H [H'|[H' _]]]; [tauto|discriminate]|tauto]. Qed.
  Definition justified (w : warning) : Prop := exists s, proper s /\ In w (discouraged K s).
  Lemma check_justified au s w : In w (fst (check_axis_name_w U K au s)) -> justified w.
  Proof.
    rewrite check_w_fst. destruct (check_axis_name U false s) eqn:E; [|intros []]. intros H. exists s.
    split; [apply check_false; exact E|exact H].
  Qed.

  (** ** the result is not affected *)
  Lemma add_w_snd au ad x st : snd (add_axis_name_w U K au ad x st) = add_axis_name U au ad x st.
  Proof.
    unfold add_axis_name_w.
    destruct (axis_mem (AxName x) (s_ids st) && negb (au && str_eqb x [c_under]) && negb ad); [reflexivity|].
    destruct (str_eqb x ellipsis_str); [reflexivity|]. destruct (isdecimal U x && (int_of_str U x =? 1)%Z); reflexivity.
  Qed.
  Lemma flush_w_snd au ad cur st : snd (flush_w U K au ad cur st) = flush U au ad cur st.
  Proof. destruct cur; [apply add_w_snd|reflexivity]. Qed.
  Lemma loop_w_snd au ad cs : forall cur st, snd (parse_loop_w U K au ad cs cur st) = parse_loop U au ad cs cur st.
  Proof.
    induction cs as [|c cs IH]; intros cur st; cbn [parse_loop_w parse_loop].
    - destruct (s_bracket st); [reflexivity|apply flush_w_snd].
    - destruct ((c =? c_open)%N || (c =? c_close)%N || (c =? c_space)%N).
      + rewrite snd_wbind, flush_w_snd. destruct (flush U au ad cur st) as [st1|e]; [cbn [bind]|reflexivity].
        destruct (c =? c_open)%N; [destruct (s_bracket st1); [reflexivity|apply IH]|].
        destruct (c =? c_close)%N; [destruct (s_bracket st1); [apply IH|reflexivity]|apply IH].
      + destruct (u_alnum U c || (c =? c_under)%N || (c =? c_ell)%N); [apply IH|reflexivity].
  Qed.
  Lemma parse_w_snd au ad k s : snd (parse_expression_w U K au ad k s) = parse_expression U au ad k s.
  Proof.
    unfold parse_expression_w, parse_expression. cbv zeta. rewrite snd_wbind. cbn [wret snd].
    destruct (raise_if (str_contains dot s && negb (str_contains dots s)) EinopsError); [cbn [bind]|reflexivity].
    rewrite snd_wbind. cbn [wret snd].
    destruct (raise_if _ EinopsError); [cbn [bind]|reflexivity].
    rewrite snd_wbind, loop_w_snd. reflexivity.
  Qed.
  Lemma mark_w_snd ns : forall d, snd (mark_expected_w U K ns d) = mark_expected U ns d.
  Proof.
    induction ns as [|n ns IH]; intros d; [reflexivity|]. cbn [mark_expected_w]. unfold mark_expected. cbn [foldM]. fold (mark_expected U ns).
    rewrite snd_wbind. cbn [snd bind]. rewrite check_w_snd, snd_wbind. cbn [wret snd].
    destruct (raise_if (negb (check_axis_name U false n)) EinopsError); [cbn [bind]|reflexivity].
    rewrite snd_wbind. cbn [wret snd].
    destruct (raise_if (negb (dict_has axis_eqb (AxName n) d)) EinopsError); [cbn [bind]|reflexivity]. apply IH.
  Qed.
  Lemma prepare_w_snd o p op ns n : snd (prepare_recipe_w U K o p op ns n) = prepare_recipe U o p op ns n.
  Proof.
    unfold prepare_recipe_w, prepare_recipe. destruct (str_split s_arrow p) as [|l [|q [|? ?]]]; try reflexivity.
    rewrite snd_wbind, parse_w_snd. destruct (parse_expression U false false 0 l) as [[lft next]|]; [cbn [bind]|reflexivity].
    rewrite snd_wbind, parse_w_snd. destruct (parse_expression U false false next q) as [[rght ?]|]; [cbn [bind]|reflexivity].
    rewrite snd_wbind. cbn [wret snd]. destruct (raise_if (negb (p_has_ellipsis lft) && p_has_ellipsis rght) EinopsError); [cbn [bind]|reflexivity].
    rewrite snd_wbind. cbn [wret snd]. destruct (raise_if _ EinopsError); [cbn [bind]|reflexivity].
    rewrite snd_wbind. cbn [wret snd]. destruct (check_identifiers op lft rght ns); [cbn [bind]|reflexivity].
    rewrite snd_wbind. cbn [wret snd]. destruct (resolve_ellipsis lft rght n) as [[[[lcomp rcomp] lids] rids]|]; [cbn [bind]|reflexivity].
    rewrite snd_wbind, mark_w_snd. destruct (mark_expected U ns _); reflexivity.
  Qed.
  Lemma axes_w_snd axes : snd (check_axes_w U K axes) =
    raise_if (existsb (fun axis => negb (str_eqb axis star) && negb (check_axis_name U false axis)) axes) EinopsError.
  Proof.
    induction axes as [|a axes IH]; [reflexivity|]. cbn [check_axes_w existsb]. rewrite snd_wbind, IH.
    destruct (str_eqb a star); cbn [wret snd bind negb andb orb]; [reflexivity|]. rewrite check_w_snd.
    destruct (check_axis_name U false a); reflexivity.
  Qed.
  Lemma analyze_w_snd p : snd (analyze_pattern_w U K p) = analyze_pattern U p.
  Proof.
    unfold analyze_pattern_w, analyze_pattern. cbv zeta. rewrite snd_wbind. cbn [wret snd].
    destruct (raise_if _ EinopsError); [cbn [bind]|reflexivity].
    rewrite snd_wbind. cbn [wret snd]. destruct (raise_if _ EinopsError); [cbn [bind]|reflexivity].
    rewrite snd_wbind, axes_w_snd. reflexivity.
  Qed.

  (** ** no false alarms *)
  Lemma add_justified au ad x st w : In w (fst (add_axis_name_w U K au ad x st)) -> justified w.
  Proof.
    unfold add_axis_name_w.
    destruct (axis_mem (AxName x) (s_ids st) && negb (au && str_eqb x [c_under]) && negb ad); [intros []|].
    destruct (str_eqb x ellipsis_str); [intros []|]. destruct (isdecimal U x && (int_of_str U x =? 1)%Z); [intros []|].
    cbn [fst]. apply check_justified.
  Qed.
  Lemma loop_justified au ad w cs : forall cur st, In w (fst (parse_loop_w U K au ad cs cur st)) -> justified w.
  Proof.
    assert (F : forall cur st, In w (fst (flush_w U K au ad cur st)) -> justified w).
    { intros [x|] st; [apply add_justified|intros []]. }
    induction cs as [|c cs IH]; intros cur st; cbn [parse_loop_w].
    - destruct (s_bracket st); [intros []|apply F].
    - destruct ((c =? c_open)%N || (c =? c_close)%N || (c =? c_space)%N).
      + intros H. apply wbind_log in H as [H|[st1 [_ H]]]; [eapply F; eauto|].
        destruct (c =? c_open)%N; [destruct (s_bracket st1); [destruct H|eapply IH; eauto]|].
        destruct (c =? c_close)%N; [destruct (s_bracket st1); [eapply IH; eauto|destruct H]|eapply IH; eauto].
      + destruct (u_alnum U c || (c =? c_under)%N || (c =? c_ell)%N); [apply IH|intros []].
  Qed.
  Lemma parse_justified au ad k s w : In w (fst (parse_expression_w U K au ad k s)) -> justified w.
  Proof.
    unfold parse_expression_w. cbv zeta. intros H. apply wbind_log in H as [[]|[_ [_ H]]].
    apply wbind_log in H as [[]|[_ [_ H]]]. apply wbind_log in H as [H|[st [_ []]]]. eapply loop_justified; eauto.
  Qed.
  Lemma mark_justified w ns : forall d, In w (fst (mark_expected_w U K ns d)) -> justified w.
  Proof.
    induction ns as [|n ns IH]; intros d; [intros []|]. cbn [mark_expected_w]. intros H.
    apply wbind_log in H as [H|[v [_ H]]]; [cbn [fst] in H; eapply check_justified; eauto|].
    apply wbind_log in H as [[]|[_ [_ H]]]. apply wbind_log in H as [[]|[_ [_ H]]]. eapply IH; eauto.
  Qed.
  Lemma prepare_justified o p op ns n w : In w (fst (prepare_recipe_w U K o p op ns n)) -> justified w.
  Proof.
    unfold prepare_recipe_w. destruct (str_split s_arrow p) as [|l [|q [|? ?]]]; try (intros []).
    intros H. apply wbind_log in H as [H|[[lft next] [_ H]]]; [eapply parse_justified; eauto|].
    apply wbind_log in H as [H|[[rght ?] [_ H]]]; [eapply parse_justified; eauto|].
    apply wbind_log in H as [[]|[_ [_ H]]]. apply wbind_log in H as [[]|[_ [_ H]]]. apply wbind_log in H as [[]|[_ [_ H]]].
    apply wbind_log in H as [[]|[[[[lcomp rcomp] lids] rids] [_ H]]].
    apply wbind_log in H as [H|[d [_ []]]]. eapply mark_justified; eauto.
  Qed.
  Lemma analyze_justified p w : In w (fst (analyze_pattern_w U K p)) -> justified w.
  Proof.
    unfold analyze_pattern_w. cbv zeta. intros H. apply wbind_log in H as [[]|[_ [_ H]]]. apply wbind_log in H as [[]|[_ [_ H]]].
    apply wbind_log in H as [H|[_ [_ []]]]. induction (str_words U p) as [|a axes IH]; [destruct H|]. cbn [check_axes_w] in H.
    apply wbind_log in H as [H|[_ [_ H]]]; [|auto]. destruct (str_eqb a star); [destruct H|]. eapply check_justified; eauto.
  Qed.

  (** ** all warnings, when there is a result *)
  Definition axis_alarm (a : axis) : list warning :=
    match a with AxName s => flat_map (discouraged K) (written_name (AName s)) | AxAnon _ _ => [] end.
  Definition alarms (st : pstate) : list warning :=
    flat_map axis_alarm (flat_map comp_axes (s_comp st) ++ match s_bracket st with Some g => g | None => [] end).

  Lemma alarm_ell : axis_alarm ax_ellipsis = [].
  Proof. reflexivity. Qed.

  Context (HU : unicode_ok U).

  Lemma check_alarm au x : str_eqb x ellipsis_str = false -> check_axis_name U au x = true ->
    fst (check_axis_name_w U K au x) = axis_alarm (AxName x).
  Proof.
    intros He Hc. rewrite check_w_fst. cbn [axis_alarm written_name].
    destruct (str_eq_dec x ell_name) as [->|_]; [discriminate He|].
    apply check_axis_name_spec in Hc as [Hi Hc]. destruct (str_eq_dec x [c_under]) as [->|Hu].
    - destruct (check_axis_name U false [c_under]) eqn:E; [|reflexivity]. apply check_false in E as [_ [E _]]. exfalso; apply E; reflexivity.
    - destruct Hc as [Hc|[_ Hc]]; [|contradiction]. rewrite (proj2 (check_false x)) by (split; auto). cbn [flat_map]. rewrite app_nil_r. reflexivity.
  Qed.

  Lemma add_alarms au ad x st st' : add_axis_name U au ad x st = Ok st' ->
    alarms st' = alarms st ++ fst (add_axis_name_w U K au ad x st).
  Proof.
    unfold add_axis_name, add_axis_name_w, alarms.
    destruct (axis_mem (AxName x) (s_ids st) && negb (au && str_eqb x [c_under]) && negb ad); [discriminate|].
    destruct (str_eqb x ellipsis_str) eqn:Ee.
    { cbn [wret fst]. rewrite app_nil_r. destruct (s_bracket st) as [g|] eqn:Eb; intros H; inversion H; subst; cbn [s_comp s_bracket].
      - rewrite !flat_map_app. cbn [flat_map]. rewrite alarm_ell. rewrite !app_nil_r. reflexivity.
      - rewrite !app_nil_r, !flat_map_app. cbn [flat_map comp_axes app]. rewrite alarm_ell. rewrite !app_nil_r. reflexivity. }
    destruct (isdecimal U x) eqn:Ed; cbn [andb].
    - assert (Hnc : check_axis_name U au x = false).
      { destruct (check_axis_name U au x) eqn:E; auto. apply check_axis_name_spec in E as [E _]. rewrite (ident_not_decimal U HU _ E) in Ed. discriminate. }
      assert (Hn0 : fst (check_axis_name_w U K au x) = []).
      { rewrite check_w_fst. destruct (check_axis_name U false x) eqn:E; auto. apply check_false in E as [E _]. rewrite (ident_not_decimal U HU _ E) in Ed. discriminate. }
      destruct (int_of_str U x =? 1)%Z.
      + cbn [wret fst]. rewrite app_nil_r. destruct (s_bracket st) as [g|] eqn:Eb; intros H; inversion H; subst; cbn [s_comp s_bracket]; [rewrite Eb; reflexivity|].
        rewrite !flat_map_app. cbn [flat_map comp_axes app]. rewrite !app_nil_r. reflexivity.
      + cbn [orb negb]. destruct (int_of_str U x <=? 1)%Z; [discriminate|]. cbn [fst]. rewrite Hn0, app_nil_r.
        destruct (s_bracket st) as [g|] eqn:Eb; intros H; inversion H; subst; cbn [s_comp s_bracket].
        * rewrite !flat_map_app. cbn [flat_map axis_alarm]. rewrite !app_nil_r. reflexivity.
        * rewrite !app_nil_r, !flat_map_app. cbn [flat_map comp_axes axis_alarm app]. rewrite !app_nil_r. reflexivity.
    - cbn [orb]. destruct (check_axis_name U au x) eqn:Ec; cbn [negb]; [|discriminate]. cbn [fst]. rewrite (check_alarm au x Ee Ec).
      destruct (s_bracket st) as [g|] eqn:Eb; intros H; inversion H; subst; cbn [s_comp s_bracket].
      + rewrite !flat_map_app. cbn [flat_map]. rewrite !app_nil_r, !app_assoc. reflexivity.
      + rewrite !app_nil_r, !flat_map_app. cbn [flat_map comp_axes app]. rewrite !app_nil_r. reflexivity.
  Qed.
  Lemma flush_alarms au ad cur st st' : flush U au ad cur st = Ok st' -> alarms st' = alarms st ++ fst (flush_w U K au ad cur st).
  Proof. destruct cur; cbn [flush flush_w]; [apply add_alarms|]. intros H; inversion H; subst. cbn [wret fst]. rewrite app_nil_r. reflexivity. Qed.

  Lemma loop_alarms au ad cs : forall cur st st', parse_loop U au ad cs cur st = Ok st' ->
    alarms st' = alarms st ++ fst (parse_loop_w U K au ad cs cur st).
  Proof.
    induction cs as [|c cs IH]; intros cur st st'; cbn [parse_loop parse_loop_w].
    - destruct (s_bracket st); [discriminate|apply flush_alarms].
    - destruct ((c =? c_open)%N || (c =? c_close)%N || (c =? c_space)%N).
      + intros H. apply bind_Ok in H as [st1 [H1 H]]. unfold wbind. rewrite flush_w_snd, H1. cbn [fst]. rewrite app_assoc, <- (flush_alarms _ _ _ _ _ H1).
        destruct (c =? c_open)%N.
        * destruct (s_bracket st1) eqn:Eb; [discriminate|]. rewrite (IH _ _ _ H). f_equal. unfold alarms. cbn [s_comp s_bracket]. rewrite Eb. reflexivity.
        * destruct (c =? c_close)%N; [|apply IH; exact H]. destruct (s_bracket st1) eqn:Eb; [|discriminate]. rewrite (IH _ _ _ H). f_equal.
          unfold alarms. cbn [s_comp s_bracket]. rewrite Eb, !flat_map_app. cbn [flat_map comp_axes]. rewrite !app_nil_r. reflexivity.
      + destruct (u_alnum U c || (c =? c_under)%N || (c =? c_ell)%N); [apply IH|discriminate].
  Qed.

  Lemma atoms_alarms l : forall k, flat_map axis_alarm (atoms_axes k l) = flat_map (discouraged K) (flat_map written_name l).
  Proof.
    induction l as [|a l IH]; intros k; [reflexivity|]. cbn [atoms_axes flat_map]. rewrite !flat_map_app, IH. f_equal.
    destruct a as [s|n|]; cbn [atom_axes flat_map axis_alarm]; rewrite ?app_nil_r; [reflexivity| |reflexivity].
    destruct (n =? 1)%Z; reflexivity.
  Qed.
  Lemma comps_alarms e : forall k, flat_map axis_alarm (flat_map comp_axes (comps k e)) = flat_map (discouraged K) (written_names e).
  Proof.
    unfold written_names, atoms. induction e as [|i e IH]; intros k; [reflexivity|]. cbn [comps flat_map]. rewrite !flat_map_app, IH. f_equal.
    rewrite <- (atoms_alarms _ k). f_equal. destruct i as [a|l]; [|reflexivity]. cbn [item_atoms atoms_axes]. rewrite app_nil_r. apply comp_axes_atom.
  Qed.

  Lemma parse_alarms au ad k s e : written_as U au ad s e ->
    parse_expression_w U K au ad k s = (flat_map (discouraged K) (written_names e), Ok (compile k e)).
  Proof.
    intros He. pose proof (proj2 (parse_expression_iff U HU au ad k s _) (ex_intro _ e (conj He eq_refl))) as H.
    pose proof (parse_w_snd au ad k s) as Hs. rewrite H in Hs. destruct (parse_expression_w U K au ad k s) as [log r] eqn:E. cbn [snd] in Hs. subst r. f_equal.
    rewrite <- (comps_alarms e k). change (comps k e) with (p_composition (fst (compile k e))).
    unfold parse_expression in H. unfold parse_expression_w in E. cbv zeta in H, E.
    apply bind_Ok in H as [? [H1 H]]. apply bind_Ok in H as [? [H2 H]]. apply bind_Ok in H as [st [H3 H]].
    unfold wbind in E. cbn [wret snd fst] in E. rewrite H1, H2, loop_w_snd, H3 in E. cbn [fst snd app] in E. rewrite !app_nil_r in E.
    apply (f_equal fst) in E. cbn [fst] in E. rewrite <- E.
    pose proof (loop_alarms _ _ _ _ _ _ H3) as G. change (alarms (init_pstate k)) with (@nil warning) in G. rewrite app_nil_l in G. rewrite <- G.
    unfold alarms. assert (Hb : s_bracket st = None).
    { apply parse_loop_iff in H3 as [_ [e' [_ [_ ->]]]]. reflexivity. }
    rewrite Hb, app_nil_r. apply (f_equal (fun r => match r with Ok q => p_composition (fst q) | Err _ => [] end)) in H. cbn [fst p_composition] in H. rewrite H. reflexivity.
  Qed.
  Lemma mark_alarms ns : forall d d', mark_expected U ns d = Ok d' -> fst (mark_expected_w U K ns d) = flat_map (discouraged K) ns.
  Proof.
    induction ns as [|n ns IH]; intros d d' H; [reflexivity|]. unfold mark_expected in H. cbn [foldM] in H. fold (mark_expected U ns) in H.
    apply bind_Ok in H as [d1 [H1 H]]. apply bind_Ok in H1 as [? [H1 H2]]. apply bind_Ok in H2 as [? [H2 H3]]. inversion H3; subst d1.
    cbn [mark_expected_w flat_map]. unfold wbind. cbn [wret fst snd]. rewrite check_w_snd, H1, H2. cbn [fst snd app]. rewrite (IH _ _ H). f_equal.
    rewrite check_w_fst. apply raise_if_Ok in H1. apply negb_false_iff in H1. rewrite H1. reflexivity.
  Qed.
  Lemma prepare_alarms o p L R op ns n rec : reads U p L R -> prepare_recipe U o p op ns n = Ok rec ->
    prepare_recipe_w U K o p op ns n = (flat_map (discouraged K) (written_names L ++ written_names R ++ ns), Ok rec).
  Proof.
    intros Hr H. pose proof (prepare_w_snd o p op ns n) as Hs. rewrite H in Hs.
    destruct (prepare_recipe_w U K o p op ns n) as [log res] eqn:E. cbn [snd] in Hs. subst res. f_equal.
    apply reads_split in Hr as [l [q [Ep [HL HR]]]]; [|exact HU]. unfold prepare_recipe in H. unfold prepare_recipe_w in E. rewrite Ep in H, E.
    rewrite (parse_alarms false false 0 l L HL) in E.
    rewrite (proj2 (parse_expression_iff U HU false false 0 l _) (ex_intro _ L (conj HL eq_refl))) in H. cbn [bind] in H.
    unfold wbind at 1 in E. cbn [fst snd] in E. destruct (compile 0 L) as [lft next]. cbn [bind] in H.
    rewrite (parse_alarms false false next q R HR) in E.
    rewrite (proj2 (parse_expression_iff U HU false false next q _) (ex_intro _ R (conj HR eq_refl))) in H. cbn [bind] in H.
    unfold wbind at 1 in E. cbn [fst snd] in E. destruct (compile next R) as [rght next2].
    apply bind_Ok in H as [? [H1 H]]. unfold wbind at 1 in E. cbn [wret fst snd] in E. rewrite H1 in E.
    apply bind_Ok in H as [? [H2 H]]. unfold wbind at 1 in E. cbn [wret fst snd] in E. rewrite H2 in E.
    apply bind_Ok in H as [? [H3 H]]. unfold wbind at 1 in E. cbn [wret fst snd] in E. rewrite H3 in E.
    apply bind_Ok in H as [[[[lc rc] li] ri] [H4 H]]. unfold wbind at 1 in E. cbn [wret fst snd] in E. rewrite H4 in E.
    apply bind_Ok in H as [d3 [H5 H]]. unfold wbind at 1 in E. rewrite mark_w_snd, H5 in E. cbn [wret fst snd app] in E. rewrite app_nil_r in E.
    apply (f_equal fst) in E. cbn [fst] in E. rewrite <- E, (mark_alarms _ _ _ H5), !flat_map_app. reflexivity.
  Qed.

  Lemma axes_alarms axes : existsb (fun axis => negb (str_eqb axis star) && negb (check_axis_name U false axis)) axes = false ->
    fst (check_axes_w U K axes) = flat_map (discouraged K) (filter (fun a => negb (str_eqb a star)) axes).
  Proof.
    induction axes as [|a axes IH]; intros H; [reflexivity|]. cbn [existsb] in H. apply orb_false_iff in H as [H1 H2].
    cbn [check_axes_w filter]. destruct (str_eqb a star); cbn [negb andb] in *.
    - unfold wbind. cbn [wret fst snd app]. auto.
    - apply negb_false_iff in H1. unfold wbind. cbn [fst snd]. rewrite check_w_snd, check_w_fst, H1. cbn [negb raise_if fst flat_map]. rewrite IH by exact H2. reflexivity.
  Qed.
  Lemma filter_all_id {X} (f : X -> bool) l : (forall a, In a l -> f a = true) -> filter f l = l.
  Proof. induction l as [|a l IH]; intros H; [reflexivity|]. cbn [filter]. rewrite (H a) by (left; auto). f_equal. apply IH. intros; apply H; right; auto. Qed.
  Lemma star_not_proper : ~ proper star.
  Proof. intros [H _]. unfold isidentifier, star in H. cbn in H. rewrite (uo_idstart U HU) in H by reflexivity. discriminate. Qed.
  Lemma analyze_alarms p before after : pack_pattern U p before after ->
    analyze_pattern_w U K p = (flat_map (discouraged K) (before ++ after), Ok (length before, length after, length before + length after)).
  Proof.
    intros Hp. pose proof (analyze_ok U p before after HU Hp) as H. pose proof (analyze_w_snd p) as Hs. rewrite H in Hs.
    destruct (analyze_pattern_w U K p) as [log res] eqn:E. cbn [snd] in Hs. subst res. f_equal.
    unfold analyze_pattern in H. unfold analyze_pattern_w in E. cbv zeta in H, E. apply bind_Ok in H as [? [H1 H]]. apply bind_Ok in H as [? [H2 H]]. apply bind_Ok in H as [? [H3 H]].
    unfold wbind at 1 in E. cbn [wret fst snd] in E. rewrite H1 in E. unfold wbind at 1 in E. cbn [wret fst snd] in E. rewrite H2 in E.
    unfold wbind at 1 in E. rewrite axes_w_snd, H3 in E. cbn [wret fst snd app] in E. rewrite app_nil_r in E.
    apply (f_equal fst) in E. cbn [fst] in E. rewrite <- E. apply raise_if_Ok in H3. rewrite (axes_alarms _ H3).
    destruct Hp as [Hw [_ Hf]]. rewrite (words_sound U _ _ Hw). f_equal. rewrite filter_app. cbn [app filter]. change (lit "*") with star. rewrite str_eqb_refl. cbn [negb].
    rewrite <- filter_app. rewrite Forall_forall in Hf. apply filter_all_id. intros a Ha. apply negb_true_iff.
    destruct (str_eqb a star) eqn:Es; auto. apply str_eqb_eq in Es; subst. exfalso. exact (star_not_proper (Hf _ Ha)).
  Qed.

  (** ** the cache *)
  Lemma rkey_refl k : rkey_eqb k k = true.
  Proof.
    destruct k as [[[p op] ns] n]. cbn [rkey_eqb]. rewrite str_eqb_refl, Nat.eqb_refl, andb_true_r. cbn [andb].
    apply andb_true_iff. split; [destruct op; cbn [opkey_eqb]; [apply str_eqb_refl|apply Nat.eqb_refl]|].
    induction ns as [|s ns IH]; [reflexivity|]. cbn [list_eqb]. rewrite str_eqb_refl. exact IH.
  Qed.
  Lemma warned_once o o' m k c rec log c' : 0 < m ->
    cached_prepare_w U K m o k c = ((log, Ok rec), c') -> fst (cached_prepare_w U K m o' k c') = ([], Ok rec).
  Proof.
    intros Hm. destruct k as [[[p op] ns] n]. unfold cached_prepare_w. set (k := (p, op, ns, n)). unfold lru_w.
    destruct (take_key rkey_eqb k c) as [[[k' v] rest]|] eqn:E.
    - intros H. inversion H; subst. cbn [take_key]. destruct (take_key_spec _ _ _ _ _ E) as (_ & H1 & _). cbn [fst] in H1. rewrite H1. reflexivity.
    - destruct (snd (prepare_recipe_w U K o p (op_of_key op) ns n)) as [v|e] eqn:Ec; intros H; inversion H as [[H1 H2]].
      + rewrite H1 in Ec. inversion Ec; subst v. destruct m as [|m]; [lia|]. cbn [firstn take_key]. rewrite rkey_refl. reflexivity.
      + rewrite H1 in Ec. discriminate.
  Qed.
End Warn.
