(** * Patterns for well-known functions of array libraries *)
From Coq Require Import Permutation.
From Verif Require Import Py Tensor ListFacts TensorFacts SpecSem SpecGrammar SpecPattern SpecShape SpecOps SpecEquivalents Parsing Recipe Ops Backends Api StepFacts ParseFacts2 ParseFacts3 FrontFacts FrontFacts2 FrontFacts3 MainFacts ReduceFacts MainFacts3 CallFacts RedFacts Laws ApiFacts ApiFacts2 ApiFacts3 ApiFacts4 ApiFacts6 RelabelLaws PackLaws PackFacts2 PackLaws2.

(** ** the same order: reshape *)
Lemma atoms_labels_counts d e l : forall k, atoms_labels d e k l = atoms_labels d e k (filter counts l).
Proof.
  induction l as [|a l IH]; intros k; [reflexivity|]. cbn [filter]. destruct (counts a) eqn:E.
  - cbn [atoms_labels]. f_equal. apply IH.
  - destruct a as [s|n|]; try discriminate. cbn in E. apply negb_false_iff, Z.eqb_eq in E. subst n. cbn [atoms_labels].
    replace (k + nbig [ANum 1]) with k by (cbn; lia). rewrite IH. reflexivity.
Qed.

Section Equivalents.
  Context {A : Type} (r : runtime A) (Hok : runtime_ok r).
  Notation U := (rt_unicode r).
  Notation f := (rt_framework r).
  Implicit Types (x y z : tensor A).
  Let HU : unicode_ok U := ro_unicode r Hok.

  Lemma same_order_data x y p s L R : NoDup (map fst s) -> wf x -> rearrange r (One x) p s = Ok y ->
    reads U p L R -> same_order L R -> dat y = dat x.
  Proof.
    intros Hn Hw H Hr Ho. destruct (rearrange_moves r Hok x p s y Hn Hw H) as [L0 [R0 [e [len [[Hc _] M]]]]].
    destruct (reads_fun U HU p L0 R0 L R (co_reads _ _ _ _ _ _ _ _ _ Hc) Hr) as [-> ->].
    destruct (co_ident _ _ _ _ _ _ _ _ _ Hc) as [N1 [N2 _]].
    assert (E : concat (right_groups e L R) = concat (left_groups e L)).
    { unfold right_groups, left_groups. rewrite (groups_shift _ e (nbig (atoms L)) 0 R N2), !concat_groups, (atoms_labels_counts _ e (atoms R)), (atoms_labels_counts _ e (atoms L)), Ho. reflexivity. }
    assert (Hgl : NoDup (concat (left_groups e L))) by (eapply (call_gl_NoDup U p s x); eauto).
    assert (Hgr := Hgl). rewrite <- E in Hgr.
    assert (Sx : shp x = gshape len (left_groups e L)) by (symmetry; apply (co_fits _ _ _ _ _ _ _ _ _ Hc)).
    destruct M as [Wy [Sy Gy]].
    assert (I : forall l m : list A, map Some l = map Some m -> l = m).
    { induction l as [|a l IH]; intros [|b m] X; cbn in X; try discriminate; auto. inversion X; subst. f_equal; auto. }
    apply I. rewrite (flat_data _ len y (fun _ => 0) Hgr Wy Sy), (flat_data _ len x (fun _ => 0) Hgl Hw Sx), E.
    apply map_ext_in. intros v Hv. apply indices_In in Hv. apply Gy. rewrite E. intros a Ha.
    apply (within_assign label_eqb label_eqb_eq len (fun _ => 0) _ v Hgl Hv). apply in_app_or in Ha. tauto.
  Qed.

  (** ** names on both sides *)
  Lemma names_call w p s names R : reads U p (axes_named names) R -> length names = length s ->
    ident_ok w (axes_named names) R [] -> has_dots R = false ->
    (forall a, In a (concat (right_groups 0 (axes_named names) R)) -> match a with LNum _ _ => False | _ => True end) ->
    left_groups 0 (axes_named names) = map (fun n => [LName n]) names /\ NoDup names /\
    exists len, map len (map LName names) = s /\ call_ok U w p [] s (axes_named names) R 0 len.
  Proof.
    intros Hr Hl Hi Hd Hlab.
    assert (D : has_dots (axes_named names) = false) by (unfold has_dots; rewrite atoms_names; apply names_no; auto).
    assert (EL : left_groups 0 (axes_named names) = map (fun n => [LName n]) names) by (apply groups_names; congruence).
    assert (Hn : NoDup names) by (rewrite <- (keys_names names); eapply keys_NoDup_L; eauto).
    split; auto. split; auto.
    destruct (single_call U w p s (axes_named names) R 0 HU Hr Hi) as [len [El Hc]]; auto.
    - congruence.
    - congruence.
    - unfold rank_fits. rewrite D. unfold axes_named. rewrite map_length. auto.
    - rewrite EL, map_length. auto.
    - rewrite EL. apply single_groups.
    - rewrite EL, concat_single. apply NoDup_names; auto.
    - intros a Ha. apply in_app_or in Ha as [Ha|Ha]; [|exact (Hlab a Ha)]. rewrite EL, concat_single in Ha. apply in_map_iff in Ha as [q [<- _]]. exact I.
    - rewrite EL, concat_single in El. eauto.
  Qed.

  Lemma names_no_numbers names : has_numbers (axes_named names) = false.
  Proof. unfold has_numbers. rewrite atoms_names. apply names_no; auto. Qed.
  Lemma names_no_dots names : has_dots (axes_named names) = false.
  Proof. unfold has_dots. rewrite atoms_names. apply names_no; auto. Qed.
  Lemma names_right e names names' : right_groups e (axes_named names) (axes_named names') = map (fun n => [LName n]) names'.
  Proof. unfold right_groups. rewrite names_no_dots. apply groups_names. discriminate. Qed.

  (** ** transpose *)
  Lemma pick_all names : pick names (seq 0 (length names)) = names.
  Proof.
    induction names as [|s names IH]; [reflexivity|]. transitivity (s :: pick names (seq 0 (length names))); [|f_equal; exact IH].
    unfold pick. cbn [length seq]. rewrite map_cons, <- seq_shift, map_map. reflexivity.
  Qed.
  Lemma pick_perm names perm : Permutation perm (seq 0 (length names)) -> Permutation (pick names perm) names.
  Proof.
    intros H. rewrite <- (pick_all names) at 2. unfold pick. exact (Permutation_map _ H).
  Qed.

  Lemma transpose_call x p names perm : wf x -> length names = length (shp x) -> Permutation perm (seq 0 (length names)) ->
    reads U p (axes_named names) (axes_named (pick names perm)) ->
    exists y, rearrange r (One x) p [] = Ok y /\ t_transpose x perm = Ok y.
  Proof.
    intros Hw Hl Hp Hr. pose proof (pick_perm names perm Hp) as Hpn.
    destruct (names_call Rearranging p (shp x) names (axes_named (pick names perm)) Hr Hl) as [EL [Hn [len [Em Hc]]]].
    { split; [apply names_no_numbers|]. split; [apply names_no_numbers|]. rewrite !keys_names. split; intros a Ha; [eapply Permutation_in; [apply Permutation_sym|]; eauto|eapply Permutation_in; eauto]. }
    { apply names_no_dots. }
    { rewrite names_right, concat_single. intros a Ha. apply in_map_iff in Ha as [q [<- _]]. exact I. }
    assert (Rx : repr x (map LName names) len (fun ix => getr x (map ix (map LName names)))) by (split; [auto|split; auto]).
    destruct (transpose_repr label_eqb label_eqb_eq x (map LName names) (map LName (pick names perm)) len (fun ix => getr x (map ix (map LName names))) perm (NoDup_names _ Hn)) as [y [Ey Ry]].
    - apply Permutation_map, Permutation_sym, Hpn.
    - unfold pick. rewrite map_map. clear -Hp Hn. assert (F : forall k, In k perm -> k < length names).
      { intros k Hk. eapply Permutation_in in Hk; [|exact Hp]. apply in_seq in Hk. lia. }
      clear Hp. induction perm as [|k perm IH]; constructor.
      + apply (index_of_nth label_eqb label_eqb_eq); [apply NoDup_names; auto|]. apply map_nth_error. apply nth_error_nth'. apply F. left; auto.
      + apply IH. intros q Hq. apply F. right; auto.
    - exact Rx.
    - exists y. split; [|exact Ey]. apply (rearrange_iff r Hok x p [] (axes_named names) (axes_named (pick names perm)) 0 len y (NoDup_nil _) Hw); [intros s []|exact Hc|].
      rewrite EL, names_right. destruct Ry as [Wy [Sy Gy]]. split; auto.
      split; [rewrite gshape_single by apply single_groups; rewrite concat_single; auto|].
      intros ix Hi. rewrite !gindex_single, !concat_single by apply single_groups. rewrite !concat_single in Hi.
      assert (X : getr y (map ix (map LName (pick names perm))) = getr x (map ix (map LName names))).
      { apply Gy. intros a Ha. apply Hi, in_or_app; auto. }
      unfold getr in X. apply of_option_inj in X. exact X.
  Qed.

  (** ** reductions *)
  Lemma merge_assign names : forall mask (ix : label -> nat) v, NoDup names -> length mask = length names ->
    length v = length (select true mask names) ->
    merge mask (map ix (map LName (select false mask names))) v = map (assign label_eqb ix (map LName (select true mask names)) v) (map LName names).
  Proof.
    induction names as [|s names IH]; intros [|b mask] ix v Hn Hl Hv; try discriminate; [reflexivity|]. inversion Hn; subst.
    assert (S : forall b q, In q (select b mask names) -> In q names).
    { clear. induction names as [|n names IH] in mask |- *; destruct mask as [|c mask]; cbn; intros b q; try tauto. destruct (Bool.eqb c b); cbn; intuition eauto. }
    destruct b; cbn [select Bool.eqb merge map] in *.
    - destruct v as [|i v]; [discriminate|]. f_equal.
      + unfold assign. cbn [index_of]. assert (E : label_eqb (LName s) (LName s) = true) by (apply label_eqb_eq; auto). rewrite E. reflexivity.
      + rewrite IH by (auto; cbn in *; lia). apply map_ext_in. intros a Ha. unfold assign. cbn [index_of map].
        destruct (label_eqb a (LName s)) eqn:E.
        { apply label_eqb_eq in E. subst a. apply in_map_iff in Ha as [q [E Hq]]. injection E as ->. contradiction. }
        destruct (index_of label_eqb a (map LName (select true mask names))); reflexivity.
    - f_equal.
      + symmetry. apply (assign_out label_eqb label_eqb_eq). intros X. apply in_map_iff in X as [q [E Hq]]. injection E as ->. apply S in Hq. contradiction.
      + apply IH; auto.
  Qed.

  Lemma select_map {X Y} (g : X -> Y) b mask l : select b mask (map g l) = map g (select b mask l).
  Proof. revert l. induction mask as [|m mask IH]; intros [|a l]; try reflexivity. cbn. destruct (Bool.eqb m b); cbn; [f_equal|]; apply IH. Qed.
  Lemma select_In {X} b mask (l : list X) a : In a (select b mask l) -> In a l.
  Proof. revert l. induction mask as [|m mask IH]; intros [|c l]; cbn; try tauto. destruct (Bool.eqb m b); cbn; intuition. Qed.
  Lemma select_NoDup {X} b mask (l : list X) : NoDup l -> NoDup (select b mask l).
  Proof.
    revert l. induction mask as [|m mask IH]; intros [|c l] H; cbn; try constructor. inversion H; subst.
    destruct (Bool.eqb m b); [constructor|]; auto. intros X'. apply select_In in X'. contradiction.
  Qed.
  Lemma select_missing mask : forall names, NoDup names -> length mask = length names ->
    filter (fun a => negb (existsb (label_eqb a) (map LName (select false mask names)))) (map LName names) = map LName (select true mask names).
  Proof.
    assert (G : forall names mask (keep : list label), NoDup names -> length mask = length names ->
      (forall q, In q names -> In (LName q) keep <-> In q (select false mask names)) ->
      filter (fun a => negb (existsb (label_eqb a) keep)) (map LName names) = map LName (select true mask names)).
    { induction names as [|s names IH]; intros [|b m] keep Hn Hl Hk; try discriminate; [reflexivity|]. inversion Hn; subst.
      assert (T : forall q, In q names -> In (LName q) keep <-> In q (select false m names)).
      { intros q Hq. rewrite (Hk q (or_intror Hq)). destruct b; cbn; [tauto|]. split; [|auto]. intros [->|X]; [contradiction|auto]. }
      cbn [map filter]. destruct b; cbn [select Bool.eqb map].
      - assert (X : existsb (label_eqb (LName s)) keep = false).
        { apply not_true_is_false. intros E. apply existsb_exists in E as [a [Ha E]]. apply label_eqb_eq in E. subst a.
          apply (Hk s (or_introl eq_refl)) in Ha. cbn in Ha. apply select_In in Ha. contradiction. }
        rewrite X. cbn [negb]. f_equal. apply IH; auto.
      - assert (X : existsb (label_eqb (LName s)) keep = true).
        { apply existsb_exists. exists (LName s). split; [|apply label_eqb_eq; auto]. apply (Hk s (or_introl eq_refl)). left; auto. }
        rewrite X. cbn [negb]. apply IH; auto. }
    intros names Hn Hl. apply G; auto. intros q _. rewrite in_map_iff. split; [intros [a [E X]]; injection E as ->; auto|intros X; exists q; auto].
  Qed.

  Lemma marked_mask mask : map (fun k => nat_mem k (marked mask)) (seq 0 (length mask)) = mask.
  Proof.
    transitivity (map (fun k => nth k mask false) (seq 0 (length mask))).
    - apply map_ext_in. intros k Hk. unfold marked. destruct (nth k mask false) eqn:E.
      + apply existsb_exists. exists k. split; [apply filter_In; auto|apply Nat.eqb_refl].
      + apply not_true_is_false. intros X. apply existsb_exists in X as [j [Hj X]]. apply Nat.eqb_eq in X. subst j. apply filter_In in Hj as [_ Hj]. congruence.
    - clear. induction mask as [|b mask IH]; [reflexivity|]. cbn [length seq]. rewrite map_cons, <- seq_shift, map_map. f_equal. exact IH.
  Qed.

  Lemma nodupb_NoDup l : NoDup l -> nat_nodupb l = true.
  Proof.
    induction 1 as [|a l Ha _ IH]; [reflexivity|]. cbn. rewrite IH, andb_true_r. apply negb_true_iff, not_true_is_false. intros X.
    apply existsb_exists in X as [b [Hb X]]. apply Nat.eqb_eq in X. subst. contradiction.
  Qed.

  Lemma reduce_call x y p op names mask : wf x -> length names = length (shp x) -> length mask = length names ->
    builtin op -> reduction_fits r op -> float_if_mean r op -> has_reduction f op = true -> In true mask ->
    reads U p (axes_named names) (axes_named (select false mask names)) ->
    (reduce r (One x) p (RStr op) [] = Ok y <-> t_reduce (rt_red r op) x (marked mask) = Ok y).
  Proof.
    intros Hw Hl Hm Hb Hfit Hfl Hh Hin Hr.
    destruct (names_call Reducing p (shp x) names (axes_named (select false mask names)) Hr Hl) as [EL [Hn [len [Em Hc]]]].
    { split; [apply names_no_numbers|]. rewrite !keys_names. intros a Ha. eapply select_In; eauto. }
    { apply names_no_dots. }
    { rewrite names_right, concat_single. intros a Ha. apply in_map_iff in Ha as [q [<- _]]. exact I. }
    apply builtin_mem in Hb.
    rewrite (reduce_iff r Hok x p op [] (axes_named names) (axes_named (select false mask names)) 0 len y (NoDup_nil _) Hw) by (auto; intros s []).
    rewrite EL, names_right.
    assert (Ms : missing (map (fun n => [LName n]) names) (map (fun n => [LName n]) (select false mask names)) = map LName (select true mask names)).
    { unfold missing. rewrite !concat_single. apply select_missing; auto. }
    assert (Mne : map LName (select true mask names) <> []).
    { clear -Hin Hm. revert names Hm. induction mask as [|b mask IH]; intros [|s names] Hm; try discriminate; [destruct Hin|].
      destruct b; cbn; [discriminate|]. destruct Hin as [Hin|Hin]; [discriminate|]. apply IH; auto. }
    rewrite Ms.
    assert (Tr : t_reduce (rt_red r op) x (marked mask) = tabulate (map len (map LName (select false mask names)))
       (fun idx => let* xs := mapM (fun v => getr x (merge mask idx v)) (indices (map len (map LName (select true mask names)))) in rt_red r op xs)).
    { unfold t_reduce. rewrite <- Hl, <- Hm, marked_mask.
      assert (B : forallb (fun a => a <? length mask) (marked mask) && nat_nodupb (marked mask) = true).
      { apply andb_true_iff. split; [|apply nodupb_NoDup, NoDup_filter, seq_NoDup]. apply forallb_forall. intros k Hk. apply filter_In in Hk as [Hk _]. apply in_seq in Hk. apply Nat.ltb_lt. lia. }
      rewrite B, <- Em, !select_map. reflexivity. }
    rewrite Tr.
    assert (V : forall ix, within len ix (map LName (select false mask names)) ->
      (exists vs, elements x len (map (fun n => [LName n]) names) (map LName (select true mask names)) ix = map Some vs /\
        mapM (fun v => getr x (merge mask (map ix (map LName (select false mask names))) v)) (indices (map len (map LName (select true mask names)))) = Ok vs)).
    { intros ix Hi. destruct (mapM_exists (fun v => getr x (merge mask (map ix (map LName (select false mask names))) v)) (indices (map len (map LName (select true mask names))))) as [vs Hvs].
      - intros v Hv. apply indices_In in Hv. pose proof (inb_length _ _ Hv) as Lv. rewrite !map_length in Lv. rewrite merge_assign by auto. apply getr_wf; auto.
        rewrite <- Em. apply inb_within. intros a Ha.
        destruct (in_dec label_eq_dec a (map LName (select true mask names))) as [Ht|Ht].
        + apply (within_assign label_eqb label_eqb_eq len ix _ v); auto. apply NoDup_names, select_NoDup; auto.
        + rewrite (assign_out label_eqb label_eqb_eq) by auto. apply Hi.
          rewrite <- select_missing in Ht by auto. rewrite filter_In in Ht.
          destruct (existsb (label_eqb a) (map LName (select false mask names))) eqn:E.
          * apply existsb_exists in E as [b [Hb' E]]. apply label_eqb_eq in E. subst b. exact Hb'.
          * exfalso. apply Ht. split; auto.
      - exists vs. split; auto. apply elements_mapM. rewrite <- Hvs. apply mapM_ext_in. intros v Hv. apply indices_In in Hv. pose proof (inb_length _ _ Hv) as Lv. rewrite !map_length in Lv.
        rewrite merge_assign by auto. rewrite gindex_single, concat_single by apply single_groups. reflexivity. }
    assert (K : NoDup (map LName (select false mask names))) by (apply NoDup_names, select_NoDup; auto).
    split.
    - intros [[X _]|[_ [_ [Wy [Sy Gy]]]]]; [contradiction|]. rewrite gshape_single, concat_single in Sy by apply single_groups.
      apply tabulate_unique; auto. intros idx Hi.
      pose proof (inb_length _ _ Hi) as Li. rewrite map_length in Li.
      set (ix := assign label_eqb (fun _ => 0) (map LName (select false mask names)) idx).
      assert (Ei : map ix (map LName (select false mask names)) = idx) by (apply (assign_map label_eqb label_eqb_eq); auto).
      assert (Wi : within len ix (map LName (select false mask names))) by (apply (within_assign label_eqb label_eqb_eq); auto).
      rewrite concat_single in Gy. destruct (Gy ix Wi) as [vs [v [E1 [E2 E3]]]]. destruct (V ix Wi) as [vs' [E4 E5]]. rewrite Ms, E4 in E1.
      assert (vs' = vs).
      { clear -E1. revert vs E1. induction vs' as [|a l IH]; intros [|b m] X; cbn in X; try discriminate; auto. inversion X; subst. f_equal; auto. }
      subst vs'. rewrite Ei in E5. rewrite E5. cbn [bind]. rewrite E2. apply getr_get.
      rewrite gindex_single, concat_single, Ei in E3 by apply single_groups. exact E3.
    - intros H. pose proof H as HT. apply tabulate_Ok in H as [Wy [Sy Gy]]. right. split; [exact Mne|]. split; [exact Hh|].
      split; [exact Wy|]. split; [rewrite gshape_single, concat_single by apply single_groups; exact Sy|].
      rewrite concat_single. intros ix Wi. destruct (V ix Wi) as [vs [E4 E5]]. rewrite Ms.
      assert (Hi : inb (map len (map LName (select false mask names))) (map ix (map LName (select false mask names))) = true) by (apply inb_within; auto).
      destruct (tabulate_Ok_inv _ _ _ _ HT Hi) as [v Hv]. rewrite E5 in Hv. cbn [bind] in Hv. exists vs, v. split; [exact E4|]. split; [exact Hv|].
      specialize (Gy _ Hi). rewrite E5 in Gy. cbn [bind] in Gy. rewrite Hv in Gy. apply getr_get in Gy.
      rewrite gindex_single, concat_single by apply single_groups. exact Gy.
  Qed.

  (** ** concatenate *)
  Lemma list_sum_same d n : forall (ts : list (tensor A)) k, (forall t, In t ts -> nth n (shp t) 0 = d) -> k <= length ts ->
    list_sum (map (fun t => nth n (shp t) 0) (firstn k ts)) = k * d.
  Proof.
    induction ts as [|t ts IH]; intros [|k] H Hk; cbn [firstn map]; try reflexivity; [cbn in Hk; lia|].
    change (nth n (shp t) 0 + list_sum (map (fun t => nth n (shp t) 0) (firstn k ts)) = S k * d).
    rewrite IH; [|intros; apply H; right; auto|cbn in Hk; lia]. rewrite (H t) by (left; auto). lia.
  Qed.

  Lemma concat_call ts p b h before after sb d sa : ts <> [] -> (forall t, In t ts -> wf t /\ shp t = sb ++ d :: sa) ->
    length before = length sb -> length after = length sa ->
    reads U p (axes_named (b :: before ++ h :: after)) (axes_named before ++ [Group [AName b; AName h]] ++ axes_named after) ->
    exists y, rearrange r (Many ts) p [] = Ok y /\ t_concat ts (length before) = Ok y.
  Proof.
    intros Hne Hts Hb Ha Hr. destruct (stack_Ok ts _ Hne Hts) as [t [Et [Wt [St Gt]]]].
    set (names := b :: before ++ h :: after) in *. set (R := axes_named before ++ [Group [AName b; AName h]] ++ axes_named after) in *.
    assert (AR : atoms R = map AName before ++ [AName b; AName h] ++ map AName after) by (unfold R; rewrite !atoms_app, !atoms_names; reflexivity).
    assert (NR : has_numbers R = false) by (unfold has_numbers; rewrite AR, !existsb_app, !names_no by auto; reflexivity).
    assert (DR : has_dots R = false) by (unfold has_dots; rewrite AR, !existsb_app, !names_no by auto; reflexivity).
    assert (KR : keys R = before ++ [b; h] ++ after).
    { unfold R. rewrite !keys_app, !keys_names. reflexivity. }
    set (gr := map (fun n => [LName n]) before ++ [[LName b; LName h]] ++ map (fun n => [LName n]) after).
    assert (ER : right_groups 0 (axes_named names) R = gr).
    { unfold right_groups, R, gr. rewrite names_no_dots, !groups_app, !groups_names by discriminate. reflexivity. }
    assert (CR : concat gr = map LName (before ++ [b; h] ++ after)).
    { unfold gr. rewrite !concat_app, !concat_single, !map_app. reflexivity. }
    destruct (names_call Rearranging p (shp t) names R Hr) as [EL [Hn [len [Em Hc]]]].
    { rewrite St. unfold names. cbn [length]. rewrite !app_length. cbn [length]. lia. }
    { split; [apply names_no_numbers|]. split; [exact NR|]. rewrite keys_names, KR. unfold names.
      split; intros s; rewrite ?in_app_iff; cbn; rewrite ?in_app_iff; cbn; tauto. }
    { exact DR. }
    { rewrite ER, CR. intros a X. apply in_map_iff in X as [q [<- _]]. exact I. }
    destruct (proj2 (rearrange_accepts r Hok t p [] (NoDup_nil _) Wt)) as [y Ey].
    { split; [intros s []|]. eauto. }
    exists y. split; [unfold rearrange, api_rearrange in *; rewrite (many_stack r _ ts t) by exact Et; exact Ey|].
    apply (rearrange_iff r Hok t p [] (axes_named names) R 0 len y (NoDup_nil _) Wt ltac:(intros s []) Hc) in Ey.
    rewrite EL, ER in Ey. destruct Ey as [Wy [Sy Gy]].
    assert (Em' : len (LName b) = length ts /\ map len (map LName before) = sb /\ len (LName h) = d /\ map len (map LName after) = sa).
    { rewrite St in Em. unfold names in Em. cbn [map] in Em. injection Em as E1 Em. rewrite !map_app in Em.
      apply app_same_len in Em as [E2 Em]; [|rewrite !map_length; auto]. cbn [map] in Em. injection Em as E3 E4. auto. }
    destruct Em' as [E1 [E2 [E3 E4]]].
    assert (Sy' : shp y = sb ++ (length ts * d) :: sa).
    { rewrite Sy. unfold gshape, gr. rewrite !map_app. cbn [map]. rewrite !map_map. cbn [map app].
      assert (S1 : forall l, map (fun q => prodn [len (LName q)]) l = map len (map LName l)) by (intros l; rewrite map_map; apply map_ext; intros q; cbn; lia).
      rewrite !S1, E2, E4. f_equal. f_equal. cbn. rewrite E1, E3. lia. }
    destruct ts as [|t0 ts]; [congruence|]. set (tl := t0 :: ts) in *.
    assert (S0 : shp t0 = sb ++ d :: sa) by (apply Hts; left; auto).
    assert (Hnth : forall u, In u tl -> nth (length sb) (shp u) 0 = d).
    { intros u Hu. destruct (Hts u Hu) as [_ ->]. apply nth_mid; auto. }
    unfold t_concat. fold tl. unfold tl at 1. rewrite S0, Hb.
    replace (length sb <? length (sb ++ d :: sa)) with true by (symmetry; apply Nat.ltb_lt; rewrite app_length; cbn; lia).
    assert (FA : forallb (fun t => shape_eqb (replace_nth (length sb) 0 (shp t)) (replace_nth (length sb) 0 (sb ++ d :: sa))) tl = true).
    { apply forallb_forall. intros u Hu. destruct (Hts u Hu) as [_ ->]. apply shape_eqb_eq. reflexivity. }
    rewrite FA. cbn [andb]. rewrite replace_nth_mid by auto.
    pose proof (list_sum_same d (length sb) tl (length tl) Hnth (le_n _)) as TOT. rewrite firstn_all in TOT. rewrite TOT.
    apply tabulate_unique; auto. intros idx Hi. change (sb ++ length tl * d :: sa) with (sb ++ [length tl * d] ++ sa) in Hi.
    apply inb_split3 in Hi as [ib [im [ia [-> [H1 [H2 H3]]]]]].
    destruct im as [|i [|? ?]]; try discriminate; [|cbn in H2; rewrite andb_false_r in H2; discriminate].
    apply inb_one in H2. cbn [app]. pose proof (inb_length _ _ H1) as L1. pose proof (inb_length _ _ H3) as L3.
    assert (Hd : d <> 0) by (intros ->; lia).
    set (k := i / d). set (j := i mod d). assert (Eij : i = k * d + j) by (unfold k, j; rewrite (Nat.div_mod i d) at 1 by auto; lia).
    assert (Hj : j < d) by (apply Nat.mod_upper_bound; auto).
    assert (Hk : k < length tl) by (apply Nat.div_lt_upper_bound; lia).
    destruct (nth_error tl k) as [u|] eqn:Eu; [|apply nth_error_None in Eu; lia].
    rewrite <- L1.
    assert (SK : forall q, q <= length tl -> list_sum (map (fun t => nth (length ib) (shp t) 0) (firstn q tl)) = q * d).
    { intros q Hq. rewrite L1. apply list_sum_same; auto. }
    rewrite (concat_get_spec tl ib ia i k u Eu); rewrite ?SK by lia; try lia.
    replace (i - k * d) with j by lia. unfold getr. f_equal. rewrite <- (Gt k (ib ++ j :: ia) u Eu).
    set (ix := assign label_eqb (fun _ => 0) (map LName names) (k :: ib ++ j :: ia)).
    assert (Lv : length (k :: ib ++ j :: ia) = length (map LName names)).
    { unfold names. rewrite map_length. cbn [length]. rewrite !app_length. cbn [length]. lia. }
    assert (Ei : map ix (map LName names) = k :: ib ++ j :: ia) by (apply (assign_map label_eqb label_eqb_eq); auto; apply NoDup_names; auto).
    assert (Wi : within len ix (map LName names)).
    { apply inb_within. rewrite Ei, Em, St. cbn [inb]. rewrite (proj2 (Nat.ltb_lt _ _) Hk). cbn [andb].
      rewrite inb_app by auto. rewrite H1. cbn [andb inb]. rewrite (proj2 (Nat.ltb_lt _ _) Hj), H3. reflexivity. }
    assert (Ei' : ix (LName b) = k /\ map ix (map LName before) = ib /\ ix (LName h) = j /\ map ix (map LName after) = ia).
    { unfold names in Ei. cbn [map] in Ei. injection Ei as F1 Ei. rewrite !map_app in Ei.
      apply app_same_len in Ei as [F2 Ei]; [|rewrite !map_length; lia]. cbn [map] in Ei. injection Ei as F3 F4. auto. }
    destruct Ei' as [F1 [F2 [F3 F4]]].
    assert (Gi : gindex len ix gr = ib ++ i :: ia).
    { unfold gindex, gr. rewrite !map_app. cbn [map]. rewrite !map_map. cbn [map app].
      assert (S1 : forall l, map (fun q => ravel [len (LName q)] [ix (LName q)]) l = map ix (map LName l)) by (intros l; rewrite map_map; apply map_ext; intros q; cbn; lia).
      rewrite !S1, F2, F4. f_equal. f_equal. cbn. rewrite F1, F3, E3. lia. }
    rewrite <- Gi. rewrite Gy.
    - rewrite gindex_single, concat_single, Ei by apply single_groups. reflexivity.
    - intros a X. apply Wi. apply in_app_or in X as [X|X]; [rewrite concat_single in X; auto|]. rewrite CR in X. apply in_map_iff in X as [q [<- X]]. apply in_map.
      unfold names. rewrite !in_app_iff in X. cbn in *. rewrite in_app_iff. cbn. tauto.
  Qed.

  (** ** new axes next to every axis *)
  Lemma new_call x p names news reps R : wf x -> length names = length (shp x) -> length reps = length news ->
    reads U p (axes_named names) R -> has_dots R = false -> has_numbers R = false -> Permutation (keys R) (news ++ names) -> ~ In ell_name news ->
    NoDup (news ++ names) /\ left_groups 0 (axes_named names) = map (fun n => [LName n]) names /\
    exists len, map len (map LName names) = shp x /\ map len (map LName news) = reps /\
      call_ok U Repeating p (combine news (map Z.of_nat reps)) (shp x) (axes_named names) R 0 len.
  Proof.
    intros Hw Hl Hln Hr DR NR KR Hell.
    assert (Nk : NoDup (news ++ names)) by (eapply Permutation_NoDup; [exact KR|eapply keys_NoDup_R; eauto]).
    assert (D : has_dots (axes_named names) = false) by apply names_no_dots.
    assert (EL : left_groups 0 (axes_named names) = map (fun n => [LName n]) names) by (apply groups_names; congruence).
    split; auto. split; auto.
    set (len := assign label_eqb (assign label_eqb (fun _ => 0) (map LName names) (shp x)) (map LName news) reps).
    apply NoDup_app_iff in Nk as [N1 [N2 N3]].
    assert (E1 : map len (map LName names) = shp x).
    { transitivity (map (assign label_eqb (fun _ => 0) (map LName names) (shp x)) (map LName names)).
      - apply map_ext_in. intros a Ha. apply (assign_out label_eqb label_eqb_eq). intros X. apply in_map_iff in Ha as [q [<- Hq]]. apply in_map_iff in X as [q' [E X]].
        injection E as ->. exact (N3 _ X Hq).
      - apply (assign_map label_eqb label_eqb_eq); [apply NoDup_names; auto|]. rewrite map_length. auto. }
    assert (E2 : map len (map LName news) = reps) by (apply (assign_map label_eqb label_eqb_eq); [apply NoDup_names; auto|rewrite map_length; auto]).
    clearbody len. exists len. split; [exact E1|]. split; [exact E2|].
    assert (Es : map fst (combine news (map Z.of_nat reps)) = news) by (apply combine_fst; rewrite map_length; auto).
    constructor; rewrite ?Es.
    - exact Hr.
    - split; [apply names_no_numbers|]. rewrite keys_names. split; intros s Hs.
      + eapply Permutation_in; [apply Permutation_sym; exact KR|]. apply in_or_app; auto.
      + eapply Permutation_in in Hs; [|exact KR]. apply in_or_app. apply in_app_or in Hs. tauto.
    - congruence.
    - congruence.
    - unfold rank_fits. rewrite D. unfold axes_named. rewrite map_length. auto.
    - intros s Hs. split; [intros ->; auto|]. apply in_or_app. right. eapply Permutation_in; [apply Permutation_sym; exact KR|]. apply in_or_app; auto.
    - intros g Hg. rewrite EL in Hg. apply in_map_iff in Hg as [q [<- _]]. cbn. destruct (negb _); cbn; lia.
    - split; [rewrite EL, gshape_single, concat_single by apply single_groups; auto|]. split.
      + intros k n X. exfalso. apply in_app_or in X as [X|X]; [rewrite EL, concat_single in X; apply in_map_iff in X as [q [E _]]; discriminate|].
        unfold right_groups in X. rewrite concat_groups in X. unfold has_numbers in NR. revert X NR. generalize (nbig (atoms (axes_named names))).
        induction (atoms R) as [|a l IH]; intros m X NR; [destruct X|]. cbn [existsb] in NR. apply orb_false_iff in NR as [NR1 NR2]. cbn [atoms_labels] in X. apply in_app_or in X as [X|X]; [|eapply IH; eauto].
        rewrite D in X. unfold atom_labels in X. destruct a as [s|z|]; cbn in X.
        * destruct X as [X|[]]. discriminate.
        * destruct (z =? 1)%Z eqn:Ez; [destruct X|]. cbn in NR1. rewrite Ez in NR1. discriminate.
        * destruct X.
      + intros s z X. clear -X E2 Hln. revert reps E2 Hln X. induction news as [|q news IH]; intros [|n reps] E2 Hln X; try discriminate; [destruct X|].
        cbn [map] in E2. injection E2 as F1 F2. cbn in X. destruct X as [X|X]; [inversion X; subst; reflexivity|]. eapply IH; eauto.
    - intros g Hg. rewrite EL in Hg. apply in_map_iff in Hg as [q [<- _]]. cbn. destruct (negb _); cbn; [discriminate|congruence].
    - reflexivity.
  Qed.

  Lemma pairs_groups d e k ls rs : d = false -> groups d e k (in_pairs ls rs) = map2 (fun l q => [LName l; LName q]) ls rs.
  Proof.
    intros ->. revert k rs. induction ls as [|l ls IH]; intros k [|q rs]; try reflexivity. unfold in_pairs in *. cbn [map2 groups item_groups app]. f_equal. apply IH.
  Qed.
  Lemma pairs_atoms ls rs : length ls = length rs -> (forall g : atom -> bool, (forall s, g (AName s) = false) -> existsb g (atoms (in_pairs ls rs)) = false) /\
    Permutation (keys (in_pairs ls rs)) (ls ++ rs).
  Proof.
    revert rs. induction ls as [|l ls IH]; intros [|q rs] H; try discriminate; [split; [reflexivity|constructor]|].
    destruct (IH rs ltac:(cbn in H; lia)) as [H1 H2]. split.
    - intros g Hg. unfold in_pairs, atoms in *. cbn. rewrite !Hg. cbn. apply H1. auto.
    - change (keys (in_pairs (l :: ls) (q :: rs))) with (l :: q :: keys (in_pairs ls rs)). rewrite H2. cbn. constructor.
      rewrite Permutation_middle. apply Permutation_refl.
  Qed.
  Lemma nonneg_ok p news reps : repeat_sizes_ok r p (combine news (map Z.of_nat reps)).
  Proof. intros _ L R s _ H. apply in_combine_r in H. apply in_map_iff in H as [n [E _]]. lia. Qed.

  Lemma pairs_concat ls rs : length ls = length rs -> forall a, In a (concat (map2 (fun l q => [LName l; LName q]) ls rs)) -> In a (map LName (ls ++ rs)).
  Proof.
    revert rs. induction ls as [|l ls IH]; intros [|q rs] H a Ha; try discriminate; [destruct Ha|]. cbn in Ha. rewrite map_app, in_app_iff. cbn.
    destruct Ha as [Ha|[Ha|Ha]]; auto. apply IH in Ha; [|cbn in H; lia]. rewrite map_app, in_app_iff in Ha. tauto.
  Qed.

  Lemma tile_call x p names news reps : wf x -> length names = length (shp x) -> length reps = length names -> length news = length names ->
    reads U p (axes_named names) (in_pairs news names) -> ~ In ell_name news -> no_reserved (combine news (map Z.of_nat reps)) ->
    exists y, repeat_ r (One x) p (combine news (map Z.of_nat reps)) = Ok y /\ t_tile x (map Z.of_nat reps) = Ok y.
  Proof.
    intros Hw Hl Hlr Hln Hr Hell Hres. destruct (pairs_atoms news names Hln) as [PA PK].
    destruct (new_call x p names news reps (in_pairs news names) Hw Hl) as [Nk [EL [len [E1 [E2 Hc]]]]]; auto; [lia|apply PA; auto|apply PA; auto|].
    assert (ER : right_groups 0 (axes_named names) (in_pairs news names) = map2 (fun l q => [LName l; LName q]) news names).
    { unfold right_groups. rewrite names_no_dots. apply pairs_groups. reflexivity. }
    assert (Hns : NoDup (map fst (combine news (map Z.of_nat reps)))).
    { rewrite combine_fst by (rewrite map_length; lia). apply NoDup_app_iff in Nk. tauto. }
    destruct (proj2 (repeat_accepts r Hok x p _ Hns Hw (nonneg_ok p news reps))) as [y Ey]; [split; eauto|].
    exists y. split; [exact Ey|].
    apply (repeat_iff r Hok x p _ (axes_named names) (in_pairs news names) 0 len y Hns Hw Hres Hc) in Ey. rewrite EL, ER in Ey.
    destruct Ey as [Wy [Sy Gy]]. unfold t_tile. rewrite map_length, Hlr, Hl, Nat.eqb_refl, all_nonneg_of_nat, to_nats_of_nat. cbn [andb].
    assert (Sy' : shp y = map2 Nat.mul (shp x) reps).
    { rewrite Sy, <- E1, <- E2. unfold gshape. clear -Hln. revert names Hln. induction news as [|q news IH]; intros [|n names] H; try discriminate; [reflexivity|]. cbn. f_equal; [lia|]. apply IH. cbn in H; lia. }
    apply tabulate_unique; auto. intros idx Hi.
    assert (Li : length idx = length names).
    { apply inb_length in Hi. rewrite Hi, <- Sy', Sy. unfold gshape. rewrite map_length. clear -Hln. revert names Hln. induction news as [|q news IH]; intros [|n names] H; try discriminate; auto. cbn. f_equal. apply IH. cbn in H; lia. }
    set (qs := map2 (fun i d => i / d) idx (shp x)). set (ms := map2 (fun i d => i mod d) idx (shp x)).
    set (ix := assign label_eqb (fun _ => 0) (map LName (news ++ names)) (qs ++ ms)).
    assert (Lq : length qs = length news /\ length ms = length names).
    { unfold qs, ms. assert (M : forall g : nat -> nat -> nat, length (map2 g idx (shp x)) = length names).
      { intros g. clear -Li Hl. revert Li Hl. generalize (shp x) (length names). induction idx as [|i idx IH]; intros s n H1 H2; destruct s as [|d s]; cbn in *; try lia. destruct n; [lia|]. f_equal. apply IH; lia. }
      rewrite !M. lia. }
    assert (Ei : map ix (map LName (news ++ names)) = qs ++ ms).
    { apply (assign_map label_eqb label_eqb_eq); [apply NoDup_names; auto|]. rewrite map_length, !app_length. lia. }
    rewrite !map_app in Ei. apply app_same_len in Ei as [F1 F2]; [|rewrite !map_length; lia].
    clearbody ix. assert (Wi : within len ix (map LName (news ++ names)) /\ gindex len ix (map2 (fun l q => [LName l; LName q]) news names) = idx).
    { unfold qs, ms in F1, F2. clear -Hi F1 F2 E1 E2 Hln Li Hlr. revert names idx reps Hi F1 F2 E1 E2 Hln Li Hlr. generalize (shp x).
      induction news as [|q news IH]; intros s [|n names] [|i idx] [|m reps] Hi F1 F2 E1 E2 Hln Li Hlr; try discriminate; [split; [intros a []|reflexivity]|].
      destruct s as [|d s]; [discriminate|]. cbn [map] in *. cbn [map2] in *. injection F1 as A1 F1. injection F2 as A2 F2. injection E1 as B1 E1. injection E2 as B2 E2.
      apply inb_cons in Hi as [Hi1 Hi2]. destruct (IH s names idx reps) as [W G]; auto.
      assert (Hd : d <> 0) by (intros ->; lia).
      split.
      - intros a Ha. rewrite map_app in Ha. cbn [map] in Ha. destruct Ha as [<-|Ha].
        + rewrite A1, B2. apply Nat.div_lt_upper_bound; auto.
        + apply in_app_or in Ha as [Ha|[<-|Ha]]; [apply W; rewrite map_app; apply in_or_app; auto| |apply W; rewrite map_app; apply in_or_app; auto].
          rewrite A2, B1. apply Nat.mod_upper_bound; auto.
      - unfold gindex in *. cbn [map map2]. f_equal; [|exact G]. cbn. rewrite A1, A2, B1. rewrite (Nat.div_mod i d) at 3 by auto. lia. }
    destruct Wi as [Wi Gi]. unfold getr. f_equal. rewrite <- Gi at 1. rewrite Gy.
    - rewrite gindex_single, concat_single by apply single_groups. rewrite F2. reflexivity.
    - intros a Ha. apply Wi. apply in_app_or in Ha as [Ha|Ha].
      + rewrite concat_single in Ha. rewrite map_app. apply in_or_app; auto.
      + apply pairs_concat; auto.
  Qed.

  Lemma each_call x p names news reps : wf x -> length names = length (shp x) -> length reps = length names -> length news = length names ->
    reads U p (axes_named names) (in_pairs names news) -> ~ In ell_name news -> no_reserved (combine news (map Z.of_nat reps)) ->
    exists y, repeat_ r (One x) p (combine news (map Z.of_nat reps)) = Ok y /\ wf y /\ shp y = map2 Nat.mul (shp x) reps /\
      forall idx, inb (shp y) idx = true -> get y idx = get x (quotients idx reps).
  Proof.
    intros Hw Hl Hlr Hln Hr Hell Hres. destruct (pairs_atoms names news (eq_sym Hln)) as [PA PK].
    destruct (new_call x p names news reps (in_pairs names news) Hw Hl) as [Nk [EL [len [E1 [E2 Hc]]]]]; auto; [lia|apply PA; auto|apply PA; auto|rewrite PK; apply Permutation_app_comm|].
    assert (ER : right_groups 0 (axes_named names) (in_pairs names news) = map2 (fun l q => [LName l; LName q]) names news).
    { unfold right_groups. rewrite names_no_dots. apply pairs_groups. reflexivity. }
    assert (Hns : NoDup (map fst (combine news (map Z.of_nat reps)))).
    { rewrite combine_fst by (rewrite map_length; lia). apply NoDup_app_iff in Nk. tauto. }
    destruct (proj2 (repeat_accepts r Hok x p _ Hns Hw (nonneg_ok p news reps))) as [y Ey]; [split; eauto|].
    exists y. split; [exact Ey|].
    apply (repeat_iff r Hok x p _ (axes_named names) (in_pairs names news) 0 len y Hns Hw Hres Hc) in Ey. rewrite EL, ER in Ey.
    destruct Ey as [Wy [Sy Gy]]. split; [exact Wy|].
    assert (Sy' : shp y = map2 Nat.mul (shp x) reps).
    { rewrite Sy, <- E1, <- E2. unfold gshape. clear -Hln. revert names Hln. induction news as [|q news IH]; intros [|n names] H; try discriminate; [reflexivity|]. cbn. f_equal; [lia|]. apply IH. cbn in H; lia. }
    split; [exact Sy'|]. intros idx Hi. rewrite Sy' in Hi.
    assert (Li : length idx = length names).
    { apply inb_length in Hi. rewrite Hi, <- Sy', Sy. unfold gshape. rewrite map_length. clear -Hln. revert names Hln. induction news as [|q news IH]; intros [|n names] H; try discriminate; auto. cbn. f_equal. apply IH. cbn in H; lia. }
    set (qs := quotients idx reps). set (ms := map2 (fun i d => i mod d) idx reps).
    set (ix := assign label_eqb (fun _ => 0) (map LName (news ++ names)) (ms ++ qs)).
    assert (Lq : length ms = length news /\ length qs = length names).
    { unfold qs, quotients, ms. assert (M : forall g : nat -> nat -> nat, length (map2 g idx reps) = length names).
      { intros g. clear -Li Hlr. revert Li Hlr. generalize reps (length names). induction idx as [|i idx IH]; intros s n H1 H2; destruct s as [|d s]; cbn in *; try lia. destruct n; [lia|]. f_equal. apply IH; lia. }
      rewrite !M. lia. }
    assert (Ei : map ix (map LName (news ++ names)) = ms ++ qs).
    { apply (assign_map label_eqb label_eqb_eq); [apply NoDup_names; auto|]. rewrite map_length, !app_length. lia. }
    rewrite !map_app in Ei. apply app_same_len in Ei as [F1 F2]; [|rewrite !map_length; lia].
    clearbody ix. assert (Wi : within len ix (map LName (news ++ names)) /\ gindex len ix (map2 (fun l q => [LName l; LName q]) names news) = idx).
    { unfold qs, quotients, ms in F1, F2. clear -Hi F1 F2 E1 E2 Hln Li Hlr. revert names idx reps Hi F1 F2 E1 E2 Hln Li Hlr. generalize (shp x).
      induction news as [|q news IH]; intros s [|n names] [|i idx] [|m reps] Hi F1 F2 E1 E2 Hln Li Hlr; try discriminate; [split; [intros a []|reflexivity]|].
      destruct s as [|d s]; [discriminate|]. cbn [map] in *. cbn [map2] in *. injection F1 as A1 F1. injection F2 as A2 F2. injection E1 as B1 E1. injection E2 as B2 E2.
      apply inb_cons in Hi as [Hi1 Hi2]. destruct (IH s names idx reps) as [W G]; auto.
      assert (Hd : m <> 0) by (intros ->; lia).
      split.
      - intros a Ha. rewrite map_app in Ha. cbn [map] in Ha. destruct Ha as [<-|Ha].
        + rewrite A1, B2. apply Nat.mod_upper_bound; auto.
        + apply in_app_or in Ha as [Ha|[<-|Ha]]; [apply W; rewrite map_app; apply in_or_app; auto| |apply W; rewrite map_app; apply in_or_app; auto].
          rewrite A2, B1. apply Nat.div_lt_upper_bound; auto. lia.
      - unfold gindex in *. cbn [map map2]. f_equal; [|exact G]. cbn. rewrite A1, A2, B2. rewrite (Nat.div_mod i m) at 3 by auto. lia. }
    destruct Wi as [Wi Gi]. rewrite <- Gi at 1. rewrite Gy.
    - rewrite gindex_single, concat_single by apply single_groups. rewrite F2. reflexivity.
    - intros a Ha. apply Wi. apply in_app_or in Ha as [Ha|Ha].
      + rewrite concat_single in Ha. rewrite map_app. apply in_or_app; auto.
      + apply pairs_concat in Ha; [|auto]. rewrite map_app, in_app_iff in *. tauto.
  Qed.
End Equivalents.
