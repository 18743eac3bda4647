(** * Facts: messages of EinMix are true *)
From Verif Require Import Py Tensor ListFacts SpecSem SpecGrammar SpecEinsum SpecPattern SpecOps Parsing Compile Recipe Ops Backends ParseFacts ParseFacts2 ParseFacts3
  FrontFacts FrontFacts2 MainFacts Layers LayerFacts EinMix SpecEinMix MixFacts MixFacts2 MixFacts3 MixFacts4 Texts Messages SpecMessages MessageFacts MessageFacts2 MessageFacts3 MessageFacts4
  LayerMessages SpecLayerMessages LayerMessageFacts.

(** ** a recipe for a pattern that can be read *)
Section Late.
  Context (U : unicode) (HU : unicode_ok U).
  Definition late (m : mistake) : Prop := about_side m = false /\ forall x, m = UnusedSize x -> check_axis_name U false x = true.
  Definition lately {A} (x : outcome A) : Prop := forall m, x = Wrong m -> late m.
  Lemma late_then {A B} (m : outcome A) (f : A -> outcome B) : lately m -> (forall a, lately (f a)) -> lately (and_then m f).
  Proof. intros H1 H2 w H. apply then_Wrong in H as [H|[a [_ H]]]; [apply H1, H|eapply H2, H]. Qed.
  Lemma late_lift {A} (r : result A) : lately (lift r).
  Proof. intros m H. apply lift_Wrong in H as [-> _]. split; [reflexivity|discriminate]. Qed.
  Lemma late_if c m : late m -> lately (wrong_if c m).
  Proof. intros H w E. apply if_Wrong in E as [_ ->]. exact H. Qed.
  Lemma late_fine {A} (a : A) : lately (Fine a).
  Proof. intros m. discriminate. Qed.
  Lemma late_map {A B} (f : A -> outcome B) l : (forall a, lately (f a)) -> lately (mapO f l).
  Proof. intros H m E. apply mapO_Wrong in E as [a [_ E]]. exact (H a m E). Qed.
  Lemma late_easy m : about_side m = false -> (forall x, m <> UnusedSize x) -> late m.
  Proof. intros H1 H2. split; [exact H1|]. intros x E. destruct (H2 x E). Qed.
  Lemma late_mark names : forall d, lately (mark_expected_msg U names d).
  Proof.
    unfold mark_expected_msg. induction names as [|x names IH]; intros d; cbn [foldO]; [apply late_fine|]. apply late_then; [|apply IH].
    destruct (check_axis_name U false x) eqn:E; cbn [negb wrong_if and_then].
    - apply late_then; [|intros; apply late_fine]. apply late_if. split; [reflexivity|]. intros y Hy. injection Hy as <-. exact E.
    - intros m Hm. injection Hm as <-. apply late_easy; [reflexivity|discriminate].
  Qed.
  Lemma late_prepare o p op names n L R : reads U p L R -> lately (prepare_recipe_msg U o p op names n).
  Proof.
    intros Hr. apply (reads_split U HU) in Hr as [l [r [E [HL HR]]]]. unfold prepare_recipe_msg. rewrite E.
    pose proof (proj1 (plain_Fine (parse_expression_msg U false false 0 l) (compile 0 L))) as X. rewrite plain_parse in X.
    rewrite X by (apply (parse_expression_iff U HU); exists L; auto). rewrite (surjective_pairing (compile 0 L)). cbn [and_then].
    pose proof (proj1 (plain_Fine (parse_expression_msg U false false (snd (compile 0 L)) r) (compile (snd (compile 0 L)) R))) as Y. rewrite plain_parse in Y.
    rewrite Y by (apply (parse_expression_iff U HU); exists R; auto). rewrite (surjective_pairing (compile (snd (compile 0 L)) R)). cbn [and_then].
    apply late_then; [apply late_if, late_easy; [reflexivity|discriminate]|]. intros _. apply late_then; [apply late_if, late_easy; [reflexivity|discriminate]|]. intros _.
    apply late_then.
    { unfold check_identifiers_msg. cbv zeta. assert (Hr : lately (wrong_if (negb (length (set_diff (p_identifiers (fst (compile (snd (compile 0 L)) R))) (p_identifiers (fst (compile 0 L)))) =? 0))
        (OnlyRight op (o 3 (set_diff (p_identifiers (fst (compile (snd (compile 0 L)) R))) (p_identifiers (fst (compile 0 L)))))))) by (apply late_if, late_easy; [reflexivity|discriminate]).
      destruct op as [s|]; [|exact Hr]. destruct (str_eqb s s_rearrange); [|destruct (str_eqb s s_repeat); [|destruct (str_mem s reductions); [exact Hr|]]].
      - apply late_then; [apply late_if, late_easy; [reflexivity|discriminate]|]. intros _. apply late_if, late_easy; [reflexivity|discriminate].
      - apply late_then; [apply late_if, late_easy; [reflexivity|discriminate]|]. intros _. apply late_if, late_easy; [reflexivity|discriminate].
      - intros m Hm. injection Hm as <-. apply late_easy; [reflexivity|discriminate]. }
    intros _. apply late_then.
    { unfold resolve_ellipsis_msg. cbv zeta. apply late_then; [|intros; apply late_lift].
      destruct (p_has_ellipsis (fst (compile 0 L))); apply late_if, late_easy; try reflexivity; discriminate. }
    intros [[[lcomp rcomp] lids] rids]. cbv zeta. apply late_then; [apply late_mark|]. intros d3. apply late_then.
    { apply late_map. intros g. unfold known_unknown_msg. apply late_then; [apply late_lift|]. intros vs. cbv zeta.
      apply late_then; [apply late_if, late_easy; [reflexivity|discriminate]|]. intros _. do 3 (apply late_then; [apply late_lift|]; intros ?). apply late_fine. }
    intros input. do 4 (apply late_then; [apply late_lift|]; intros ?). apply late_fine.
  Qed.
  Lemma late_all_dims os p op names L R : reads U p L R -> lately (prepare_all_dims_msg U os p op names).
  Proof.
    intros Hr. pose proof (fun o n => late_prepare o p op names n L R Hr) as Hp. apply (reads_split U HU) in Hr as [l [r [E [HL HR]]]]. unfold prepare_all_dims_msg. rewrite E.
    pose proof (proj1 (plain_Fine (parse_expression_msg U false false 0 l) (compile 0 L))) as X. rewrite plain_parse in X.
    rewrite X by (apply (parse_expression_iff U HU); exists L; auto). rewrite (surjective_pairing (compile 0 L)). cbn [and_then].
    apply late_map. intros n. apply late_then; [apply Hp|]. intros; apply late_fine.
  Qed.
End Late.

(** ** steps *)
Lemma then_Faulty {A B} (m : attempt A) (f : A -> attempt B) w :
  and_made m f = Faulty w -> m = Faulty w \/ exists a, m = Made a /\ f a = Faulty w.
Proof. destruct m; cbn; eauto; try discriminate. intros E; injection E as <-; auto. Qed.
Lemma if_Faulty c f w : faulty_if c f = Faulty w -> c = true /\ w = f.
Proof. destruct c; cbn; intros E; [injection E as <-; auto|discriminate]. Qed.
Lemma silent_Faulty {A} (r : result A) w : silent r <> Faulty w.
Proof. destruct r; discriminate. Qed.
Lemma text_Faulty {A} (r : outcome A) w : text_of r = Faulty w -> exists m, r = Wrong m /\ w = InText m.
Proof. destruct r; cbn; intros E; try discriminate. injection E as <-. eauto. Qed.
Lemma text_Made {A} (r : outcome A) a : text_of r = Made a -> r = Fine a.
Proof. destruct r; cbn; intros E; try discriminate. injection E as <-. reflexivity. Qed.
Lemma report_Faulty o l f w : report_axes_msg o l f = Faulty w -> l <> [] /\ w = f (o 3 l).
Proof. intros H. apply if_Faulty in H as [H ->]. split; [|reflexivity]. intros ->. discriminate. Qed.
Lemma foldA_Faulty {A B} (f : A -> B -> attempt A) l : forall acc w, foldA f l acc = Faulty w ->
  exists l1 b l2 acc1, l = l1 ++ b :: l2 /\ foldA f l1 acc = Made acc1 /\ f acc1 b = Faulty w.
Proof.
  induction l as [|b l IH]; intros acc w H; [discriminate|]. cbn [foldA] in H. destruct (f acc b) as [acc'|w'|e] eqn:E; cbn [and_made] in H; try discriminate.
  - apply IH in H as (l1 & b' & l2 & acc1 & -> & H1 & H2). exists (b :: l1), b', l2, acc1. split; [reflexivity|]. split; [|exact H2]. cbn [foldA]. rewrite E. exact H1.
  - injection H as ->. exists [], b, l, acc. auto.
Qed.

Lemma consists_list o l P ats : orders_ok o -> l <> [] -> NoDup l -> (forall s, In (AxName s) l <-> P s) ->
  (forall n, (exists j, In (AxAnon j n) l) <-> In (ANum n) ats /\ n <> 1%Z) -> SpecMessages.consists_of (o 3 l) P ats.
Proof.
  intros Ho Hne. apply consists_perm; [apply Ho|]. destruct l; [contradiction|reflexivity].
Qed.
Lemma union_ids k k' E F a : In a (set_union (ids k E) (ids k' F)) <->
  match a with AxName s => In s (keys E) \/ In s (keys F) | AxAnon j n => big_at k (atoms E) j n \/ big_at k' (atoms F) j n end.
Proof. rewrite in_union, !in_ids. destruct a; reflexivity. Qed.
Lemma big_numbers k E n : (exists j, big_at k (atoms E) j n) <-> In (ANum n) (atoms E) /\ n <> 1%Z.
Proof. split; [intros [j H]; apply big_at_range in H; tauto|intros [H1 H2]; apply big_for; auto]. Qed.

Section Mix.
  Context {T : Type} (U : unicode) (HU : unicode_ok U) (o : orders) (os os' : nat -> orders) (Ho : orders_ok o) (Hos : forall n, orders_ok (os n)) (Hos' : forall n, orders_ok (os' n)).

  Lemma side_fine k s x : parse_expression_msg U false false k s = Fine x -> exists E, written U s E /\ x = (fst (compile k E), k + nbig (atoms E)).
  Proof. intros H. apply (parsed_side U HU) in H as [E [HE ->]]. exists E. split; [exact HE|reflexivity]. Qed.

  Lemma parse_faulty p w b sizes f : einmix_parse_msg U o p w = Faulty f -> true_of_mix U p w b sizes f.
  Proof.
    unfold einmix_parse_msg. destruct (str_split s_arrow p) as [|l [|r [|? ?]]] eqn:Es; try discriminate. apply split_two in Es. intros H.
    apply then_Faulty in H as [H|[[lft k1] [H1 H]]].
    { apply text_Faulty in H as [m [H ->]]. apply (parse_true U false false 0 l m HU) in H as [_ H]. exists l, r. auto. }
    apply text_Made, side_fine in H1 as [L [WL E]]. apply pair_equal_spec in E as [-> ->].
    apply then_Faulty in H as [H|[[rght k2] [H1 H]]].
    { apply text_Faulty in H as [m [H ->]]. apply (parse_true U false false _ r m HU) in H as [_ H]. exists l, r. auto. }
    apply text_Made, side_fine in H1 as [R [WR E]]. apply pair_equal_spec in E as [-> ->].
    apply then_Faulty in H as [H|[[weight k3] [H1 H]]].
    { apply text_Faulty in H as [m [H ->]]. apply (parse_true U false false _ w m HU) in H as [_ H]. exists l, r. auto. }
    apply text_Made, side_fine in H1 as [W [WW E]]. apply pair_equal_spec in E as [-> ->]. cbv beta iota in H. rewrite !ids_eq in H. rewrite Nat.add_0_l in H.
    assert (Hr : reads U p L R) by (exists l, r; auto).
    pose proof (written_NoDup U l L WL) as HndL.
    apply then_Faulty in H as [H|[[] [H1 H]]].
    { apply report_Faulty in H as [Hne ->]. exists L, R, W. split; [exact Hr|]. split; [exact WW|]. apply (consists_list o _ _ _ Ho Hne).
      - apply NoDup_filter, ids_NoDup.
      - intros s. rewrite in_diff, union_ids, in_ids. tauto.
      - intros n. rewrite <- (big_numbers (nbig (atoms L)) R n). split; intros [j Hj]; exists j; rewrite in_diff, union_ids, in_ids in *; [apply Hj|]. split; [exact Hj|].
        apply big_at_range in Hj as [Hj _]. intros [X|X]; apply big_at_range in X as [X _]; lia. }
    apply then_Faulty in H as [H|[[] [_ H]]].
    { apply if_Faulty in H as [H ->]. exists L, R, W. auto. }
    apply then_Faulty in H as [H|[[] [Hx H]]].
    { apply if_Faulty in H as [H ->]. exists L, R, W. split; [exact Hr|]. split; [exact WW|]. split; [reflexivity|].
      unfold compile in H. cbn [fst p_has_ellipsis] in H. destruct (has_dots L), (has_dots R); discriminate. }
    apply then_Faulty in H as [H|[[] [_ H]]].
    { apply if_Faulty in H as [H ->]. exists L, R, W. split; [exact Hr|]. split; [exact WW|]. split; [reflexivity|].
      apply andb_true_iff in H as [H' H].
      destruct (grouped_dots_dec L HndL) as [Hg|Hg]; [exact Hg|exfalso].
      assert (C : no_grouped L) by (apply no_grouped_iff; auto). apply (ell_par_check L HndL) in C.
      unfold compile in H, H', Hx. cbn [fst p_ell_par p_has_ellipsis] in H, H', Hx. destruct (fold_left ell_par_step L None) as [[|]|]; try discriminate.
      destruct (has_dots L), (has_dots R); discriminate. }
    apply then_Faulty in H as [H|[[] [_ H]]].
    { apply if_Faulty in H as [H ->]. exists L, R, W. split; [exact Hr|]. split; [exact WW|].
      unfold compile in H. cbn [fst p_anon] in H. apply orb_true_iff in H as [H|H]; [|auto]. apply orb_true_iff in H as [H|H]; auto. }
    apply then_Faulty in H as [H|[[] [_ H]]]; [|discriminate].
    apply if_Faulty in H as [H ->]. exists L, R, W. split; [exact Hr|]. split; [exact WW|]. split; [reflexivity|].
    destruct (existsb (fun i => match i with Group _ => true | Atom _ => false end) W) eqn:Eg.
    { apply existsb_exists in Eg as [[a|g] [Hi Eg]]; [discriminate|]. eauto. }
    exfalso. assert (X : forall i, In i W -> exists a, i = Atom a).
    { intros [a|g] Hi; [eauto|]. exfalso. apply not_true_iff_false in Eg. apply Eg. apply existsb_exists. exists (Group g). auto. }
    apply (written_parens U w W WW) in X. congruence.
  Qed.
End Mix.
