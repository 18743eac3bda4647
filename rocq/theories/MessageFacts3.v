(** * Facts: messages about the two sides of a pattern and the lengths are true *)
From Verif Require Import Py Tensor ListFacts SpecSem SpecGrammar SpecPattern SpecOps Parsing Compile Recipe Ops Backends ParseFacts ParseFacts2 ParseFacts3
  RecipeFacts InferFacts ApplyFacts FrontFacts FrontFacts2 FrontFacts3 MainFacts ApiFacts2 Messages SpecMessages MessageFacts MessageFacts2.

(** ** computations that do not raise EinopsError *)
Definition clean {A} (r : result A) : Prop := r <> Err EinopsError.
Lemma clean_Ok {A} (a : A) : clean (Ok a).
Proof. discriminate. Qed.
Lemma clean_bind {A B} (m : result A) (f : A -> result B) : clean m -> (forall a, clean (f a)) -> clean (bind m f).
Proof. intros H1 H2. destruct m as [a|e]; cbn; [apply H2|]. intros E. inversion E; subst. apply H1. reflexivity. Qed.
Lemma clean_mapM {A B} (f : A -> result B) l : (forall a, clean (f a)) -> clean (mapM f l).
Proof. intros H. induction l as [|a l IH]; cbn [mapM]; [apply clean_Ok|]. apply clean_bind; [apply H|]. intros b. apply clean_bind; [exact IH|]. intros; apply clean_Ok. Qed.
Lemma clean_foldM {A B} (f : A -> B -> result A) l : (forall a b, clean (f a b)) -> forall acc, clean (foldM f l acc).
Proof. intros H. induction l as [|b l IH]; intros acc; cbn [foldM]; [apply clean_Ok|]. apply clean_bind; [apply H|exact IH]. Qed.
Lemma clean_option {A} e (x : option A) : e <> EinopsError -> clean (of_option e x).
Proof. intros H. destruct x; cbn; [apply clean_Ok|]. intros E. inversion E; auto. Qed.
Lemma clean_if c e : e <> EinopsError -> clean (raise_if c e).
Proof. intros H. destruct c; cbn; [|apply clean_Ok]. intros E. inversion E; auto. Qed.
Lemma clean_getr {V} a (d : list (axis * V)) : clean (dict_getr a d).
Proof. apply clean_option. discriminate. Qed.
Lemma clean_lift {A} (r : result A) m : clean r -> lift r <> Wrong m.
Proof. intros H E. apply lift_Wrong in E as [_ E]. exact (H E). Qed.

Lemma mapO_Wrong {A B} (f : A -> outcome B) l m : mapO f l = Wrong m -> exists a, In a l /\ f a = Wrong m.
Proof.
  induction l as [|a l IH]; cbn [mapO]; [discriminate|]. intros H. apply then_Wrong in H as [H|[b [_ H]]]; [exists a; split; [left; reflexivity|exact H]|].
  apply then_Wrong in H as [H|[bs [_ H]]]; [|discriminate]. destruct (IH H) as [a' [Ha E]]. exists a'. split; [right; exact Ha|exact E].
Qed.

(** ** sets of axes *)
Lemma big_for k l n : In (ANum n) l -> n <> 1%Z -> exists j, big_at k l j n.
Proof.
  revert k. induction l as [|a l IH]; intros k Hin Hn; [destruct Hin|]. destruct Hin as [->|Hin].
  - exists k. left. cbn. rewrite (proj2 (Z.eqb_neq _ _) Hn). auto.
  - destruct (IH (k + nbig [a]) Hin Hn) as [j Hj]. exists j. right. exact Hj.
Qed.
Lemma in_diff a l m : In a (set_diff l m) <-> In a l /\ ~ In a m.
Proof. unfold set_diff. rewrite filter_In, negb_true_iff, axis_mem_false. tauto. Qed.
Lemma diff_some l : negb (length l =? 0) = true -> forall (x : list axis), Permutation x l -> x <> [].
Proof. intros H x Hp ->. apply Permutation_nil in Hp. subst l. discriminate. Qed.

Section Sets.
  Context (o : orders) (Ho : orders_ok o) (L R : expr).
  Let k := nbig (atoms L).
  Notation kL := (ids 0 L).
  Notation kR := (ids k R).

  Lemma consists_perm axes l P ats : Permutation axes l -> negb (length l =? 0) = true -> NoDup l ->
    (forall s, In (AxName s) l <-> P s) -> (forall n, (exists j, In (AxAnon j n) l) <-> In (ANum n) ats /\ n <> 1%Z) -> consists_of axes P ats.
  Proof.
    intros Hp Hne Hnd H1 H2. split; [exact (diff_some l Hne axes Hp)|]. split; [apply (Permutation_NoDup (Permutation_sym Hp) Hnd)|]. split.
    - intros s. rewrite <- H1. split; apply Permutation_in; [exact Hp|apply Permutation_sym; exact Hp].
    - intros n. rewrite <- H2. split; intros [j Hj]; exists j; [apply (Permutation_in _ Hp Hj)|apply (Permutation_in _ (Permutation_sym Hp) Hj)].
  Qed.

  Lemma diff_numbers a b e1 e2 : (forall j n, big_at a (atoms e1) j n -> ~ big_at b (atoms e2) j n) ->
    forall n, (exists j, In (AxAnon j n) (set_diff (ids a e1) (ids b e2))) <-> In (ANum n) (atoms e1) /\ n <> 1%Z.
  Proof.
    intros Hd n. split.
    - intros [j Hj]. apply in_diff in Hj as [Hj _]. apply (in_ids a e1 (AxAnon j n)) in Hj. apply big_at_range in Hj. tauto.
    - intros [H1 H2]. destruct (big_for a (atoms e1) n H1 H2) as [j Hj]. exists j. apply in_diff. split; [apply (in_ids a e1 (AxAnon j n)); exact Hj|].
      intros Hx. apply (in_ids b e2 (AxAnon j n)) in Hx. exact (Hd j n Hj Hx).
  Qed.
  Lemma diff_names a b e1 e2 s : In (AxName s) (set_diff (ids a e1) (ids b e2)) <-> In s (keys e1) /\ ~ In s (keys e2).
  Proof. rewrite in_diff, (in_ids a e1 (AxName s)), (in_ids b e2 (AxName s)). tauto. Qed.
  Lemma diff_NoDup a b e1 e2 : NoDup (set_diff (ids a e1) (ids b e2)).
  Proof. apply NoDup_filter, ids_NoDup. Qed.

  Lemma check_true op names m :
    check_identifiers_msg o op (fst (compile 0 L)) (fst (compile k R)) names = Wrong m ->
    match m with
    | NumbersInRearrange => op = OpStr (lit "rearrange") /\ (has_numbers L = true \/ has_numbers R = true)
    | OnOneSide axes => op = OpStr (lit "rearrange") /\
        consists_of axes (fun s => (In s (keys L) /\ ~ In s (keys R)) \/ (In s (keys R) /\ ~ In s (keys L))) []
    | OnlyLeft axes => op = OpStr (lit "repeat") /\ consists_of axes (fun s => In s (keys L) /\ ~ In s (keys R)) (atoms L)
    | NeedSizes axes => op = OpStr (lit "repeat") /\
        consists_of axes (fun s => In s (keys R) /\ ~ In s (keys L) /\ ~ In s names) []
    | OnlyRight op' axes => op' = op /\ reducing op /\ consists_of axes (fun s => In s (keys R) /\ ~ In s (keys L)) (atoms R)
    | UnknownReduction op' => op' = op /\ exists s, op = OpStr s /\ ~ In s (lit "rearrange" :: lit "repeat" :: reductions)
    | _ => False
    end.
  Proof.
    unfold check_identifiers_msg. rewrite !ids_eq. cbv zeta.
    assert (DLR : forall j n, big_at 0 (atoms L) j n -> ~ big_at k (atoms R) j n).
    { intros j n H1 H2. destruct (big_disjoint L R j n); contradiction. }
    assert (DRL : forall j n, big_at k (atoms R) j n -> ~ big_at 0 (atoms L) j n) by (intros j n H1 H2; exact (DLR j n H2 H1)).
    assert (Red : reducing op -> wrong_if (negb (length (set_diff kR kL) =? 0)) (OnlyRight op (o 3 (set_diff kR kL))) = Wrong m ->
      match m with OnlyRight op' axes => op' = op /\ reducing op /\ consists_of axes (fun s => In s (keys R) /\ ~ In s (keys L)) (atoms R) | _ => False end).
    { intros Hr H. apply if_Wrong in H as [H ->]. split; [reflexivity|]. split; [exact Hr|].
      apply (consists_perm _ (set_diff kR kL)); [apply Ho|exact H|apply diff_NoDup|intros s; apply diff_names|apply (diff_numbers k 0 R L DRL)]. }
    intros H. destruct op as [s|]; [|specialize (Red I H); destruct m; try contradiction; exact Red].
    destruct (str_eqb s s_rearrange) eqn:E1.
    { apply str_eqb_eq in E1. subst s. apply then_Wrong in H as [H|[[] [Hn H]]].
      - apply if_Wrong in H as [H ->]. split; [reflexivity|]. apply orb_true_iff in H. exact H.
      - apply if_Wrong in H as [H ->]. split; [reflexivity|].
        assert (Hnn : p_anon (fst (compile 0 L)) || p_anon (fst (compile k R)) = false) by (destruct (p_anon (fst (compile 0 L)) || p_anon (fst (compile k R))); [discriminate|reflexivity]).
        apply orb_false_iff in Hnn as [NL NR]. change (p_anon (fst (compile 0 L))) with (has_numbers L) in NL. change (p_anon (fst (compile k R))) with (has_numbers R) in NR.
        apply (consists_perm _ (set_diff kL kR ++ set_diff kR kL)); [apply Ho|exact H| | |].
        + apply NoDup_app_iff. split; [apply diff_NoDup|]. split; [apply diff_NoDup|]. intros a Ha Hb. apply in_diff in Ha, Hb. tauto.
        + intros s. rewrite in_app_iff, !diff_names. tauto.
        + intros n. split; [|intros [[] _]]. intros [j Hj]. exfalso. apply in_app_or in Hj as [Hj|Hj]; apply in_diff in Hj as [Hj _].
          * apply (in_ids 0 L (AxAnon j n)) in Hj. exact (no_numbers_big 0 (atoms L) j n NL Hj).
          * apply (in_ids k R (AxAnon j n)) in Hj. exact (no_numbers_big k (atoms R) j n NR Hj). }
    destruct (str_eqb s s_repeat) eqn:E2.
    { apply str_eqb_eq in E2. subst s. apply then_Wrong in H as [H|[[] [Hn H]]]; apply if_Wrong in H as [H ->]; (split; [reflexivity|]).
      - apply (consists_perm _ (set_diff kL kR)); [apply Ho|exact H|apply diff_NoDup|intros s; apply diff_names|apply (diff_numbers 0 k L R DLR)].
      - apply (consists_perm _ (set_diff (filter (fun a => negb (is_anon a)) kR) (kL ++ map AxName names))); [apply Ho|exact H| | |].
        + apply NoDup_filter, NoDup_filter, ids_NoDup.
        + intros s. rewrite in_diff, filter_In, in_app_iff, (in_ids k R (AxName s)), (in_ids 0 L (AxName s)), in_map_iff. cbn [is_anon negb]. split.
          * intros [[H1 _] H2]. split; [exact H1|]. split; intros H3; apply H2; [left; exact H3|right; exists s; auto].
          * intros [H1 [H2 H3]]. split; [auto|]. intros [H4|[y [Ey Hy]]]; [contradiction|]. inversion Ey; subst; contradiction.
        + intros n. split; [|intros [[] _]]. intros [j Hj]. exfalso. apply in_diff in Hj as [Hj _]. apply filter_In in Hj as [_ Hj]. discriminate. }
    destruct (str_mem s reductions) eqn:E3.
    - assert (Hs : In s reductions) by (apply str_mem_In; exact E3). specialize (Red Hs H). destruct m; try contradiction. exact Red.
    - inversion H; subst m. split; [reflexivity|]. exists s. split; [reflexivity|]. intros [E|[E|Hin]].
      + subst s. discriminate.
      + subst s. discriminate.
      + apply str_mem_In in Hin. congruence.
  Qed.
End Sets.

(** ** number of dimensions *)
Lemma resolve_true L R n m : NoDup (keys L) -> (has_dots R = true -> has_dots L = true) -> no_grouped L ->
  resolve_ellipsis_msg (fst (compile 0 L)) (fst (compile (nbig (atoms L)) R)) n = Wrong m ->
  match m with
  | TooFewDims e r => r = n /\ has_dots L = true /\ length L = S e /\ r < e
  | WrongDims e r => r = n /\ has_dots L = false /\ length L = e /\ r <> e
  | _ => False
  end.
Proof.
  intros Hnd Hd Hg H. unfold resolve_ellipsis_msg in H. cbv zeta in H. apply then_Wrong in H as [H|[[] [H0 H]]].
  - change (p_has_ellipsis (fst (compile 0 L))) with (has_dots L) in H. change (p_composition (fst (compile 0 L))) with (comps 0 L) in H. rewrite comps_length in H.
    destruct (has_dots L) eqn:E; apply if_Wrong in H as [H ->]; (split; [reflexivity|]); (split; [first [exact E|reflexivity]|]).
    + apply Nat.ltb_lt in H. split; [lia|exact H].
    + apply negb_true_iff, Nat.eqb_neq in H. split; [reflexivity|lia].
  - apply lift_Wrong in H as [_ H]. exfalso.
    change (p_has_ellipsis (fst (compile 0 L))) with (has_dots L) in H0. change (p_composition (fst (compile 0 L))) with (comps 0 L) in H0. rewrite comps_length in H0.
    assert (Hf : exists e, rank_fits L n e).
    { unfold rank_fits. destruct (has_dots L) eqn:E.
      - assert (HL : 0 < length L) by (destruct L; [discriminate|cbn; lia]).
        destruct (n <? length L - 1) eqn:E1; [discriminate|]. apply Nat.ltb_ge in E1. exists (S n - length L). lia.
      - destruct (n =? length L) eqn:E1; [|discriminate]. apply Nat.eqb_eq in E1. exists 0. auto. }
    destruct Hf as [e He]. rewrite (proj2 (resolve_iff L R n (front_value L R e) Hnd Hd Hg)) in H; [discriminate|]. exists e. auto.
Qed.

(** ** lengths given by name *)
Lemma mark_wrong U l names done m : NoDup l ->
  mark_expected_msg U names (dict_of (mval done) l) = Wrong m ->
  exists x, In x names /\ ((m = BadSizeName x /\ check_axis_name U false x = false) \/
                           (m = UnusedSize x /\ check_axis_name U false x = true /\ ~ In (AxName x) l)).
Proof.
  intros Hndl. unfold mark_expected_msg. revert done. induction names as [|s names IH]; intros done; cbn [foldO]; [discriminate|].
  intros H. apply then_Wrong in H as [H|[d [H0 H]]].
  - exists s. split; [left; reflexivity|]. apply then_Wrong in H as [H|[[] [H1 H]]].
    + left. apply if_Wrong in H as [H ->]. apply negb_true_iff in H. auto.
    + right. apply then_Wrong in H as [H|[[] [_ H]]]; [|discriminate]. apply if_Wrong in H as [H ->]. apply negb_true_iff in H. rewrite dict_has_of in H.
      split; [reflexivity|]. split; [destruct (check_axis_name U false s); [reflexivity|discriminate]|]. apply axis_mem_false. exact H.
  - assert (Hd : exists done', d = dict_of (mval done') l).
    { destruct (check_axis_name U false s); [|discriminate]. cbn [negb wrong_if and_then] in H0. rewrite dict_has_of in H0.
      destruct (axis_mem (AxName s) l) eqn:Em; [|discriminate]. cbn [negb wrong_if and_then] in H0. inversion H0; subst d. clear H0.
      exists (done ++ [s]). apply axis_mem_In in Em. rewrite (dict_set_old (mval done) l (AxName s) expected_axis_length Em Hndl). apply dict_of_ext. intros a _. unfold mval, announced.
      destruct (axis_eqb (AxName s) a) eqn:Ea.
      + apply axis_eqb_eq in Ea; subst. unfold str_mem. rewrite existsb_app. simpl. rewrite str_eqb_refl, orb_true_r. reflexivity.
      + destruct a as [s'|]; auto. unfold str_mem. rewrite existsb_app. simpl. rewrite orb_false_r.
        replace (str_eqb s' s) with false; [rewrite orb_false_r; reflexivity|].
        symmetry. destruct (str_eqb s' s) eqn:E'; auto. apply str_eqb_eq in E'; subst. rewrite axis_eqb_refl in Ea; discriminate. }
    destruct Hd as [done' ->]. destruct (IH done' H) as [x [Hx Hm]]. exists x. split; [right; exact Hx|exact Hm].
Qed.

Lemma known_wrong o names l g m : incl g l -> NoDup g -> (forall a, In a g -> anon_ok a) ->
  known_unknown_msg o (dict_of (mval names) l) (name2position (dict_of own_length l)) g = Wrong m ->
  let unknown := filter (fun a => negb (is_known names a)) g in m = CannotInfer (o 3 unknown) /\ 2 <= length unknown.
Proof.
  intros Hincl Hnd Han H. cbv zeta. unfold known_unknown_msg in H.
  assert (E : mapM (fun a => dict_getr a (dict_of (mval names) l)) g = Ok (map (mval names) g)).
  { apply mapM_total. intros a Ha. unfold dict_getr. rewrite dict_get_of.
    assert (Hm : axis_mem a l = true) by (apply axis_mem_In; auto). rewrite Hm. reflexivity. }
  rewrite E in H. cbn [lift and_then] in H. cbv zeta in H.
  rewrite (filter_combine (mval names) (fun v => (v =? unknown_axis_length)%Z)) in H.
  assert (F2 : filter (fun a => (mval names a =? unknown_axis_length)%Z) g = filter (fun a => negb (is_known names a)) g).
  { apply filter_ext_in. intros a Ha. rewrite <- mval_known by auto. rewrite negb_involutive. reflexivity. }
  rewrite F2 in H. rewrite (set_of_NoDup (filter (fun a => negb (is_known names a)) g)) in H by (apply NoDup_filter; exact Hnd).
  apply then_Wrong in H as [H|[[] [_ H]]].
  { apply if_Wrong in H as [H ->]. apply Nat.ltb_lt in H. split; [reflexivity|lia]. }
  exfalso. apply then_Wrong in H as [H|[[] [_ H]]]; [exact (clean_lift _ _ (clean_if _ AssertionError ltac:(discriminate)) H)|].
  apply then_Wrong in H as [H|[ks [_ H]]]; [exact (clean_lift _ _ (clean_mapM _ _ (fun a => clean_getr a _)) H)|].
  apply then_Wrong in H as [H|[us [_ H]]]; [exact (clean_lift _ _ (clean_mapM _ _ (fun a => clean_getr a _)) H)|discriminate].
Qed.

(** ** the recipe *)
Lemma check_proper U x : check_axis_name U false x = true <-> proper_name U x.
Proof.
  unfold check_axis_name, proper_name. destruct (isidentifier U x); cbn [negb].
  - rewrite andb_false_r. destruct (hd 0%N x =? c_under)%N eqn:E1; cbn [orb].
    + apply N.eqb_eq in E1. split; [discriminate|tauto].
    + apply N.eqb_neq in E1. destruct (last x 0%N =? c_under)%N eqn:E2; [apply N.eqb_eq in E2; split; [discriminate|tauto]|apply N.eqb_neq in E2; tauto].
  - split; [discriminate|intros [? _]; discriminate].
Qed.

Lemma proper_not_ell U x : unicode_ok U -> proper_name U x -> x <> ell_name /\ forall i, AxName x <> ell_axis i.
Proof.
  intros HU [H _]. split.
  - intros ->. unfold ell_name, isidentifier in H. destruct (uo_ell U HU) as [_ [_ [H3 _]]]. rewrite H3 in H. discriminate.
  - intros i. apply (name_not_ell_axis U x i HU). right. exact H.
Qed.

Lemma grouped_dots_dec L : NoDup (keys L) -> grouped_dots L \/ (has_dots L = true -> ~ grouped_dots L).
Proof.
  intros Hn. destruct (has_dots L && existsb grouped_ell L) eqn:E.
  - left. apply andb_true_iff in E as [Hd E].
    apply existsb_exists in E as [i [Hi E]]. destruct i as [a|l]; [discriminate|]. simpl in E.
    apply existsb_exists in E as [a [Ha E]]. unfold has_dots in Hd. apply existsb_exists in Hd as [b [Hb Hdb]].
    destruct b; try discriminate.
    assert (Haa : In a (atoms L)) by (unfold atoms; apply in_flat_map; exists (Group l); auto).
    assert (a = ADots) as ->.
    { apply (flat_map_same atom_key (atoms L) a ADots ell_name); auto; [apply is_ell_key; auto|left; auto]. }
    exists l; auto.
  - right. apply (no_grouped_iff L Hn). intros Hd. rewrite Hd in E. exact E.
Qed.

Section Prepare.
  Context (U : unicode) (HU : unicode_ok U) (o : orders) (Ho : orders_ok o).

  Lemma parsed_side l k x : parse_expression_msg U false false k l = Fine x -> exists L, written U l L /\ x = compile k L.
  Proof. intros H. apply (parse_expression_iff U HU false false k l x). rewrite <- plain_parse, H. reflexivity. Qed.

  Lemma left_unknown e L names g axes : NoDup (keys L) -> no_grouped L -> In g (left_groups e L) ->
    Permutation axes (filter (fun a => negb (is_known names a)) (map axis_of g)) -> 2 <= length axes ->
    forall a, In a axes <-> exists s, a = AxName s /\ In (LName s) g /\ ~ In s names.
  Proof.
    intros Hnd Hng Hg Hp Hl a.
    assert (Hlen : 2 <= length g).
    { rewrite (Permutation_length Hp) in Hl. pose proof (filter_length_split (fun a => negb (is_known names a)) (map axis_of g)) as Hs. rewrite map_length in Hs. lia. }
    assert (Hdots : forall i, ~ In (LDots i) g).
    { intros i Hi. destruct (has_dots L) eqn:E.
      - assert (Hpl : plain L).
        { intros Hx. unfold has_dots in E. apply existsb_exists in E as [b [Hb Eb]]. destruct b; try discriminate.
          assert (C : AName ell_name = ADots) by (apply (flat_map_same atom_key (atoms L) _ _ ell_name Hnd Hx Hb); left; reflexivity). discriminate. }
        rewrite (left_dots_single e L g i Hpl (proj1 (no_grouped_iff L Hnd) Hng) Hg Hi) in Hlen. cbn in Hlen. lia.
      - unfold left_groups in Hg. rewrite E in Hg. assert (Hc : In (LDots i) (concat (groups false e 0 L))) by (apply in_concat; exists g; auto).
        rewrite concat_groups in Hc. apply in_atoms_labels in Hc; [|right; exact E]. destruct Hc as [_ [Hc _]]. discriminate. }
    assert (Hin : In a axes <-> In a (filter (fun a => negb (is_known names a)) (map axis_of g))).
    { split; apply Permutation_in; [exact Hp|apply Permutation_sym; exact Hp]. }
    rewrite Hin, filter_In, in_map_iff. split.
    - intros [[b [<- Hb]] Hk]. destruct b as [s|i|j n]; [|exfalso; exact (Hdots i Hb)|discriminate].
      exists s. split; [reflexivity|]. split; [exact Hb|]. cbn in Hk. apply negb_true_iff in Hk. intros Hs. apply str_mem_In in Hs. congruence.
    - intros [s [-> [Hs Hn]]]. split; [exists (LName s); auto|]. cbn. apply negb_true_iff. destruct (str_mem s names) eqn:Em; [|reflexivity].
      apply str_mem_In in Em. contradiction.
  Qed.

  Lemma prepare_true p op sizes shape m :
    prepare_recipe_msg U o p op (map fst sizes) (length shape) = Wrong m -> true_of_call U p op sizes shape m.
  Proof.
    unfold prepare_recipe_msg. set (names := map fst sizes).
    destruct (str_split s_arrow p) as [|l [|r [|? ?]]] eqn:Es; try discriminate. apply split_two in Es. intros H.
    apply then_Wrong in H as [H|[[lft k] [H1 H]]].
    { apply (parse_true U false false 0 l m HU) in H as [Ha Hs]. unfold true_of_call. rewrite Ha. exists l, r. split; [exact Es|]. left. exact Hs. }
    apply parsed_side in H1 as [L [HL EL]].
    apply then_Wrong in H as [H|[[rght k'] [H2 H]]].
    { apply (parse_true U false false k r m HU) in H as [Ha Hs]. unfold true_of_call. rewrite Ha. exists l, r. split; [exact Es|]. right. split; [exists L; exact HL|exact Hs]. }
    apply parsed_side in H2 as [R [HR ER]].
    assert (Ek : k = nbig (atoms L)) by (apply (f_equal snd) in EL; cbn in EL; exact EL). subst k.
    assert (El : lft = fst (compile 0 L)) by (rewrite <- EL; reflexivity). assert (Er : rght = fst (compile (nbig (atoms L)) R)) by (rewrite <- ER; reflexivity).
    subst lft rght. clear EL ER.
    assert (Hr : reads U p L R) by (exists l, r; auto).
    pose proof (written_NoDup U _ _ HL) as HndL.
    assert (Done : forall m', about_side m' = false ->
      (match m' with
       | DotsOnlyRight q => q = p /\ has_dots L = false /\ has_dots R = true
       | DotsInBrackets q => q = p /\ grouped_dots L
       | NumbersInRearrange => op = OpStr (lit "rearrange") /\ (has_numbers L = true \/ has_numbers R = true)
       | OnOneSide axes => op = OpStr (lit "rearrange") /\
           consists_of axes (fun s => (In s (keys L) /\ ~ In s (keys R)) \/ (In s (keys R) /\ ~ In s (keys L))) []
       | OnlyLeft axes => op = OpStr (lit "repeat") /\ consists_of axes (fun s => In s (keys L) /\ ~ In s (keys R)) (atoms L)
       | NeedSizes axes => op = OpStr (lit "repeat") /\ consists_of axes (fun s => In s (keys R) /\ ~ In s (keys L) /\ ~ In s names) []
       | OnlyRight op' axes => op' = op /\ reducing op /\ consists_of axes (fun s => In s (keys R) /\ ~ In s (keys L)) (atoms R)
       | UnknownReduction op' => op' = op /\ exists s, op = OpStr s /\ ~ In s (lit "rearrange" :: lit "repeat" :: reductions)
       | TooFewDims e n => n = length shape /\ has_dots L = true /\ length L = S e /\ n < e
       | WrongDims e n => n = length shape /\ has_dots L = false /\ length L = e /\ n <> e
       | BadSizeName x => In x names /\ ~ proper_name U x
       | UnusedSize x => In x names /\ ~ In x (keys L) /\ ~ In x (keys R)
       | CannotInfer axes => exists e g, rank_fits L (length shape) e /\ In g (left_groups e L) /\ 2 <= length axes /\ NoDup axes /\
           forall a, In a axes <-> exists s, a = AxName s /\ In (LName s) g /\ ~ In s names
       | _ => False
       end) -> true_of_call U p op sizes shape m').
    { intros m' Ha Hm. unfold true_of_call. rewrite Ha. exists L, R. split; [exact Hr|]. destruct m'; try exact Hm; contradiction. }
    apply then_Wrong in H as [H|[[] [H3 H]]].
    { apply if_Wrong in H as [H ->]. apply Done; [reflexivity|]. apply andb_true_iff in H as [H1 H2]. apply negb_true_iff in H1. auto. }
    assert (Hd : has_dots R = true -> has_dots L = true).
    { intros E. change (p_has_ellipsis (fst (compile 0 L))) with (has_dots L) in H3. change (p_has_ellipsis (fst (compile (nbig (atoms L)) R))) with (has_dots R) in H3.
      rewrite E in H3. destruct (has_dots L); [reflexivity|discriminate]. }
    apply then_Wrong in H as [H|[[] [H4 H]]].
    { apply if_Wrong in H as [H ->]. apply Done; [reflexivity|]. split; [reflexivity|].
      destruct (grouped_dots_dec L HndL) as [Hg|Hg]; [exact Hg|exfalso].
      assert (C : no_grouped L) by (apply no_grouped_iff; auto). apply (ell_par_check L HndL) in C.
      unfold compile in H. cbn [fst p_has_ellipsis p_ell_par] in H. congruence. }
    assert (Hng : no_grouped L).
    { apply (ell_par_check L HndL). unfold compile in H4. cbn [fst p_has_ellipsis p_ell_par] in H4.
      destruct (has_dots L && match fold_left ell_par_step L None with Some b => b | None => false end); [discriminate|reflexivity]. }
    apply then_Wrong in H as [H|[[] [H5 H]]].
    { apply (check_true o Ho L R op names m) in H. apply Done; destruct m; try contradiction; try reflexivity; exact H. }
    apply then_Wrong in H as [H|[x [H6 H]]].
    { apply (resolve_true L R (length shape) m HndL Hd Hng) in H. apply Done; destruct m; try contradiction; try reflexivity; exact H. }
    apply plain_Fine in H6. rewrite plain_resolve in H6. apply (resolve_iff L R (length shape) x HndL Hd Hng) in H6 as [e [He ->]].
    rewrite front_value_eq in H. pose proof (front_weak U HU p L R e Hr Hd) as [Hndl Hndr Hndi Hlids Hrids Han].
    set (lcomp := map (map axis_of) (left_groups e L)) in *. set (rcomp := map (map axis_of) (right_groups e L R)) in *.
    assert (Hndi' : NoDup (o 0 (rids_of L R e))) by (eapply Permutation_NoDup; [apply Permutation_sym, Ho|exact Hndi]).
    rewrite known_lengths_left_of in H by exact Hndl. rewrite known_lengths_add_of in H by exact Hndi'.
    change (concat lcomp ++ new_axes (o 0 (rids_of L R e)) (concat lcomp)) with (all_axes o lcomp (rids_of L R e)) in H.
    pose proof (all_axes_NoDup o lcomp (rids_of L R e) Ho Hndl Hndi) as HndA. pose proof (fun a => all_axes_In o lcomp (rids_of L R e) a Ho) as HinA.
    set (all := all_axes o lcomp (rids_of L R e)) in *. cbv zeta in H.
    assert (Emv : dict_of own_length all = dict_of (mval []) all) by (apply dict_of_ext; intros [|]; reflexivity).
    apply then_Wrong in H as [H|[d3 [H7 H]]].
    { rewrite Emv in H. apply (mark_wrong U all names [] m HndA) in H as [x [Hx [[-> Hc]|[-> [Hc Hn]]]]]; apply Done; try reflexivity; (split; [exact Hx|]).
      - intros Hp. apply check_proper in Hp. congruence.
      - apply check_proper in Hc. destruct (proper_not_ell U x HU Hc) as [Hell _]. rewrite HinA in Hn. split; intros Hk; apply Hn.
        + left. apply (in_left L R e Hd). cbn. left. auto.
        + right. unfold rids_of. destruct (has_dots L && has_dots R).
          * apply in_strip. split; [|intros Ex; inversion Ex; contradiction]. apply in_update. right. apply (in_ids (nbig (atoms L)) R (AxName x)); exact Hk.
          * apply (in_ids (nbig (atoms L)) R (AxName x)); exact Hk. }
    apply plain_Fine in H7. rewrite plain_mark, mark_expected_of in H7 by exact HndA.
    destruct (forallb (fun s => check_axis_name U false s && axis_mem (AxName s) all) names); [|discriminate]. inversion H7; subst d3. clear H7.
    apply then_Wrong in H as [H|[input [_ H]]].
    { apply mapO_Wrong in H as [g [Hg H]]. subst lcomp. apply in_map_iff in Hg as [g0 [<- Hg0]].
      assert (Hgl : In (map axis_of g0) (map (map axis_of) (left_groups e L))) by (apply in_map; exact Hg0).
      apply known_wrong in H as [-> Hl].
      - apply Done; [reflexivity|]. exists e, g0. split; [exact He|]. split; [exact Hg0|]. pose proof (Ho 3 (filter (fun a => negb (is_known names a)) (map axis_of g0))) as Hp.
        rewrite (Permutation_length Hp). split; [exact Hl|]. split; [eapply Permutation_NoDup; [apply Permutation_sym; exact Hp|]; apply NoDup_filter; exact (NoDup_concat_in _ _ Hndl Hgl)|].
        apply (left_unknown e L names g0 _ HndL Hng Hg0 Hp). rewrite (Permutation_length Hp). exact Hl.
      - intros a Ha. apply HinA. left. apply in_concat. eauto.
      - exact (NoDup_concat_in _ _ Hndl Hgl).
      - intros a Ha. apply Han. left. apply in_concat. eauto. }
    exfalso.
    apply then_Wrong in H as [H|[output [_ H]]]; [exact (clean_lift _ _ (clean_mapM _ _ (fun g => clean_mapM _ g (fun a => clean_getr a _))) H)|].
    apply then_Wrong in H as [H|[perm [_ H]]]; [exact (clean_lift _ _ (clean_mapM _ _ (fun a => clean_option ValueError _ ltac:(discriminate))) H)|].
    apply then_Wrong in H as [H|[added [_ H]]].
    { refine (clean_lift _ _ (clean_mapM _ _ _) H). intros [i a]. apply clean_bind; [apply clean_getr|intros; apply clean_Ok]. }
    apply then_Wrong in H as [H|[n2e [_ H]]]; [|discriminate].
    refine (clean_lift _ _ (clean_mapM _ _ _) H). intros s. apply clean_bind; [apply clean_getr|intros; apply clean_Ok].
  Qed.
End Prepare.
