(** * Translation of einsum patterns *)
From Verif Require Import Py Tensor Parsing Recipe Ops SpecGrammar SpecForms Compile ListFacts ParseFacts ParseFacts2 ParseFacts3 ParseLaws FrontFacts2 SpecEinsum Einsum EinsumFacts.

Definition c_comma : N := 44.
Lemma comma_free U (HU : unicode_ok U) au ad s e : written_as U au ad s e -> ~ In c_comma s.
Proof.
  intros [ts [Hs [He _]]] Hin. apply spells_iff in Hs; subst ts. apply structured_by in He.
  destruct (lex_chars s None c_comma Hin eq_refl) as [w [Hw Hc]].
  destruct (struct_words U _ _ _ He _ Hw) as [a [Ha _]].
  assert (Hm : u_alnum U c_comma = false) by (rewrite (uo_alnum U HU); reflexivity).
  inversion Ha; subst.
  - simpl in Hc. unfold c_comma in Hc. repeat (destruct Hc as [Hc|Hc]; [discriminate|]). destruct Hc.
  - destruct (isdecimal_digits U w H c_comma Hc) as [d Hd]. apply (uo_digit_alnum U HU) in Hd. congruence.
  - destruct H as [->|[_ [H _]]].
    + destruct Hc as [Hc|[]]; discriminate.
    + destruct (H _ Hc) as [X|X]; [congruence|discriminate].
Qed.

Lemma split_char_cons c x s : str_split [c] (x :: s) = if (x =? c)%N then [] :: str_split [c] s else cons_head x (str_split [c] s).
Proof. unfold str_split. cbn [str_split_aux prefixb]. rewrite andb_true_r, N.eqb_sym. destruct (x =? c)%N; reflexivity. Qed.

Lemma split_char c s l : str_split [c] s = l <-> s = str_join [c] l /\ l <> [] /\ Forall (fun x => ~ In c x) l.
Proof.
  revert l. induction s as [|x s IH]; intros l.
  - split.
    + intros <-. split; [reflexivity|]. split; [discriminate|]. constructor; [intros []|constructor].
    + intros (E & Hn & _). destruct l as [|a [|b l]]; [congruence| |]; cbn in E; [subst; reflexivity|].
      destruct a; discriminate.
  - rewrite split_char_cons. destruct (N.eqb_spec x c) as [->|Hx].
    + split.
      * intros <-. destruct (proj1 (IH (str_split [c] s)) eq_refl) as (E & Hn & Hf). split; [|split; [discriminate|constructor; [intros []|exact Hf]]].
        destruct (str_split [c] s) as [|a l']; [congruence|]. change (c :: s = c :: str_join [c] (a :: l')). rewrite <- E. reflexivity.
      * intros (E & Hn & Hf). destruct l as [|a l]; [congruence|]. inversion Hf as [|? ? Ha Hl]; subst.
        destruct a as [|y a]; [|exfalso; destruct l; cbn in E; injection E as <- _; apply Ha; left; reflexivity].
        destruct l as [|b l]; [discriminate|]. f_equal. apply IH. split; [|split; [discriminate|exact Hl]].
        change (c :: s = c :: str_join [c] (b :: l)) in E. injection E as ->. reflexivity.
    + split.
      * intros <-. destruct (proj1 (IH (str_split [c] s)) eq_refl) as (E & Hn & Hf). destruct (str_split [c] s) as [|a l']; [congruence|].
        cbn [cons_head]. inversion Hf; subst. split; [|split; [discriminate|constructor; [|assumption]]].
        -- destruct l'; reflexivity.
        -- intros [Hy|Hy]; [congruence|contradiction].
      * intros (E & Hn & Hf). destruct l as [|a l]; [congruence|]. inversion Hf as [|? ? Ha Hl]; subst.
        destruct a as [|y a]; [exfalso; destruct l as [|b l]; cbn in E; [discriminate|injection E as E _; congruence]|].
        assert (Es : x = y /\ s = str_join [c] (a :: l)) by (destruct l; cbn in E; injection E as -> ->; split; reflexivity).
        destruct Es as [-> Es]. assert (Eq : str_split [c] s = a :: l).
        { apply IH. split; [exact Es|]. split; [discriminate|]. constructor; [intros Hi; apply Ha; right; exact Hi|exact Hl]. }
        rewrite Eq. reflexivity.
Qed.

Lemma comma_eq : s_comma = [c_comma].
Proof. reflexivity. Qed.

Lemma join_free c l : c <> c_comma -> Forall (fun x => ~ In c x) l -> ~ In c (str_join s_comma l).
Proof.
  intros Hc H. induction H as [|x l Hx Hl IH]; [intros []|]. destruct l as [|y l]; [exact Hx|].
  change (str_join s_comma (x :: y :: l)) with (x ++ s_comma ++ str_join s_comma (y :: l)).
  rewrite comma_eq. intros Hi. apply in_app_or in Hi as [Hi|Hi]; [contradiction|]. destruct Hi as [Hi|Hi]; [congruence|]. apply IH, Hi.
Qed.

Lemma map_Some_inj {A} (l m : list A) : map Some l = map Some m -> l = m.
Proof. revert m. induction l as [|x l IH]; intros [|y m] H; try discriminate; [reflexivity|]. cbn in H. injection H as -> H. f_equal. apply IH, H. Qed.

Lemma Forall2_lists U ad ls es Ls : Forall2 (written_as U true ad) ls es -> map (map item_entry) es = map (map Some) Ls -> Forall2 (lists U ad) ls Ls.
Proof.
  intros H. revert Ls. induction H as [|s e ls es Hs _ IH]; intros [|L Ls] E; try discriminate; constructor.
  - cbn in E. injection E as E _. exists e. auto.
  - apply IH. cbn in E. injection E as _ E. exact E.
Qed.
Lemma Forall2_lists_inv U ad ls Ls : Forall2 (lists U ad) ls Ls -> exists es, Forall2 (written_as U true ad) ls es /\ map (map item_entry) es = map (map Some) Ls.
Proof.
  induction 1 as [|s L ls Ls [e [He E]] _ [es [Hes Ees]]]; [exists []; split; [constructor|reflexivity]|].
  exists (e :: es). split; [constructor; assumption|]. cbn. rewrite E, Ees. reflexivity.
Qed.

Section Compact.
  Context (U : unicode) (HU : unicode_ok U).

  Lemma einsum_reads_split pattern Ls R :
    einsum_reads U pattern Ls R <->
    exists l r, str_split s_arrow pattern = [l; r] /\ Forall2 (lists U true) (str_split s_comma l) Ls /\ lists U false r R.
  Proof.
    unfold einsum_reads. change (lit "->") with s_arrow. change (lit ",") with s_comma. split.
    - intros (ls & r & E & Hn & HL & HR). exists (str_join s_comma ls), r.
      assert (Hc : Forall (fun x => ~ In c_comma x) ls).
      { clear -HL HU. induction HL as [|? ? ? ? (e & He & _) _ IH]; constructor; [eapply comma_free; eauto|exact IH]. }
      assert (Hm : Forall (fun x => ~ In c_minus x) ls).
      { clear -HL HU. induction HL as [|? ? ? ? (e & He & _) _ IH]; constructor; [eapply minus_free; eauto|exact IH]. }
      assert (Es : str_split s_comma (str_join s_comma ls) = ls) by (apply split_char; auto).
      rewrite Es. split; [|split; assumption]. rewrite E, split_one_arrow.
      + destruct HR as (e & He & _). rewrite split_free; [reflexivity|]. apply no_minus_free. eapply minus_free; eauto.
      + apply no_minus_free. apply join_free; [discriminate|exact Hm].
    - intros (l & r & E & HL & HR). exists (str_split s_comma l), r.
      destruct (proj1 (split_char c_comma l _) eq_refl) as (E1 & E2 & _). split; [|split; [exact E2|split; assumption]].
      rewrite (split_two _ _ _ E). f_equal. exact E1.
  Qed.

  Lemma contains_arrow pattern l r : str_split s_arrow pattern = [l; r] -> str_contains s_arrow pattern = true.
  Proof.
    intros E. rewrite (split_two _ _ _ E). destruct (str_contains s_arrow (l ++ s_arrow ++ r)) eqn:H; [reflexivity|].
    assert (H' := H). rewrite <- (split_two _ _ _ E) in H'. apply split_free in H'. congruence.
  Qed.

  Theorem compactify_iff pattern c :
    compactify U pattern = Ok c <->
    exists Ls R, einsum_reads U pattern Ls R /\ incl (entry_names R) (all_names Ls) /\
      length (distinct (all_names Ls)) <= 52 /\ c = short_pattern (letter_of (distinct (all_names Ls))) Ls R.
  Proof.
    unfold compactify. split.
    - intros H. apply bind_Ok in H as [u [_ H]].
      destruct (str_split s_arrow pattern) as [|l [|r [|? ?]]] eqn:E; try discriminate.
      apply bind_Ok in H as [[lefts next] [H1 H]]. apply bind_Ok in H as [[rght k2] [H2 H]].
      apply bind_Ok in H as [[m strs] [H3 H]].
      apply (parse_all U HU) in H1 as (es & Hes & Est). injection Est as -> ->.
      apply (parse_expression_iff U HU) in H2 as (e & He & Ep).
      change (@nil (pystr * N)) with (mapping []) in H3. cbn [app] in H3. apply lefts_loop in H3 as (Ls & ELs & HLs & Em); [|cbn; lia].
      injection Em as -> ->. assert (Ec : p_composition rght = comps (snd (compile_all 0 es)) e) by (unfold compile in Ep; injection Ep as -> _; reflexivity).
      rewrite Ec in H. apply right_loop in H as (R & ER & HR & ->); [|exact HLs].
      exists Ls, R. split.
      + apply einsum_reads_split. exists l, r. split; [exact E|]. split; [eapply Forall2_lists; eauto|]. exists e. auto.
      + rewrite distinct_add. split; [intros x Hx; apply HR in Hx; apply add_names_In in Hx as [[]|Hx]; exact Hx|].
        split; [exact HLs|]. unfold short_pattern. rewrite <- app_assoc. reflexivity.
    - intros (Ls & R & Hr & Hi & Hl & ->). apply einsum_reads_split in Hr as (l & r & E & HL & e & He & ER).
      rewrite (contains_arrow _ _ _ E), E. cbn [negb raise_if bind].
      apply Forall2_lists_inv in HL as (es & Hes & ELs). rewrite distinct_add in *.
      assert (H1 := proj2 (parse_all U HU (str_split s_comma l) [] 0 _) (ex_intro _ es (conj Hes eq_refl))).
      rewrite H1. cbn [bind app].
      assert (H2 : parse_expression U true false (snd (compile_all 0 es)) r = Ok (compile (snd (compile_all 0 es)) e)) by (apply (parse_expression_iff U HU); eauto).
      rewrite H2. destruct (compile (snd (compile_all 0 es)) e) as [rght k2] eqn:Ep. cbn [bind].
      assert (H3 : foldM left_step (fst (compile_all 0 es)) (mapping [], []) =
        Ok (mapping (add_names [] (all_names Ls)), [] ++ map (short (letter_of (add_names [] (all_names Ls)))) Ls)).
      { apply lefts_loop; [cbn; lia|]. exists Ls. auto. }
      change (mapping []) with (@nil (pystr * N)) in H3. rewrite H3. cbn [bind app].
      assert (Ec : p_composition rght = comps (snd (compile_all 0 es)) e) by (unfold compile in Ep; injection Ep as <- _; reflexivity).
      rewrite Ec. apply right_loop; [exact Hl|]. exists R. split; [exact ER|]. split.
      + intros x Hx. apply add_names_In. right. apply Hi, Hx.
      + unfold short_pattern. rewrite <- app_assoc. reflexivity.
  Qed.

  Lemma einsum_reads_fun pattern Ls R Ls' R' : einsum_reads U pattern Ls R -> einsum_reads U pattern Ls' R' -> Ls = Ls' /\ R = R'.
  Proof.
    rewrite !einsum_reads_split. intros (l & r & E & HL & HR) (l' & r' & E' & HL' & HR'). rewrite E in E'. injection E' as <- <-.
    assert (F : forall ad s L L', lists U ad s L -> lists U ad s L' -> L = L').
    { intros ad s L L' (e & He & EL) (e' & He' & EL'). assert (e = e') by (eapply written_fun; eauto). subst e'. apply map_Some_inj. congruence. }
    split; [|eapply F; eauto]. revert Ls' HL'. induction HL as [|s L ss Ls Hs _ IH]; intros Ls' HL'; inversion HL'; subst; [reflexivity|].
    f_equal; [eapply F; eauto|apply IH; assumption].
  Qed.

  (** ** Errors *)
  Lemma foldM_Err {A B} (f : B -> A -> result B) : forall l b ex, foldM f l b = Err ex -> exists b' a, In a l /\ f b' a = Err ex.
  Proof.
    induction l as [|a l IH]; intros b ex H; [discriminate|]. cbn in H. destruct (f b a) as [b1|e1] eqn:E.
    - apply IH in H as (b' & a' & Hi & H). exists b', a'. split; [right; exact Hi|exact H].
    - cbn in H. injection H as <-. exists b, a. split; [left; reflexivity|exact E].
  Qed.

  Lemma left_loop_err : forall e k ns str ex, length ns <= 52 -> foldM left_axis_step (comps k e) (mapping ns, str) = Err ex ->
    (ex = NotImplementedError /\ exists i, In i e /\ item_entry i = None) \/
    (ex = RuntimeError /\ exists es1 i e2, e = es1 ++ i :: e2 /\ exists es s, map item_entry es1 = map Some es /\ item_entry i = Some (EName s) /\ 52 < length (add_names ns (entry_names (es ++ [EName s])))).
  Proof.
    induction e as [|i e IH]; intros k ns str ex H Hx; [discriminate|]. cbn [comps foldM] in Hx. rewrite left_axis_step_spec in Hx by exact H.
    destruct (item_entry i) as [[s|]|] eqn:Ei; cbn [bind] in Hx.
    - destruct (length (add_name ns s) <=? 52) eqn:L; cbn [bind] in Hx.
      + apply Nat.leb_le in L. apply IH in Hx as [[-> (j & Hj & Ej)]|[-> (e1 & j & e2 & -> & es & s' & E1 & E2 & Hl)]]; [| |exact L].
        * left. split; [reflexivity|]. exists j. split; [right; exact Hj|exact Ej].
        * right. split; [reflexivity|]. exists (i :: e1), j, e2. split; [reflexivity|]. exists (EName s :: es), s'. cbn [map]. rewrite Ei, E1. split; [reflexivity|]. split; [exact E2|exact Hl].
      + injection Hx as <-. right. split; [reflexivity|]. exists [], i, e. split; [reflexivity|]. exists [], s. split; [reflexivity|]. split; [exact Ei|]. apply Nat.leb_gt in L. exact L.
    - apply IH in Hx as [[-> (j & Hj & Ej)]|[-> (e1 & j & e2 & -> & es & s' & E1 & E2 & Hl)]]; [| |exact H].
      + left. split; [reflexivity|]. exists j. split; [right; exact Hj|exact Ej].
      + right. split; [reflexivity|]. exists (i :: e1), j, e2. split; [reflexivity|]. exists (EDots :: es), s'. cbn [map]. rewrite Ei, E1. split; [reflexivity|]. split; [exact E2|exact Hl].
    - injection Hx as <-. left. split; [reflexivity|]. exists i. split; [left; reflexivity|exact Ei].
  Qed.

  Lemma names_of e es : map item_entry e = map Some es -> expr_names e = entry_names es.
  Proof.
    revert es. induction e as [|i e IH]; intros [|x es] H; try discriminate; [reflexivity|]. cbn in H. injection H as Hi H.
    change (expr_names (i :: e)) with (item_names i ++ expr_names e). unfold item_names. rewrite Hi, (IH _ H). destruct x; reflexivity.
  Qed.

  Lemma lefts_loop_err : forall es k ns strs ex, length ns <= 52 -> foldM left_step (fst (compile_all k es)) (mapping ns, strs) = Err ex ->
    (ex = NotImplementedError /\ exists e i, In e es /\ In i e /\ item_entry i = None) \/
    (ex = RuntimeError /\ 52 < length (add_names ns (flat_map expr_names es))).
  Proof.
    induction es as [|e es IH]; intros k ns strs ex H Hx; [discriminate|].
    cbn [compile_all] in Hx. destruct (compile k e) as [p k1] eqn:Ep. specialize (IH k1). destruct (compile_all k1 es) as [ps k2]. cbn [fst] in IH, Hx.
    assert (Ec : p_composition p = comps k e) by (unfold compile in Ep; injection Ep as <- _; reflexivity).
    cbn [foldM left_step] in Hx. rewrite Ec in Hx. destruct (foldM left_axis_step (comps k e) (mapping ns, [])) as [[m str]|ex'] eqn:El; cbn [bind] in Hx.
    - apply left_loop in El as (x & Ex & Hl & Em); [|exact H]. injection Em as -> ->.
      apply IH in Hx as [[-> (e' & i & He' & Hi & Ei)]|[-> Hlen]]; [| |exact Hl].
      + left. split; [reflexivity|]. exists e', i. split; [right; exact He'|]. auto.
      + right. split; [reflexivity|]. cbn [flat_map]. rewrite add_names_app, (names_of _ _ Ex). exact Hlen.
    - injection Hx as <-. apply left_loop_err in El as [[-> (i & Hi & Ei)]|[-> (e1 & j & e2 & -> & x & s & E1 & E2 & Hl)]]; [| |exact H].
      + left. split; [reflexivity|]. exists e, i. split; [left; reflexivity|]. auto.
      + right. split; [reflexivity|]. cbn [flat_map]. unfold expr_names at 1. rewrite flat_map_app. cbn [flat_map].
        fold (expr_names e1). rewrite (names_of _ _ E1). unfold item_names at 1. rewrite E2. unfold entry_names in Hl. rewrite flat_map_app in Hl. cbn in Hl.
        rewrite !add_names_app in *. fold (entry_names x) in *. cbn [add_names fold_left app] in *.
        destruct (add_names_prefix (flat_map item_names e2) (add_name (add_names ns (entry_names x)) s)) as [t Ht].
        change (fold_left add_name (s :: flat_map item_names e2) (add_names ns (entry_names x))) with (add_names (add_name (add_names ns (entry_names x)) s) (flat_map item_names e2)).
        rewrite Ht. destruct (add_names_prefix (flat_map expr_names es) (add_name (add_names ns (entry_names x)) s ++ t)) as [t' Ht'].
        change (fold_left add_name (flat_map (fun e => expr_names e) es) ?a) with (add_names a (flat_map expr_names es)).
        rewrite Ht', !app_length. lia.
  Qed.

  Lemma right_loop_err ns : length ns <= 52 -> forall e k str ex, foldM (right_axis_step (mapping ns)) (comps k e) str = Err ex ->
    (ex = NotImplementedError /\ exists i, In i e /\ item_entry i = None) \/
    (ex = EinopsError /\ exists s, In s (expr_names e) /\ ~ In s ns).
  Proof.
    intros H. induction e as [|i e IH]; intros k str ex Hx; [discriminate|]. cbn [comps foldM] in Hx. unfold right_axis_step at 1 in Hx.
    rewrite einsum_axis_item in Hx. destruct (item_entry i) as [[s|]|] eqn:Ei; cbn [entry_result bind] in Hx.
    - rewrite mapping_get in Hx by exact H. destruct (str_mem s ns) eqn:Em; cbn [of_option bind] in Hx.
      + apply IH in Hx as [[-> (j & Hj & Ej)]|[-> (t & Ht & Hn)]].
        * left. split; [reflexivity|]. exists j. split; [right; exact Hj|exact Ej].
        * right. split; [reflexivity|]. exists t. split; [cbn; apply in_or_app; right; exact Ht|exact Hn].
      + injection Hx as <-. right. split; [reflexivity|]. exists s. split; [cbn; unfold item_names; rewrite Ei; left; reflexivity|].
        intros Hs. apply str_mem_In' in Hs. congruence.
    - apply IH in Hx as [[-> (j & Hj & Ej)]|[-> (t & Ht & Hn)]].
      + left. split; [reflexivity|]. exists j. split; [right; exact Hj|exact Ej].
      + right. split; [reflexivity|]. exists t. split; [cbn; apply in_or_app; right; exact Ht|exact Hn].
    - injection Hx as <-. left. split; [reflexivity|]. exists i. split; [left; reflexivity|exact Ei].
  Qed.

  Lemma parse_all_err : forall ss acc k ex,
    foldM (fun '(lefts, next) s => let* (p, next) := parse_expression U true true next s in Ok (lefts ++ [p], next)) ss (acc, k) = Err ex ->
    ex = EinopsError /\ exists s, In s ss /\ forall e, ~ written_as U true true s e.
  Proof.
    induction ss as [|s ss IH]; intros acc k ex H; [discriminate|]. cbn [foldM] in H.
    destruct (parse_expression U true true k s) as [[p k']|e'] eqn:E; cbn [bind] in H.
    - apply IH in H as [-> (t & Ht & Hw)]. split; [reflexivity|]. exists t. split; [right; exact Ht|exact Hw].
    - injection H as <-. split; [eapply parse_expression_err; eauto|]. exists s. split; [left; reflexivity|]. intros e He.
      assert (X : parse_expression U true true k s = Ok (compile k e)) by (apply (parse_expression_iff U HU); eauto). congruence.
  Qed.

  Lemma compactify_err pattern ex : compactify U pattern = Err ex ->
    (ex = ValueError /\ forall l r, arrow_free l -> arrow_free r -> pattern <> l ++ s_arrow ++ r) \/
    exists ls r, pattern = str_join s_comma ls ++ s_arrow ++ r /\ ls <> [] /\ Forall (fun l => ~ In c_comma l) ls /\
      ((ex = EinopsError /\ ((exists l, In l ls /\ forall e, ~ written_as U true true l e) \/ (forall e, ~ written_as U true false r e))) \/
       exists es e, Forall2 (written_as U true true) ls es /\ written_as U true false r e /\
         ((ex = NotImplementedError /\ exists i, In i (concat es ++ e) /\ item_entry i = None) \/
          (ex = RuntimeError /\ 52 < length (distinct (flat_map expr_names es))) \/
          (ex = EinopsError /\ ~ incl (expr_names e) (flat_map expr_names es)))).
  Proof.
    unfold compactify. intros H.
    assert (V : ex = ValueError -> (forall l r, str_split s_arrow pattern <> [l; r]) -> ex = ValueError /\ forall l r, arrow_free l -> arrow_free r -> pattern <> l ++ s_arrow ++ r).
    { intros -> Hs. split; [reflexivity|]. intros l r Hl Hr ->. apply (Hs l r). rewrite split_one_arrow, split_free by assumption. reflexivity. }
    apply bind_Err in H as [H|[u [_ H]]].
    { apply raise_if_Err in H as [H <-]. left. apply V; [reflexivity|]. intros l r E. rewrite (contains_arrow _ _ _ E) in H. discriminate. }
    destruct (str_split s_arrow pattern) as [|l [|r [|? ?]]] eqn:E;
      try (left; apply V; [congruence|intros; congruence]).
    right. clear V. exists (str_split s_comma l), r.
    destruct (proj1 (split_char c_comma l _) eq_refl) as (E1 & E2 & E3).
    split; [rewrite (split_two _ _ _ E); f_equal; exact E1|]. split; [exact E2|]. split; [exact E3|].
    apply bind_Err in H as [H|[[lefts next] [H1 H]]].
    { left. apply parse_all_err in H as [-> Hx]. auto. }
    apply bind_Err in H as [H|[[rght k2] [H2 H]]].
    { left. split; [eapply parse_expression_err; eauto|]. right. intros e He.
      assert (X : parse_expression U true false next r = Ok (compile next e)) by (apply (parse_expression_iff U HU); eauto). congruence. }
    apply (parse_all U HU) in H1 as (es & Hes & Est). injection Est as -> ->.
    apply (parse_expression_iff U HU) in H2 as (e & He & Ep).
    right. exists es, e. split; [exact Hes|]. split; [exact He|]. cbn [app] in H.
    apply bind_Err in H as [H|[[m strs] [H3 H]]].
    - change (@nil (pystr * N)) with (mapping []) in H. apply lefts_loop_err in H as [[-> (e' & i & Hi & Hi' & Ei)]|[-> Hl]]; [| |cbn; lia].
      + left. split; [reflexivity|]. exists i. split; [|exact Ei]. apply in_or_app. left. apply in_concat. eauto.
      + right. left. split; [reflexivity|exact Hl].
    - change (@nil (pystr * N)) with (mapping []) in H3. apply lefts_loop in H3 as (Ls & ELs & HLs & Em); [|cbn; lia].
      injection Em as -> ->. assert (Ec : p_composition rght = comps (snd (compile_all 0 es)) e) by (unfold compile in Ep; injection Ep as -> _; reflexivity).
      rewrite Ec in H. apply right_loop_err in H as [[-> (i & Hi & Ei)]|[-> (s & Hs & Hn)]]; [| |exact HLs].
      + left. split; [reflexivity|]. exists i. split; [apply in_or_app; right; exact Hi|exact Ei].
      + right. right. split; [reflexivity|]. intros Hi. apply Hn. apply add_names_In. right. apply Hi in Hs.
        assert (En : flat_map expr_names es = all_names Ls).
        { clear -ELs. revert Ls ELs. induction es as [|x es IH]; intros [|L Ls] H; try discriminate; [reflexivity|]. cbn in H. injection H as H1 H2.
          cbn. rewrite (names_of _ _ H1), (IH _ H2). reflexivity. }
        rewrite <- En. exact Hs.
  Qed.
End Compact.
