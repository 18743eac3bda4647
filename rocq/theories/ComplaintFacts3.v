(** * Facts: the messages of parse_shape and einsum are true *)
From Verif Require Import Py ListFacts Tensor SpecGrammar SpecForms SpecEinsum SpecPattern Parsing ParseFacts3 FrontFacts2 Compile Recipe Ops ParseLaws Einsum EinsumFacts EinsumFacts2 Messages MessageFacts Complaints SpecComplaints ComplaintFacts ComplaintFacts2.
From Verif Require SpecMessages MessageFacts2.

Lemma content_ones i a : In a (content i) -> is_one a = false.
Proof. unfold content. intros Ha. apply filter_In in Ha as [_ Ha]. destruct (is_one a); [discriminate|reflexivity]. Qed.
Lemma content_axes k i :
  match content i with
  | [] => comp_axes (item_comp k i) = []
  | [AName s] => comp_axes (item_comp k i) = [AxName s]
  | [ADots] => comp_axes (item_comp k i) = [ax_ellipsis]
  | [ANum n] => comp_axes (item_comp k i) = [AxAnon k n]
  | _ => exists x y z, comp_axes (item_comp k i) = x :: y :: z
  end.
Proof.
  rewrite item_axes. pose proof (content_ones i) as H. destruct (content i) as [|a [|b c]].
  - reflexivity.
  - specialize (H a (or_introl eq_refl)). destruct a as [s|n|]; cbn [atoms_axes atom_axes app]; try reflexivity. cbn in H. rewrite H. reflexivity.
  - assert (Ha := H a (or_introl eq_refl)). assert (Hb := H b (or_intror (or_introl eq_refl))).
    assert (L : exists x y z, atoms_axes k (a :: b :: c) = x :: y :: z).
    { cbn [atoms_axes]. destruct a as [s|n|], b as [s'|n'|]; cbn in Ha, Hb; cbn [atom_axes]; try rewrite Ha; try rewrite Hb; cbn; eauto. }
    destruct a; exact L.
Qed.
Lemma comps_nth e : forall k0 k c, nth_error (comps k0 e) k = Some c -> exists i k', nth_error e k = Some i /\ c = item_comp k' i.
Proof.
  induction e as [|i e IH]; intros k0 [|k] c H; try discriminate; cbn in H.
  - injection H as <-. exists i, k0. auto.
  - apply IH in H as (j & k' & H1 & H2). exists j, k'. auto.
Qed.
Lemma combine_nth_at {A B} (l : list A) (m : list B) : forall k a b, nth_error (combine l m) k = Some (a, b) -> nth_error l k = Some a /\ nth_error m k = Some b.
Proof.
  revert m. induction l as [|x l IH]; intros [|y m] [|k] a b H; try discriminate; cbn in H.
  - injection H as <- <-. auto.
  - exact (IH m k a b H).
Qed.

Section Shape.
  Context (U : unicode) (HU : unicode_ok U).

  Lemma dots_opened pattern e (shape : list Z) k : written_as U true false pattern e -> has_dots e = true -> find_cell (comps 0 e) = Some k ->
    firstn k (comps 0 e) ++ repeat underscore (length shape + 1 - length e) ++ skipn (S k) (comps 0 e) = comps 0 (opened e (length shape)).
  Proof.
    intros He Hd Hk. assert (Hin := proj1 (has_dots_In e) Hd).
    destruct (find_cell_comps 0 e) as [Hf|[a [i [b [-> [Hi Hf]]]]]]; [congruence|]. rewrite Hf in Hk. injection Hk as <-.
    destruct (once_split U pattern _ a i b He eq_refl Hi) as [K1 K2].
    assert (Hi' : i = ADots).
    { destruct i as [s|z|]; [|discriminate|reflexivity]; exfalso. unfold atoms in Hin; rewrite flat_map_app in Hin; apply in_app_or in Hin as [H|H];
         [exact (no_key_dots a K1 H)|]; cbn in H; destruct H as [H|H]; [discriminate|exact (no_key_dots b K2 H)]. }
    subst i. set (m := length shape + 1 - length (a ++ Atom ADots :: b)).
    assert (Eo : opened (a ++ Atom ADots :: b) (length shape) = a ++ repeat skip m ++ b) by
        (unfold opened; rewrite flat_map_app; cbn [flat_map]; rewrite !opened_id by (apply no_dots_item, no_key_dots; assumption); reflexivity).
    rewrite Eo, !comps_app. rewrite <- (comps_length a 0) at 1. rewrite firstn_app, firstn_all, Nat.sub_diag. cbn [firstn].
    rewrite app_nil_r; f_equal; rewrite comps_skips; f_equal;
         rewrite skipn_app, skipn_all2 by (rewrite comps_length; lia); rewrite comps_length;
         replace (S (length a) - length a) with 1 by lia; cbn [app comps skipn]; f_equal;
         assert (Z : nbig (atoms (repeat skip m)) = 0) by (clear; induction m; [reflexivity|exact IHm]); rewrite Z; cbn; lia.
  Qed.

  Lemma shape_true pattern shape c : parse_shape_told U shape pattern = Says c -> true_of_shape U pattern shape c.
  Proof.
    unfold parse_shape_told. intros H. apply and_if_Says in H as [H|[[exp k] [E1 H]]].
    { destruct (parse_expression_msg U true false 0 pattern) as [x|m|x] eqn:E; try discriminate. injection H as <-. exact (proj2 (MessageFacts2.parse_true U true false 0 pattern m HU E)). }
    assert (Ep : parse_expression U true false 0 pattern = Ok (exp, k)) by (rewrite <- plain_parse, <- told_parsing, E1; reflexivity).
    apply (parse_expression_iff U HU) in Ep as (e & He & Ep). unfold compile in Ep. injection Ep as -> ->. cbn [p_composition p_has_ellipsis] in H. unfold has_composed_axes in H. cbn [p_composition] in H.
    rewrite comps_length in H. apply and_if_Says in H as [H|[u [E2 H]]].
    { apply says_if_Says in H as [H ->]. exists e. split; [exact He|]. split; [reflexivity|].
      assert (X : exists i, In i e /\ ~ length (content i) <= 1).
      { assert (D : (forall i, In i e -> length (content i) <= 1) \/ exists i, In i e /\ ~ length (content i) <= 1).
        { clear. induction e as [|i e IH]; [left; intros i []|]. destruct (le_dec (length (content i)) 1) as [L|L]; [|right; exists i; split; [left; reflexivity|exact L]].
          destruct IH as [IH|(j & Hj & Lj)]; [left; intros j [<-|Hj]; auto|right; exists j; split; [right; exact Hj|exact Lj]]. }
        destruct D as [D|D]; [|exact D]. apply (composed_iff 0) in D. congruence. }
      destruct X as (i & Hi & Li). exists i. split; [exact Hi|lia]. }
    clear E2. cbv zeta in H. apply and_if_Says in H as [H|[u2 [E3 H]]].
    { destruct (length shape =? length e) eqn:El; [discriminate|]. apply Nat.eqb_neq in El. destruct (has_dots e) eqn:Hd.
      - apply says_if_Says in H as [H ->]. apply Nat.ltb_lt in H. exists e. auto.
      - injection H as <-. exists e. auto. }
    apply and_if_Says in H as [H|[cs [E4 H]]].
    { destruct (has_dots e); [|discriminate]. apply and_if_Says in H as [H|[k2 [_ H]]]; [destruct (quiet_Says _ _ H)|discriminate]. }
    assert (Ec : cs = comps 0 (opened e (length shape))).
    { destruct (has_dots e) eqn:Hd.
      - destruct (find_cell (comps 0 e)) as [k2|] eqn:Ef; [|discriminate]. cbn [of_option quiet and_if] in E4. injection E4 as <-. exact (dots_opened pattern e shape k2 He Hd Ef).
      - injection E4 as <-. unfold opened. rewrite opened_id; [reflexivity|]. apply no_dots_item. rewrite <- has_dots_In. congruence. }
    subst cs. apply foldT_Says in H as (l1 & [cm d] & l2 & acc & El & _ & H).
    assert (Hn : nth_error (combine (comps 0 (opened e (length shape))) shape) (length l1) = Some (cm, d)) by (rewrite El, nth_error_app2, Nat.sub_diag by lia; reflexivity).
    apply combine_nth_at in Hn as [Hn Hd]. apply comps_nth in Hn as (i & k' & Hi & ->).
    pose proof (content_axes k' i) as Hc. unfold cell_step_msg, cell_axes in H.
    destruct (content i) as [|[s|n|] [|b l]] eqn:Ei; try (destruct Hc as (x & y & z & Hc)); rewrite Hc in H; try discriminate.
    - destruct (Z.eqb_spec d 1) as [E|E]; [discriminate|]. injection H as <-. exists e. split; [exact He|]. split; [reflexivity|]. exists (length l1), i, d. auto.
    - destruct (str_eqb s [c_under]); discriminate.
    - destruct x; discriminate.
    - destruct (Z.eqb_spec n d) as [E|E]; [discriminate|]. injection H as <-. exists e. split; [exact He|]. split; [reflexivity|]. exists (length l1), i, d, n. auto.
    - destruct x; discriminate.
    - destruct x; discriminate.
  Qed.

  Definition axis_claim (i : item) (c : complaint) : Prop :=
    match c with
    | Singleton => content i = []
    | Composed => 2 <= length (content i)
    | Anonymous => exists n, content i = [ANum n]
    | _ => False
    end.
  Lemma axis_true k i c : named_comp (item_comp k i) -> einsum_axis_msg (item_comp k i) = Says c -> axis_claim i c.
  Proof.
    intros Hn H. pose proof (content_axes k i) as Hc. destruct (item_comp k i) as [|l] eqn:E; [discriminate|]. cbn [comp_axes] in Hc.
    destruct (content i) as [|[s|n|] [|b r]] eqn:Ei; try (destruct Hc as (x & y & z & Hc)); subst l; cbn [einsum_axis_msg] in H;
      try (destruct x; injection H as <-; cbn [axis_claim]; rewrite Ei; cbn; lia).
    - injection H as <-. exact Ei.
    - destruct s as [|q s]; [destruct (Hn [] eq_refl eq_refl)|discriminate].
    - injection H as <-. exists n. exact Ei.
    - discriminate.
  Qed.

  Lemma comps_In e k c : In c (comps k e) -> exists i k', In i e /\ c = item_comp k' i.
  Proof. intros H. apply In_nth_error in H as [n H]. apply comps_nth in H as (i & k' & H & ->). exists i, k'. split; [exact (nth_error_In _ _ H)|reflexivity]. Qed.
  Lemma compile_all_In es : forall k p, In p (fst (compile_all k es)) -> exists e k', In e es /\ p_composition p = comps k' e.
  Proof.
    induction es as [|e es IH]; intros k p H; [destruct H|]. cbn [compile_all] in H. destruct (compile k e) as [p1 k1] eqn:E. specialize (IH k1).
    destruct (compile_all k1 es) as [ps k2]. cbn [fst] in *. destruct H as [<-|H].
    - exists e, k. split; [left; reflexivity|]. unfold compile in E. injection E as <- _. reflexivity.
    - apply IH in H as (e' & k' & He & Hp). exists e', k'. split; [right; exact He|exact Hp].
  Qed.

  Lemma compactify_true pattern c : compactify_told U pattern = Says c -> true_of_einsum U pattern c.
  Proof.
    intros H0. pose proof (told_compactify U pattern HU) as HT. rewrite H0 in HT. cbn [plain_told] in HT. symmetry in HT.
    pose proof H0 as H. unfold compactify_told in H. apply and_if_Says in H as [H|[u [E0 H]]].
    { apply says_if_Says in H as [H ->]. cbn [true_of_einsum]. intros l r E. apply negb_true_iff in H. assert (X : str_contains s_arrow pattern = true) by (apply str_contains_spec; eauto). congruence. }
    destruct (str_split s_arrow pattern) as [|l [|r [|? ?]]] eqn:Es; try discriminate.
    destruct (proj1 (split_char c_comma l _) eq_refl) as (S1 & S2 & S3).
    assert (Ep : pattern = str_join s_comma (str_split s_comma l) ++ s_arrow ++ r) by (rewrite (split_two _ _ _ Es); f_equal; exact S1).
    apply and_if_Says in H as [H|[[lefts next] [H1 H]]].
    { apply foldT_Says in H as (l1 & s & l2 & [ps nx] & El & _ & H). apply and_if_Says in H as [H|[[p nx'] [_ H]]]; [|discriminate].
      destruct (parse_expression_msg U true true nx s) as [x|m|x] eqn:Em; try discriminate. injection H as <-.
      exists (str_split s_comma l), r. split; [exact Ep|]. split; [exact S2|]. left. exists s. split; [rewrite El; apply in_or_app; right; left; reflexivity|].
      exact (proj2 (MessageFacts2.parse_true U true true nx s m HU Em)). }
    apply and_if_Says in H as [H|[[rght k2] [H2 H]]].
    { destruct (parse_expression_msg U true false next r) as [x|m|x] eqn:Em; try discriminate. injection H as <-.
      exists (str_split s_comma l), r. split; [exact Ep|]. split; [exact S2|]. right. exact (proj2 (MessageFacts2.parse_true U true false next r m HU Em)). }
    assert (P1 := told_parse_all U (str_split s_comma l) [] 0). rewrite H1 in P1. cbn [plain_told] in P1. symmetry in P1.
    apply (parse_all U HU) in P1 as (es & Hes & Est). injection Est as -> ->.
    assert (P2 : parse_expression U true false (snd (compile_all 0 es)) r = Ok (rght, k2)) by (rewrite <- plain_parse, <- told_parsing, H2; reflexivity).
    apply (parse_expression_iff U HU) in P2 as (e & He & Er).
    assert (Ec : p_composition rght = comps (snd (compile_all 0 es)) e) by (unfold compile in Er; injection Er as -> _; reflexivity).
    cbn [app] in H. pose proof (compile_all_named U _ es Hes 0) as Hnl. rewrite Forall_forall in Hnl.
    pose proof (written_named U true false r e (snd (compile_all 0 es)) He) as Hnr. rewrite Forall_forall in Hnr.
    assert (G : (exists i, In i (concat es ++ e) /\ axis_claim i c) \/ (exists x, c = UnknownAxis x /\ In x (expr_names e) /\ ~ In x (flat_map expr_names es)) \/ c = ManyAxes).
    { apply and_if_Says in H as [H|[[mp strs] [H3 H]]].
      - apply foldT_Says in H as (l1 & lft & l2 & [mp strs] & El & _ & H). unfold left_step_msg in H.
        assert (Hin : In lft (fst (compile_all 0 es))) by (rewrite El; apply in_or_app; right; left; reflexivity).
        destruct (compile_all_In es 0 lft Hin) as (e' & k' & He' & Ecl).
        apply and_if_Says in H as [H|[[mp' lp] [_ H]]]; [|discriminate]. specialize (Hnl lft Hin). rewrite Ecl in H, Hnl. rewrite Forall_forall in Hnl.
        apply foldT_Says in H as (m1 & cm & m2 & [mp1 lp1] & Em & _ & H). assert (Hcm : In cm (comps k' e')) by (rewrite Em; apply in_or_app; right; left; reflexivity).
        specialize (Hnl cm Hcm). destruct (comps_In e' k' cm Hcm) as (i & k'' & Hi & ->). unfold left_axis_step_msg in H.
        apply and_if_Says in H as [H|[[s|] [_ H]]]; [| |discriminate].
        + left. exists i. split; [apply in_or_app; left; apply in_concat; exists e'; auto|]. exact (axis_true k'' i c Hnl H).
        + apply and_if_Says in H as [H|[mp2 [_ H]]]; [|apply and_if_Says in H as [H|[x [_ H]]]; [destruct (quiet_Says _ _ H)|discriminate]].
          destruct (dict_has str_eqb s mp1); [discriminate|]. destruct (nth_error ascii_letters (length mp1)); [discriminate|]. injection H as <-. auto.
      - rewrite Ec in H. apply foldT_Says in H as (m1 & cm & m2 & str & Em & _ & H).
        assert (Hcm : In cm (comps (snd (compile_all 0 es)) e)) by (rewrite Em; apply in_or_app; right; left; reflexivity).
        specialize (Hnr cm Hcm). destruct (comps_In e _ cm Hcm) as (i & k'' & Hi & ->). unfold right_axis_step_msg in H.
        apply and_if_Says in H as [H|[[s|] [Ea H]]]; [| |discriminate].
        + left. exists i. split; [apply in_or_app; right; exact Hi|]. exact (axis_true k'' i c Hnr H).
        + destruct (dict_get str_eqb s mp) eqn:Eg; [discriminate|]. injection H as <-. right. left. exists s. split; [reflexivity|].
          pose proof (told_axis _ Hnr) as Hx. rewrite Ea in Hx. cbn [plain_told] in Hx. rewrite einsum_axis_item in Hx.
          assert (Ei : item_entry i = Some (EName s)) by (destruct (item_entry i) as [[s'|]|]; try discriminate; injection Hx as ->; reflexivity).
          split; [apply in_flat_map; exists i; split; [exact Hi|unfold item_names; rewrite Ei; left; reflexivity]|].
          assert (P3 : foldM left_step (fst (compile_all 0 es)) (mapping [], []) = Ok (mp, strs)).
          { change (mapping []) with (@nil (pystr * N)). rewrite <- (foldM_ext_all (fun a b => plain_told (left_step_msg a b)) left_step) by (intros a b Hb; apply told_left; exact (Hnl b Hb)).
            rewrite <- told_fold, H3. reflexivity. }
          apply lefts_loop in P3 as (Ls & ELs & HLs & Emp); [|cbn; lia]. injection Emp as -> _. rewrite mapping_get in Eg by exact HLs.
          destruct (str_mem s (add_names [] (all_names Ls))) eqn:Emm; [discriminate|]. intros Hs.
          assert (En : flat_map expr_names es = all_names Ls).
          { clear -ELs. revert Ls ELs. induction es as [|x es IH]; intros [|L Ls] H; try discriminate; [reflexivity|]. cbn in H. injection H as H1 H2.
            cbn. rewrite (names_of _ _ H1), (IH _ H2). reflexivity. }
          rewrite En in Hs. assert (X : str_mem s (add_names [] (all_names Ls)) = true); [|congruence].
          apply str_mem_In'. apply add_names_In. right. exact Hs. }
    destruct G as [(i & Hi & G)|[(x & -> & Hx & Hn)| -> ]].
    - destruct c; try contradiction; exists (str_split s_comma l), r; (split; [exact Ep|]); (split; [exact S2|]); exists es, e; (split; [exact Hes|]); (split; [exact He|]).
      + exists i. auto.
      + exists i. auto.
      + destruct G as [n G]. exists i, n. auto.
    - exists (str_split s_comma l), r; (split; [exact Ep|]); (split; [exact S2|]); exists es, e; (split; [exact Hes|]); (split; [exact He|]). auto.
    - apply (compactify_err U HU) in HT as [[Hq _]|(ls & r' & Ep' & Hl & _ & [[Hq _]|(es' & e'' & W1 & W2 & [[Hq _]|[[_ W]|[Hq _]]])])]; try discriminate.
      exists ls, r'. split; [exact Ep'|]. split; [exact Hl|]. exists es', e''. auto.
  Qed.
End Shape.

Lemma einsum_true {T} U (lib : pystr -> list T -> result T) args c : unicode_ok U -> einsum_told U lib args = Says c ->
  match c with
  | FewArguments => length args < 2
  | LastNotText => exists ts x, ts <> [] /\ args = ts ++ [inl x]
  | _ => exists ts p, ts <> [] /\ args = ts ++ [inr p] /\ true_of_einsum U p c
  end.
Proof.
  intros HU H. unfold einsum_told in H. apply and_if_Says in H as [H|[u [E H]]].
  { apply says_if_Says in H as [H ->]. apply Nat.leb_le in H. lia. }
  assert (L : 1 < length args) by (unfold says_if in E; destruct (length args <=? 1) eqn:El; [discriminate|apply Nat.leb_gt in El; exact El]).
  assert (Ea : args = removelast args ++ [last args (inr [])]) by (apply app_removelast_last; intros ->; cbn in L; lia).
  assert (Hr : removelast args <> []) by (intros Er; rewrite Er in Ea; rewrite Ea in L; cbn in L; lia).
  destruct (last args (inr [])) as [x|p] eqn:El.
  - injection H as <-. eauto.
  - cbv zeta in H. apply and_if_Says in H as [H|[cp [_ H]]].
    + apply (compactify_true U HU) in H. assert (X : exists ts q, ts <> [] /\ args = ts ++ [inr q] /\ true_of_einsum U q c) by (exists (removelast args), p; auto).
      destruct c; try exact X; exfalso; destruct H as (ls & r & _ & _ & es & e & _ & _ & []).
    + destruct (removelast args) as [|[t|s] l]; try discriminate; apply and_if_Says in H as [H|[ts [_ H]]]; destruct (quiet_Says _ _ H).
Qed.
