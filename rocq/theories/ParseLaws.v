(** * Spaces and trivial parentheses; parse_shape *)
From Verif Require Import Py ListFacts Tensor TensorFacts StepFacts SpecSem SpecGrammar SpecForms SpecPattern SpecOps Parsing Compile Recipe Ops Backends Api ParseFacts ParseFacts2 ParseFacts3 RecipeFacts FrontFacts2 ApiFacts.

(** ** spaces *)
Lemma lex_space_right cur a c b : is_sep c = true -> lex cur (a ++ c_space :: c :: b) = lex cur (a ++ c :: b).
Proof.
  intros Hc. revert cur. induction a as [|d a IH]; intros cur.
  - cbn [app lex]. rewrite Hc. assert (E : is_sep c_space = true) by reflexivity. rewrite E.
    cbn. reflexivity.
  - cbn [app lex]. destruct (is_sep d); rewrite IH; reflexivity.
Qed.
Lemma lex_space_end cur a : lex cur (a ++ [c_space]) = lex cur a.
Proof.
  revert cur. induction a as [|d a IH]; intros cur.
  - cbn. rewrite app_nil_r. reflexivity.
  - cbn [app lex]. destruct (is_sep d); rewrite IH; reflexivity.
Qed.
Lemma lex_space_left cur a c b : is_sep c = true -> lex cur (a ++ c :: c_space :: b) = lex cur (a ++ c :: b).
Proof.
  intros Hc. revert cur. induction a as [|d a IH]; intros cur.
  - cbn [app lex]. rewrite Hc. reflexivity.
  - cbn [app lex]. destruct (is_sep d); rewrite IH; reflexivity.
Qed.

Lemma redundant_lex a b : redundant_between a b -> lex None (a ++ c_space :: b) = lex None (a ++ b).
Proof.
  intros [->|[->|[[a' [c [-> Hc]]]|[c [b' [-> Hc]]]]]].
  - reflexivity.
  - rewrite lex_space_end, app_nil_r. reflexivity.
  - apply is_sep_spec in Hc. rewrite <- !app_assoc. cbn [app]. apply lex_space_left; auto.
  - apply is_sep_spec in Hc. apply lex_space_right; auto.
Qed.

Lemma same_words_lex s s' : same_words s s' <-> lex None s = lex None s'.
Proof.
  unfold same_words. split.
  - intros [ts [H1 H2]]. apply spells_iff in H1. apply spells_iff in H2. congruence.
  - intros E. exists (lex None s). split; apply spells_iff; auto.
Qed.

Lemma redundant_words a b : redundant_between a b -> same_words (a ++ c_space :: b) (a ++ b).
Proof. intros H. apply same_words_lex, redundant_lex; auto. Qed.

Lemma same_words_written U au ad s s' e : same_words s s' -> written_as U au ad s e -> written_as U au ad s' e.
Proof.
  intros H [ts [H1 [H2 H3]]]. apply same_words_lex in H. exists ts. split; [|auto].
  apply spells_iff in H1. apply spells_iff. congruence.
Qed.

Lemma same_words_sym s s' : same_words s s' -> same_words s' s.
Proof. intros [ts [H1 H2]]. exists ts; auto. Qed.

(** two strings are parsed alike *)
Lemma parse_same U au ad k s s' : unicode_ok U ->
  (forall e, written_as U au ad s e -> exists e', written_as U au ad s' e' /\ compile k e = compile k e') ->
  (forall e, written_as U au ad s' e -> exists e', written_as U au ad s e' /\ compile k e = compile k e') ->
  parse_expression U au ad k s = parse_expression U au ad k s'.
Proof.
  intros HU H1 H2. destruct (parse_expression U au ad k s) as [p|e1] eqn:E1.
  - apply (parse_expression_iff U HU) in E1 as [e [He ->]]. destruct (H1 e He) as [e' [He' E]].
    symmetry. apply (parse_expression_iff U HU). exists e'. auto.
  - destruct (parse_expression U au ad k s') as [p|e2] eqn:E2.
    + apply (parse_expression_iff U HU) in E2 as [e [He ->]]. destruct (H2 e He) as [e' [He' E]].
      assert (X : parse_expression U au ad k s = Ok (compile k e)) by (apply (parse_expression_iff U HU); exists e'; auto).
      congruence.
    + apply parse_expression_err in E1. apply parse_expression_err in E2. congruence.
Qed.

Lemma same_words_parse U au ad k s s' : unicode_ok U -> same_words s s' ->
  parse_expression U au ad k s = parse_expression U au ad k s'.
Proof.
  intros HU H. apply parse_same; auto; intros e He; exists e; (split; [|reflexivity]).
  - eapply same_words_written; eauto.
  - eapply same_words_written; [|eauto]. apply same_words_sym; auto.
Qed.

(** ** trivial parentheses *)
Lemma one_not_big a : is_one a = true -> is_big a = false /\ is_ell a = false /\ (forall k, atom_axes k a = []) /\ is_dots a = false.
Proof. destruct a; cbn; try discriminate. intros ->. auto. Qed.
Lemma nbig_ones l : nbig (filter (fun a => negb (is_one a)) l) = nbig l.
Proof.
  unfold nbig. induction l as [|a l IH]; [reflexivity|]. cbn [filter]. destruct (is_one a) eqn:E; cbn [negb].
  - rewrite IH. apply one_not_big in E as [E _]. cbn [filter]. rewrite E. reflexivity.
  - cbn [filter]. destruct (is_big a); cbn [length]; rewrite IH; reflexivity.
Qed.
Lemma axes_ones l : forall k, atoms_axes k (filter (fun a => negb (is_one a)) l) = atoms_axes k l.
Proof.
  induction l as [|a l IH]; intros k; [reflexivity|]. cbn [filter]. destruct (is_one a) eqn:E; cbn [negb atoms_axes].
  - apply one_not_big in E as [E1 [_ [E2 _]]]. rewrite IH, E2. unfold nbig. cbn [filter]. rewrite E1. cbn. rewrite Nat.add_0_r. reflexivity.
  - rewrite IH. reflexivity.
Qed.
Lemma existsb_ones (p : atom -> bool) l : (forall a, is_one a = true -> p a = false) ->
  existsb p (filter (fun a => negb (is_one a)) l) = existsb p l.
Proof.
  intros H. induction l as [|a l IH]; [reflexivity|]. cbn [filter]. destruct (is_one a) eqn:E; cbn [negb existsb].
  - rewrite IH, (H a E). reflexivity.
  - rewrite IH. reflexivity.
Qed.
Lemma ell_name_eqb s : str_eqb s ell_name = true -> s = ell_name.
Proof. apply str_eqb_eq. Qed.

Lemma simple_comp k i : item_comp k (simple_item i) = item_comp k i.
Proof.
  destruct i as [[s|n|]|l]; cbn [simple_item item_comp is_ell]; try reflexivity.
  - destruct (str_eqb s ell_name) eqn:E; cbn [item_comp is_ell]; rewrite ?E; reflexivity.
  - destruct (n =? 1)%Z eqn:E; cbn [item_comp atoms_axes atom_axes]; rewrite ?E; reflexivity.
  - rewrite axes_ones. reflexivity.
Qed.
Lemma simple_nbig i : nbig (item_atoms (simple_item i)) = nbig (item_atoms i).
Proof.
  destruct i as [[s|n|]|l]; cbn [simple_item item_atoms]; try reflexivity.
  - destruct (str_eqb s ell_name); reflexivity.
  - unfold nbig. destruct (n =? 1)%Z eqn:E; cbn; rewrite E; reflexivity.
  - apply nbig_ones.
Qed.
Lemma simple_exists (p : atom -> bool) i : (forall a, is_one a = true -> p a = false) ->
  existsb p (item_atoms (simple_item i)) = existsb p (item_atoms i).
Proof.
  intros H. destruct i as [[s|n|]|l]; cbn [simple_item item_atoms]; try reflexivity.
  - destruct (str_eqb s ell_name); reflexivity.
  - destruct (n =? 1)%Z eqn:E; cbn; try reflexivity. rewrite H by exact E. reflexivity.
  - apply existsb_ones; auto.
Qed.
Lemma simple_par acc i : ell_par_step acc (simple_item i) = ell_par_step acc i.
Proof.
  destruct i as [[s|n|]|l]; cbn [simple_item ell_par_step is_ell]; try reflexivity.
  - destruct (str_eqb s ell_name) eqn:E; cbn [ell_par_step is_ell existsb]; rewrite ?E; reflexivity.
  - destruct (n =? 1)%Z; reflexivity.
  - rewrite existsb_ones; [reflexivity|]. intros a Ha. apply one_not_big in Ha; tauto.
Qed.
Lemma simple_comps e : forall k, comps k (simple e) = comps k e.
Proof.
  induction e as [|i e IH]; intros k; [reflexivity|]. cbn [simple map comps]. rewrite simple_comp, simple_nbig.
  f_equal. apply IH.
Qed.
Lemma simple_any (p : atom -> bool) e : (forall a, is_one a = true -> p a = false) -> existsb p (atoms (simple e)) = existsb p (atoms e).
Proof.
  intros H. unfold atoms, simple. induction e as [|i e IH]; [reflexivity|]. cbn [map flat_map].
  rewrite !existsb_app, IH, simple_exists; auto.
Qed.
Lemma simple_count e : nbig (atoms (simple e)) = nbig (atoms e).
Proof.
  unfold atoms, simple. induction e as [|i e IH]; [reflexivity|]. cbn [map flat_map].
  unfold nbig in *. rewrite !filter_app, !app_length, IH. f_equal. apply simple_nbig.
Qed.
Lemma simple_ell e : forall acc, fold_left ell_par_step (simple e) acc = fold_left ell_par_step e acc.
Proof. induction e as [|i e IH]; intros acc; [reflexivity|]. cbn [simple map fold_left]. rewrite simple_par. apply IH. Qed.

Lemma compile_simple k e : compile k (simple e) = compile k e.
Proof.
  unfold compile. rewrite simple_comps, simple_ell, simple_count.
  unfold has_dots, has_numbers. rewrite !simple_any; [reflexivity| |]; intros a Ha; apply one_not_big in Ha; tauto.
Qed.

Lemma simple_parse U au ad k s s' e e' : unicode_ok U -> written_as U au ad s e -> written_as U au ad s' e' ->
  simple e = simple e' -> parse_expression U au ad k s = parse_expression U au ad k s'.
Proof.
  intros HU H1 H2 E.
  assert (C : compile k e = compile k e') by (rewrite <- (compile_simple k e), <- (compile_simple k e'), E; reflexivity).
  transitivity (Ok (compile k e)); [|symmetry]; apply (parse_expression_iff U HU); [exists e|exists e']; auto.
Qed.

(** ** calls with the same parsed sides *)
Lemma prepare_same U o op names n l r l' r' :
  no_arrow l -> no_arrow r -> no_arrow l' -> no_arrow r' ->
  (forall k, parse_expression U false false k l = parse_expression U false false k l') ->
  (forall k, parse_expression U false false k r = parse_expression U false false k r') ->
  prepare_recipe U o (l ++ lit "->" ++ r) op names n = prepare_recipe U o (l' ++ lit "->" ++ r') op names n.
Proof.
  intros H1 H2 H3 H4 El Er. apply no_arrow_free in H1. apply no_arrow_free in H2. apply no_arrow_free in H3. apply no_arrow_free in H4.
  unfold prepare_recipe. change (lit "->") with s_arrow.
  rewrite !split_one_arrow, !split_free by assumption. rewrite El.
  destruct (parse_expression U false false 0 l') as [[p k]|ex]; cbn [bind]; [|reflexivity].
  rewrite Er. reflexivity.
Qed.

Section Calls.
  Context {A : Type} (r : runtime A) (Hok : runtime_ok r).
  Lemma calls_same l q l' q' : no_arrow l -> no_arrow q -> no_arrow l' -> no_arrow q' ->
    (forall k, parse_expression (rt_unicode r) false false k l = parse_expression (rt_unicode r) false false k l') ->
    (forall k, parse_expression (rt_unicode r) false false k q = parse_expression (rt_unicode r) false false k q') ->
    let p := l ++ lit "->" ++ q in let p' := l' ++ lit "->" ++ q' in
    forall (x : input (tensor A)) sizes,
      rearrange r x p sizes = rearrange r x p' sizes /\
      repeat_ r x p sizes = repeat_ r x p' sizes /\
      (forall red, reduce r x p red sizes = reduce r x p' red sizes) /\
      xp_rearrange r x p sizes = xp_rearrange r x p' sizes /\
      xp_repeat r x p sizes = xp_repeat r x p' sizes /\
      (forall red, xp_reduce_ r x p red sizes = xp_reduce_ r x p' red sizes).
  Proof.
    intros H1 H2 H3 H4 El Eq p p' x sizes.
    assert (G : forall o op names n, prepare_recipe (rt_unicode r) o p op names n = prepare_recipe (rt_unicode r) o p' op names n).
    { intros. apply prepare_same; auto. }
    assert (Ga : forall red, reduce r x p red sizes = reduce r x p' red sizes).
    { intros red. unfold reduce, api_reduce. destruct (check_kwargs _ _); cbn [bind]; [|reflexivity].
      destruct (stack_input _ _); cbn [bind]; [|reflexivity]. rewrite G. reflexivity. }
    assert (Gb : forall red, xp_reduce_ r x p red sizes = xp_reduce_ r x p' red sizes).
    { intros red. unfold xp_reduce_, aa_reduce. destruct (check_kwargs _ _); cbn [bind]; [|reflexivity].
      match goal with |- (let* tensor := ?m in _) = _ => destruct m; cbn [bind]; [|reflexivity] end. rewrite G. reflexivity. }
    repeat split; intros; solve [apply Ga|apply Gb].
  Qed.

  Lemma calls_simple p p' L R L' R' : reads (rt_unicode r) p L R -> reads (rt_unicode r) p' L' R' ->
    simple L = simple L' -> simple R = simple R' ->
    forall (x : input (tensor A)) sizes,
      rearrange r x p sizes = rearrange r x p' sizes /\
      repeat_ r x p sizes = repeat_ r x p' sizes /\
      (forall red, reduce r x p red sizes = reduce r x p' red sizes) /\
      xp_rearrange r x p sizes = xp_rearrange r x p' sizes /\
      xp_repeat r x p sizes = xp_repeat r x p' sizes /\
      (forall red, xp_reduce_ r x p red sizes = xp_reduce_ r x p' red sizes).
  Proof.
    intros [l [q [-> [H1 H2]]]] [l' [q' [-> [H1' H2']]]] El Er.
    pose proof (ro_unicode r Hok) as HU.
    apply calls_same; try (apply no_arrow_free, no_minus_free; eapply (minus_free (rt_unicode r) HU); eassumption).
    - intros k. exact (simple_parse _ _ _ k _ _ _ _ HU H1 H1' El).
    - intros k. exact (simple_parse _ _ _ k _ _ _ _ HU H2 H2' Er).
  Qed.

  Lemma calls_words l q l' q' : no_arrow l -> no_arrow q -> no_arrow l' -> no_arrow q' ->
    same_words l l' -> same_words q q' ->
    let p := l ++ lit "->" ++ q in let p' := l' ++ lit "->" ++ q' in
    forall (x : input (tensor A)) sizes,
      rearrange r x p sizes = rearrange r x p' sizes /\
      repeat_ r x p sizes = repeat_ r x p' sizes /\
      (forall red, reduce r x p red sizes = reduce r x p' red sizes) /\
      xp_rearrange r x p sizes = xp_rearrange r x p' sizes /\
      xp_repeat r x p sizes = xp_repeat r x p' sizes /\
      (forall red, xp_reduce_ r x p red sizes = xp_reduce_ r x p' red sizes).
  Proof.
    intros H1 H2 H3 H4 El Eq. apply calls_same; auto; intros k; apply same_words_parse; auto; apply (ro_unicode r Hok).
  Qed.
End Calls.

(** ** parse_shape *)
Definition cell_step (result : list (pystr * Z)) (cl : comp * Z) : Py.result (list (pystr * Z)) :=
  let '(c, axis_length) := cl in
  match cell_axes c with
  | [] => if (axis_length =? 1)%Z then Ok result else Err RuntimeError
  | [AxName s] => if str_eqb s [c_under] then Ok result else Ok (dict_set str_eqb s axis_length result)
  | [AxAnon _ v] => if (v =? axis_length)%Z then Ok result else Err RuntimeError
  | _ => Err ValueError
  end.

Lemma content_atom_axes l k : length (atoms_axes k (filter (fun a => negb (is_one a)) l)) = length (filter (fun a => negb (is_one a)) l).
Proof.
  revert k. induction l as [|a l IH]; intros k; [reflexivity|]. cbn [filter]. destruct (is_one a) eqn:E; cbn [negb]; [apply IH|].
  cbn [atoms_axes length]. rewrite app_length, IH. destruct a as [s|n|]; cbn [atom_axes]; try reflexivity.
  cbn in E. rewrite E. reflexivity.
Qed.
Lemma item_axes k i : comp_axes (item_comp k i) = atoms_axes k (content i).
Proof.
  unfold content. rewrite axes_ones. destruct i as [a|l].
  - rewrite comp_axes_atom. cbn. rewrite app_nil_r. reflexivity.
  - reflexivity.
Qed.

Lemma composed_iff k e : existsb (fun c => match c with CGrp l => 1 <? length l | CEll => false end) (comps k e) = false <->
  forall i, In i e -> length (content i) <= 1.
Proof.
  revert k. induction e as [|i e IH]; intros k.
  - split; [intros _ i []|reflexivity].
  - cbn [comps existsb]. rewrite orb_false_iff, IH. clear IH.
    assert (G : match item_comp k i with CGrp l => 1 <? length l | CEll => false end = false <-> length (content i) <= 1).
    { pose proof (item_axes k i) as E. pose proof (content_atom_axes (item_atoms i) k) as E2. fold (content i) in E2.
      destruct (item_comp k i) as [|l] eqn:Ei.
      - cbn [comp_axes] in E. rewrite <- E in E2. cbn in E2. split; [lia|reflexivity].
      - cbn [comp_axes] in E. rewrite <- E in E2. rewrite Nat.ltb_ge. lia. }
    rewrite G. split.
    + intros [H1 H2] j [<-|H]; auto.
    + intros H. split; [apply H; left; auto|]. intros j Hj. apply H; right; auto.
Qed.

Definition shape_names (l : expr) : list pystr := filter (fun s => negb (str_eqb s [c_under])) (keys l).

Lemma dict_set_new {V} (d : list (pystr * V)) s v : ~ In s (map fst d) -> dict_set str_eqb s v d = d ++ [(s, v)].
Proof.
  induction d as [|[s' v'] d IH]; intros H; [reflexivity|]. cbn [dict_set]. cbn [map fst In] in H.
  destruct (str_eqb s s') eqn:E; [apply str_eqb_eq in E; subst; tauto|]. rewrite IH by tauto. reflexivity.
Qed.

Lemma step_item acc k i d : length (content i) <= 1 -> ~ In ADots (item_atoms i) ->
  (forall s, content i = [AName s] -> s <> [c_under] -> ~ In s (map fst acc)) ->
  (describes i d /\ cell_step acc (item_comp k i, d) = Ok (acc ++ named i d)) \/
  (~ describes i d /\ cell_step acc (item_comp k i, d) = Err RuntimeError).
Proof.
  intros Hl Hd Hn. unfold cell_step, cell_axes. rewrite item_axes. unfold describes, named.
  destruct (content i) as [|a [|b l]] eqn:E; cbn [length] in Hl; [| |lia].
  - cbn. destruct (d =? 1)%Z eqn:Ed; [apply Z.eqb_eq in Ed|apply Z.eqb_neq in Ed].
    + left. split; auto. rewrite app_nil_r. reflexivity.
    + right. auto.
  - assert (Ha : In a (filter (fun a => negb (is_one a)) (item_atoms i))) by (unfold content in E; rewrite E; left; auto).
    apply filter_In in Ha as [Ha1 Ha2]. apply negb_true_iff in Ha2.
    destruct a as [s|n|].
    + left. split; auto. cbn. destruct (str_eqb s [c_under]) eqn:Es; [rewrite app_nil_r; reflexivity|].
      rewrite dict_set_new; [reflexivity|]. apply Hn; auto. intros ->. rewrite str_eqb_refl in Es. discriminate.
    + cbn in Ha2. cbn. rewrite Ha2. cbn. destruct (n =? d)%Z eqn:Ed; [apply Z.eqb_eq in Ed|apply Z.eqb_neq in Ed].
      * left. split; auto. rewrite app_nil_r. reflexivity.
      * right. split; [congruence|reflexivity].
    + exfalso. auto.
Qed.

Lemma named_keys i d : incl (map fst (named i d)) (shape_names [i]).
Proof.
  intros s. unfold named. destruct (content i) as [|[s'|n|] [|b l]] eqn:E; cbn [map]; try (intros []; fail).
  destruct (str_eqb s' [c_under]) eqn:Es; cbn [map]; [intros []|]. intros [<-|[]]. cbn [fst].
  unfold shape_names. apply filter_In. rewrite Es. split; auto. unfold keys. apply in_flat_map.
  exists (AName s'). split; [|left; reflexivity]. unfold atoms. cbn. rewrite app_nil_r.
  assert (H : In (AName s') (content i)) by (rewrite E; left; auto). apply filter_In in H; tauto.
Qed.

Lemma shape_names_cons i l : shape_names (i :: l) = shape_names [i] ++ shape_names l.
Proof. unfold shape_names, keys, atoms. cbn [flat_map]. rewrite app_nil_r, flat_map_app, filter_app. reflexivity. Qed.

Lemma fold_items l : forall k acc shape, length l = length shape ->
  (forall i, In i l -> length (content i) <= 1) -> ~ In ADots (atoms l) ->
  NoDup (shape_names l) -> (forall s, In s (shape_names l) -> ~ In s (map fst acc)) ->
  (Forall2 describes l shape /\
   foldM cell_step (combine (comps k l) shape) acc = Ok (acc ++ flat_map (fun '(i, d) => named i d) (combine l shape))) \/
  (~ Forall2 describes l shape /\ foldM cell_step (combine (comps k l) shape) acc = Err RuntimeError).
Proof.
  induction l as [|i l IH]; intros k acc [|d shape] Hlen Hc Hd Hn Ha; try discriminate.
  - left. split; [constructor|]. cbn. rewrite app_nil_r. reflexivity.
  - cbn [comps combine foldM flat_map]. unfold atoms in Hd. cbn [flat_map] in Hd.
    rewrite shape_names_cons in Hn, Ha.
    assert (Hin : forall s, content i = [AName s] -> s <> [c_under] -> In s (shape_names [i])).
    { intros s E Hs. apply (named_keys i 0%Z). unfold named. rewrite E.
      destruct (str_eqb s [c_under]) eqn:Es; [apply str_eqb_eq in Es; contradiction|left; reflexivity]. }
    destruct (step_item acc k i d) as [[H1 H2]|[H1 H2]].
    + apply Hc; left; auto.
    + intros H. apply Hd, in_or_app; auto.
    + intros s E Hs. apply Ha, in_or_app; left; apply Hin; auto.
    + rewrite H2. cbn [bind].
      destruct (IH (k + nbig (item_atoms i)) (acc ++ named i d) shape) as [[G1 G2]|[G1 G2]].
      * cbn in Hlen; lia.
      * intros j Hj; apply Hc; right; auto.
      * intros H; apply Hd, in_or_app; auto.
      * clear -Hn. induction (shape_names [i]); [exact Hn|]. inversion Hn; auto.
      * intros s Hs. rewrite map_app. intros H. apply in_app_or in H as [H|H].
        -- revert H. apply Ha, in_or_app; auto.
        -- apply named_keys in H. clear -Hn H Hs. induction (shape_names [i]) as [|x m IHm]; [destruct H|].
           cbn in Hn. inversion Hn; subst. destruct H as [->|H]; [apply H2, in_or_app; auto|]. apply IHm; auto.
      * left. split; [constructor; auto|]. rewrite G2, app_assoc. reflexivity.
      * right. split; [|exact G2]. intros H; inversion H; auto.
    + right. split; [intros H; inversion H; auto|]. rewrite H2. reflexivity.
Qed.

(** where the ellipsis is *)
Lemma find_cell_comps k e : find_cell (comps k e) = None \/
  exists a i b, e = a ++ Atom i :: b /\ is_ell i = true /\ find_cell (comps k e) = Some (length a).
Proof.
  revert k. induction e as [|i e IH]; intros k; [left; reflexivity|]. cbn [comps find_cell].
  destruct (item_comp k i) as [|l] eqn:E.
  - right. destruct i as [a|l]; [|discriminate]. cbn in E. exists [], a, e. cbn. destruct (is_ell a) eqn:Ea; [auto|discriminate].
  - destruct (IH (k + nbig (item_atoms i))) as [H|[a [j [b [-> [H1 H2]]]]]].
    + left. rewrite H. reflexivity.
    + right. exists (i :: a), j, b. rewrite H2. auto.
Qed.
Lemma find_cell_some k a i b : is_ell i = true -> exists n, find_cell (comps k (a ++ Atom i :: b)) = Some n.
Proof.
  intros H. revert k. induction a as [|j a IH]; intros k; cbn [app comps].
  - cbn. rewrite H. eauto.
  - cbn [find_cell]. destruct (item_comp k j); [eauto|]. destruct (IH (k + nbig (item_atoms j))) as [n ->]. cbn. eauto.
Qed.

Lemma comps_app a b : forall k, comps k (a ++ b) = comps k a ++ comps (k + nbig (atoms a)) b.
Proof.
  induction a as [|i a IH]; intros k; cbn [app comps].
  - unfold nbig. cbn. rewrite Nat.add_0_r. reflexivity.
  - rewrite IH. f_equal. f_equal. f_equal. unfold atoms. cbn [flat_map]. unfold nbig. rewrite filter_app, app_length. lia.
Qed.
Lemma comps_length e : forall k, length (comps k e) = length e.
Proof. induction e; intros k; cbn [comps length]; auto. Qed.
Lemma comps_skips k m : comps k (repeat skip m) = repeat underscore m.
Proof.
  revert k. induction m as [|m IH]; intros k; [reflexivity|]. cbn [repeat comps]. rewrite IH. reflexivity.
Qed.

Lemma ell_key a : is_ell a = true -> atom_key a = [ell_name].
Proof. destruct a; cbn; try discriminate; [|reflexivity]. intros H. apply str_eqb_eq in H; subst; reflexivity. Qed.
Lemma keys_app a b : keys (a ++ b) = keys a ++ keys b.
Proof. unfold keys, atoms. rewrite !flat_map_app. reflexivity. Qed.
Lemma ell_in_keys l a : In a l -> is_ell a = true -> In ell_name (flat_map atom_key l).
Proof. intros H1 H2. apply in_flat_map. exists a. rewrite ell_key; [split; auto; left; auto|auto]. Qed.

(** the name of the ellipsis occurs at most once *)
Lemma once_split U s e a i b : written_as U true false s e -> e = a ++ Atom i :: b -> is_ell i = true ->
  ~ In ell_name (keys a) /\ ~ In ell_name (keys b).
Proof.
  intros [ts [_ [_ [_ [H|H]]]]] -> Hi; [discriminate|]. rewrite keys_app, filter_app in H.
  change (Atom i :: b) with ([Atom i] ++ b) in H. rewrite keys_app, filter_app in H.
  assert (E : filter (fun s => negb (true && str_eqb s [c_under])) (keys [Atom i]) = [ell_name]).
  { unfold keys, atoms. cbn [flat_map item_atoms app]. rewrite (ell_key i Hi). reflexivity. }
  rewrite E in H. cbn [app] in H. apply NoDup_remove_2 in H.
  split; intros X; apply H, in_or_app; [left|right]; apply filter_In; split; auto.
Qed.

Lemma opened_id l n m : (forall i, In i l -> i <> Atom ADots) ->
  flat_map (fun i => match i with Atom ADots => repeat skip (n + 1 - m) | _ => [i] end) l = l.
Proof.
  induction l as [|i l IH]; intros H; [reflexivity|]. cbn [flat_map]. rewrite IH by (intros j Hj; apply H; right; auto).
  destruct i as [[s|z|]|g]; try reflexivity. exfalso. apply (H (Atom ADots)); [left|]; reflexivity.
Qed.
Lemma no_dots_item e : ~ In ADots (atoms e) -> forall i, In i e -> i <> Atom ADots.
Proof. intros H i Hi ->. apply H. unfold atoms. apply in_flat_map. exists (Atom ADots). split; auto. left; auto. Qed.
Lemma no_key_dots e : ~ In ell_name (keys e) -> ~ In ADots (atoms e).
Proof. intros H X. apply H. unfold keys. apply (ell_in_keys _ ADots); auto. Qed.
Lemma has_dots_In e : has_dots e = true <-> In ADots (atoms e).
Proof.
  unfold has_dots. rewrite existsb_exists. split.
  - intros [a [H E]]. destruct a; try discriminate. auto.
  - intros H. exists ADots. auto.
Qed.

Lemma skips_names m : shape_names (repeat skip m) = [].
Proof. induction m as [|m IH]; [reflexivity|]. cbn [repeat]. rewrite shape_names_cons, IH. reflexivity. Qed.
Lemma shape_names_app a b : shape_names (a ++ b) = shape_names a ++ shape_names b.
Proof. unfold shape_names. rewrite keys_app, filter_app. reflexivity. Qed.
Lemma written_names U s e : written_as U true false s e -> NoDup (shape_names e).
Proof. intros [ts [_ [_ [_ [H|H]]]]]; [discriminate|exact H]. Qed.

(** the outcome of parse_shape once the expression is known *)
Section ParseShape.
  Context (U : unicode) (HU : unicode_ok U).

  Lemma parse_shape_at pattern e shape : written_as U true false pattern e ->
    (shape_ok e shape /\ parse_shape U shape pattern = Ok (shape_dict e shape)) \/
    (~ shape_ok e shape /\ (parse_shape U shape pattern = Err RuntimeError \/
                            parse_shape U shape pattern = Err ValueError /\ grouped_dots e)).
  Proof.
    intros He. unfold parse_shape.
    assert (Ep : parse_expression U true false 0 pattern = Ok (compile 0 e)) by (apply (parse_expression_iff U HU); eauto).
    rewrite Ep. cbn [bind compile]. unfold has_composed_axes. cbn [p_composition p_has_ellipsis].
    destruct (existsb _ (comps 0 e)) eqn:Ec; cbn [raise_if bind].
    { right. split; [|left; reflexivity]. intros [H _]. apply (composed_iff 0) in H. congruence. }
    pose proof (proj1 (composed_iff 0 e) Ec) as Ec'. clear Ec. rename Ec' into Ec. rewrite comps_length.
    destruct (has_dots e) eqn:Hd.
    - (* an ellipsis *)
      assert (Hin := proj1 (has_dots_In e) Hd).
      destruct (length shape =? length e) eqn:El; [apply Nat.eqb_eq in El|apply Nat.eqb_neq in El];
        [|destruct (length shape <? length e - 1) eqn:Elt; cbn [raise_if bind]; [apply Nat.ltb_lt in Elt|apply Nat.ltb_ge in Elt]].
      2: { right. split; [|left; reflexivity]. intros [_ [Hg H]]. apply Forall2_length in H.
           unfold atoms in Hin. apply in_flat_map in Hin as [i [Hi Hi2]].
           destruct i as [a|g]; [|apply Hg; exists g; auto]. destruct Hi2 as [->|[]].
           apply in_split in Hi as [a [b ->]]. unfold opened in H. rewrite flat_map_app, app_length in H. cbn [flat_map] in H.
           destruct (once_split U pattern (a ++ Atom ADots :: b) a ADots b He eq_refl eq_refl) as [K1 K2].
           rewrite !opened_id in H by (apply no_dots_item, no_key_dots; assumption).
           rewrite !app_length in H. rewrite app_length in Elt. cbn [length] in Elt. lia. }
      all: cbn [bind].
      all: destruct (find_cell_comps 0 e) as [Hf|[a [i [b [-> [Hi Hf]]]]]];
        [ rewrite Hf; cbn [of_option bind]; right;
          assert (Hg : grouped_dots e) by
            (unfold atoms in Hin; apply in_flat_map in Hin as [i [Hi Hi2]]; destruct i as [a|g]; [|exists g; auto];
             destruct Hi2 as [->|[]]; apply in_split in Hi as [a [b ->]];
             destruct (find_cell_some 0 a ADots b eq_refl) as [n Hn]; congruence);
          split; [intros [_ [H _]]; auto|right; auto]
        | rewrite Hf; cbn [of_option bind] ].
      all: destruct (once_split U pattern _ a i b He eq_refl Hi) as [K1 K2].
      all: assert (Hi' : i = ADots) by
        (destruct i as [s|z|]; [|discriminate|reflexivity]; exfalso;
         unfold atoms in Hin; rewrite flat_map_app in Hin; apply in_app_or in Hin as [H|H];
         [exact (no_key_dots a K1 H)|]; cbn in H; destruct H as [H|H]; [discriminate|exact (no_key_dots b K2 H)]).
      all: subst i.
      all: assert (Hg : ~ grouped_dots (a ++ Atom ADots :: b)) by
        (intros [l [H1 H2]]; apply in_app_or in H1 as [H1|[H1|H1]]; [apply (no_key_dots a K1)|discriminate|apply (no_key_dots b K2)];
         unfold atoms; apply in_flat_map; exists (Group l); auto).
      all: set (m := length shape + 1 - length (a ++ Atom ADots :: b)).
      all: assert (Eo : opened (a ++ Atom ADots :: b) (length shape) = a ++ repeat skip m ++ b) by
        (unfold opened; rewrite flat_map_app; cbn [flat_map]; rewrite !opened_id by (apply no_dots_item, no_key_dots; assumption); reflexivity).
      all: assert (Ek : firstn (length a) (comps 0 (a ++ Atom ADots :: b)) ++ repeat underscore m ++ skipn (S (length a)) (comps 0 (a ++ Atom ADots :: b))
                        = comps 0 (a ++ repeat skip m ++ b)) by
        (rewrite !comps_app; rewrite <- (comps_length a 0) at 1; rewrite firstn_app, firstn_all, Nat.sub_diag; cbn [firstn];
         rewrite app_nil_r; f_equal; rewrite comps_skips; f_equal;
         rewrite skipn_app, skipn_all2 by (rewrite comps_length; lia); rewrite comps_length;
         replace (S (length a) - length a) with 1 by lia; cbn [app comps skipn]; f_equal;
         assert (Z : nbig (atoms (repeat skip m)) = 0) by (clear; induction m; [reflexivity|exact IHm]); rewrite Z; cbn; lia).
      all: rewrite Ek.
      all: destruct (fold_items (a ++ repeat skip m ++ b) 0 [] shape) as [[F1 F2]|[F1 F2]];
        [ rewrite !app_length, repeat_length; unfold m; rewrite app_length in *; cbn [length] in *; lia
        | intros j Hj; apply in_app_or in Hj as [Hj|Hj]; [apply Ec, in_or_app; auto|];
          apply in_app_or in Hj as [Hj|Hj]; [apply repeat_spec in Hj; subst; cbn; lia|apply Ec, in_or_app; right; right; auto]
        | unfold atoms; rewrite !flat_map_app; intros H; apply in_app_or in H as [H|H]; [exact (no_key_dots a K1 H)|];
          apply in_app_or in H as [H|H]; [|exact (no_key_dots b K2 H)];
          apply in_flat_map in H as [j [H1 H2]]; apply repeat_spec in H1; subst; cbn in H2; destruct H2 as [H2|[]]; discriminate
        | rewrite !shape_names_app, skips_names; apply written_names in He; rewrite shape_names_app in He;
          change (Atom ADots :: b) with ([Atom ADots] ++ b) in He; rewrite shape_names_app in He;
          apply NoDup_remove_1 with (a := ell_name); exact He
        | intros s _ []
        | left; unfold shape_ok, shape_dict; rewrite Eo; split; [split; [|split]; assumption|exact F2]
        | right; unfold shape_ok; rewrite Eo; split; [intros [_ [_ H]]; auto|left; exact F2] ].
    - (* no ellipsis *)
      assert (Hn : ~ In ADots (atoms e)) by (rewrite <- has_dots_In; congruence).
      assert (Eo : opened e (length shape) = e) by (apply opened_id, no_dots_item; auto).
      destruct (length shape =? length e) eqn:El; [apply Nat.eqb_eq in El|apply Nat.eqb_neq in El]; cbn [bind].
      2: { right. split; [|left; reflexivity]. intros [_ [_ H]]. rewrite Eo in H. apply Forall2_length in H. lia. }
      destruct (fold_items e 0 [] shape) as [[F1 F2]|[F1 F2]]; auto.
      + eapply written_names; eauto.
      + left. unfold shape_ok, shape_dict. rewrite Eo. split; [|exact F2]. split; [assumption|]. split; [|assumption].
        intros [l [H1 H2]]. apply Hn. unfold atoms. apply in_flat_map. exists (Group l); auto.
      + right. unfold shape_ok. rewrite Eo. split; [tauto|]. left. exact F2.
  Qed.
End ParseShape.

(** ** [_enumerate_directions] *)
Lemma list_upd_ones n k (d : Z) : k < n -> list_upd (repeat 1%Z n) k d = Ok (repeat 1%Z k ++ d :: repeat 1%Z (n - S k)).
Proof.
  revert k. induction n as [|n IH]; intros k H; [lia|]. destruct k as [|k]; cbn [repeat list_upd app].
  - replace (S n - 1) with n by lia. reflexivity.
  - rewrite (IH k) by lia. reflexivity.
Qed.
Lemma prodn_ones k d m : prodn (repeat 1 k ++ d :: repeat 1 m) = d.
Proof.
  induction k as [|k IH]; cbn [repeat app prodn fold_right]; [|rewrite Nat.mul_1_l; exact IH].
  assert (E : fold_right Nat.mul 1 (repeat 1 m) = 1) by (induction m as [|m IHm]; [reflexivity|cbn [repeat fold_right]; rewrite IHm; reflexivity]).
  rewrite E. lia.
Qed.
Lemma ravel_all_ones m : forall idx, inb (repeat 1 m) idx = true -> ravel (repeat 1 m) idx = 0.
Proof.
  induction m as [|m IH]; intros [|i idx] H; try discriminate; [reflexivity|].
  cbn [repeat] in *. apply inb_cons in H as [Hi H]. cbn [ravel]. rewrite (IH _ H). lia.
Qed.
Lemma ravel_ones k d m : forall idx, inb (repeat 1 k ++ d :: repeat 1 m) idx = true ->
  ravel (repeat 1 k ++ d :: repeat 1 m) idx = nth k idx 0.
Proof.
  induction k as [|k IH]; intros [|i idx] H; try discriminate; cbn [repeat app] in *; apply inb_cons in H as [Hi H]; cbn [ravel nth].
  - rewrite (ravel_all_ones _ _ H). assert (E := prodn_ones 0 1 m). cbn [repeat app prodn fold_right] in E.
    unfold prodn. lia.
  - rewrite (IH _ H). lia.
Qed.
Lemma enumerate_from_nth {B} (l : list B) : forall n k, nth_error (enumerate_from n l) k = option_map (fun b => (n + k, b)) (nth_error l k).
Proof.
  induction l as [|b l IH]; intros n [|k]; cbn; try reflexivity.
  - do 2 f_equal. lia.
  - rewrite IH. destruct (nth_error l k); cbn; [do 2 f_equal; lia|reflexivity].
Qed.
Lemma enumerate_from_length {B} (l : list B) : forall n, length (enumerate_from n l) = length l.
Proof. induction l as [|b l IH]; intros n; cbn; auto. Qed.

Lemma ones_of_nat m : map Z.of_nat (repeat 1 m) = repeat 1%Z m.
Proof. induction m as [|m IH]; cbn [repeat map]; [reflexivity|f_equal; exact IH]. Qed.
Lemma directions {A} (r : runtime A) (x : tensor A) :
  exists ts, enumerate_directions int_ops (rt_backend r) x = Ok ts /\ length ts = length (shp x) /\
    forall k t, nth_error ts k = Some t ->
      wf t /\ shp t = repeat 1 k ++ nth k (shp x) 0 :: repeat 1 (length (shp x) - S k) /\
      forall idx, inb (shp t) idx = true -> get t idx = Some (rt_num r (nth k idx 0)).
Proof.
  set (s := shp x).
  set (mk := fun k => mkT (repeat 1 k ++ nth k s 0 :: repeat 1 (length s - S k)) (map (rt_num r) (seq 0 (nth k s 0)))).
  exists (map (fun p => mk (fst p)) (enumerate (map Z.of_nat s))).
  split; [|split].
  - unfold enumerate_directions. rewrite <- mapM_pure.
    assert (E : b_shape (rt_backend r) x = map Z.of_nat s) by (unfold rt_backend; destruct (rt_framework r); reflexivity).
    rewrite E. apply mapM_ext_in. intros [k d] Hin.
    apply In_nth_error in Hin as [j Hj]. unfold enumerate in Hj. rewrite enumerate_from_nth in Hj.
    rewrite nth_error_map in Hj. destruct (nth_error s j) as [n|] eqn:En; cbn in Hj; [|discriminate]. injection Hj as <- <-.
    assert (Hlt : j < length s) by (apply nth_error_Some; congruence).
    rewrite map_length. rewrite list_upd_ones by exact Hlt. cbn [bind fst].
    assert (E1 : b_arange (rt_backend r) (Z.of_nat n) = Ok (mkT [n] (map (rt_num r) (seq 0 n)))).
    { unfold rt_backend; destruct (rt_framework r); cbn; unfold t_arange; rewrite Nat2Z.id; reflexivity. }
    rewrite E1. cbn [bind].
    assert (E2 : b_reshape (rt_backend r) = t_reshape (rt_lib r)) by (unfold rt_backend; destruct (rt_framework r); reflexivity).
    rewrite E2.
    replace (repeat 1%Z j ++ Z.of_nat n :: repeat 1%Z (length s - S j)) with (map Z.of_nat (repeat 1 j ++ n :: repeat 1 (length s - S j))).
    2:{ rewrite map_app. cbn [map]. rewrite !ones_of_nat. reflexivity. }
    rewrite reshape_nat. 2:{ rewrite prodn_ones. cbn. lia. }
    unfold mk. rewrite (nth_error_nth _ _ 0 En). reflexivity.
  - rewrite map_length. unfold enumerate. rewrite enumerate_from_length, map_length. reflexivity.
  - intros k t Ht. rewrite nth_error_map in Ht. unfold enumerate in Ht. rewrite enumerate_from_nth in Ht.
    destruct (nth_error (map Z.of_nat s) k); cbn in Ht; [|discriminate]. injection Ht as <-.
    unfold mk. cbn [shp dat]. split; [|split; [reflexivity|]].
    + unfold wf. cbn [shp dat]. rewrite map_length, seq_length, prodn_ones. reflexivity.
    + intros idx Hi. unfold get. cbn [shp dat]. rewrite Hi.
      pose proof (ravel_lt _ _ Hi) as Hlt. rewrite prodn_ones in Hlt. rewrite (ravel_ones _ _ _ _ Hi) in *.
      rewrite nth_error_map, (nth_error_nth' _ 0) by (rewrite seq_length; exact Hlt).
      rewrite seq_nth by exact Hlt. reflexivity.
Qed.

(** ** parse_shape, in final form *)
Section ParseShapeForms.
  Context (U : unicode) (HU : unicode_ok U).
  Lemma parse_shape_unwritten pattern shape : (forall t, ~ written_as U true false pattern t) ->
    parse_shape U shape pattern = Err EinopsError.
  Proof.
    intros H. unfold parse_shape. destruct (parse_expression U true false 0 pattern) as [p|e] eqn:E.
    - apply (parse_expression_iff U HU) in E as [t [Ht _]]. destruct (H t Ht).
    - cbn [bind]. rewrite (parse_expression_err _ _ _ _ _ _ E). reflexivity.
  Qed.
  Lemma written_dec pattern : (exists t, written_as U true false pattern t) \/ (forall t, ~ written_as U true false pattern t).
  Proof.
    destruct (parse_expression U true false 0 pattern) as [p|e] eqn:E.
    - apply (parse_expression_iff U HU) in E as [t [Ht _]]. left. exists t. exact Ht.
    - right. intros t Ht. assert (E' : parse_expression U true false 0 pattern = Ok (compile 0 t)).
      { apply (parse_expression_iff U HU). exists t. auto. }
      congruence.
  Qed.
  Lemma parse_shape_iff pattern shape d : parse_shape U shape pattern = Ok d <->
    exists e, written_as U true false pattern e /\ shape_ok e shape /\ d = shape_dict e shape.
  Proof.
    split.
    - intros H. destruct (written_dec pattern) as [[e He]|Hn].
      + destruct (parse_shape_at U HU pattern e shape He) as [[Hs E]|[_ [E|[E _]]]]; try congruence.
        exists e. split; [exact He|]. split; [exact Hs|congruence].
      + rewrite (parse_shape_unwritten _ shape Hn) in H. discriminate.
    - intros [e [He [Hs ->]]]. destruct (parse_shape_at U HU pattern e shape He) as [[_ E]|[Hn _]]; [exact E|destruct (Hn Hs)].
  Qed.
  Lemma parse_shape_errors pattern shape e : parse_shape U shape pattern = Err e ->
    e = EinopsError /\ (forall t, ~ written_as U true false pattern t) \/
    e = RuntimeError \/
    e = ValueError /\ exists t, written_as U true false pattern t /\ grouped_dots t.
  Proof.
    intros H. destruct (written_dec pattern) as [[t Ht]|Hn].
    - destruct (parse_shape_at U HU pattern t shape Ht) as [[Hs E]|[_ [E|[E Hg]]]].
      + congruence.
      + right. left. congruence.
      + right. right. split; [congruence|exists t; auto].
    - left. split; [|exact Hn]. rewrite (parse_shape_unwritten _ shape Hn) in H. congruence.
  Qed.

  Lemma dict_incl l : forall shape, incl (map fst (flat_map (fun '(i, d) => named i d) (combine l shape))) (shape_names l).
  Proof.
    induction l as [|i l IH]; intros [|d shape]; cbn [combine flat_map map]; try (intros ? []; fail).
    rewrite map_app, shape_names_cons. intros s H. apply in_or_app. apply in_app_or in H as [H|H]; [left|right].
    - revert H. apply named_keys.
    - revert H. apply IH.
  Qed.
  Lemma dict_NoDup l : forall shape, NoDup (shape_names l) -> NoDup (map fst (flat_map (fun '(i, d) => named i d) (combine l shape))).
  Proof.
    induction l as [|i l IH]; intros [|d shape] H; cbn [combine flat_map map]; try constructor.
    rewrite shape_names_cons in H. rewrite map_app.
    assert (H1 : NoDup (shape_names l)) by (clear -H; induction (shape_names [i]); [exact H|inversion H; auto]).
    assert (H2 : forall s, In s (map fst (named i d)) -> ~ In s (map fst (flat_map (fun '(i, d) => named i d) (combine l shape)))).
    { intros s Hs Hs'. apply named_keys in Hs. apply dict_incl in Hs'. clear -H Hs Hs'.
      induction (shape_names [i]) as [|x m IHm]; [destruct Hs|]. inversion H; subst. destruct Hs as [->|Hs]; [|auto].
      apply H2, in_or_app. auto. }
    unfold named in *. destruct (content i) as [|[s|n|] [|? ?]]; cbn [map app] in *; try (apply IH; exact H1).
    destruct (str_eqb s [c_under]); cbn [map app] in *; [apply IH; exact H1|]. constructor; [|apply IH; exact H1].
    apply H2. left. reflexivity.
  Qed.
  Definition atom_dec : forall a b : atom, {a = b} + {a <> b}.
  Proof. decide equality; [apply str_eq_dec|apply Z.eq_dec]. Defined.
  Definition item_dec : forall a b : item, {a = b} + {a <> b}.
  Proof. decide equality; [apply atom_dec|apply (list_eq_dec atom_dec)]. Defined.
  Lemma no_atom_dots l : ~ In (Atom ADots) l -> forall i, In i l -> i <> Atom ADots.
  Proof. intros H i Hi ->. auto. Qed.
  Lemma key_no_atom l : ~ In ell_name (keys l) -> ~ In (Atom ADots) l.
  Proof. intros H X. apply no_key_dots in H. exact (no_dots_item l H _ X eq_refl). Qed.
  Lemma opened_cases pattern e n : written_as U true false pattern e ->
    (~ In (Atom ADots) e /\ opened e n = e) \/
    (exists a b, e = a ++ Atom ADots :: b /\ ~ In (Atom ADots) a /\ ~ In (Atom ADots) b /\
       opened e n = a ++ repeat skip (n + 1 - length e) ++ b).
  Proof.
    intros He. destruct (in_dec item_dec (Atom ADots) e) as [Hi|Hi].
    - right. apply in_split in Hi as [a [b ->]].
      destruct (once_split U pattern _ a ADots b He eq_refl eq_refl) as [K1 K2].
      exists a, b. split; [reflexivity|]. split; [apply key_no_atom; auto|]. split; [apply key_no_atom; auto|].
      unfold opened. rewrite flat_map_app. cbn [flat_map].
      rewrite !opened_id by (apply no_dots_item, no_key_dots; assumption). reflexivity.
    - left. split; [exact Hi|]. apply opened_id, no_atom_dots, Hi.
  Qed.
  Lemma parse_shape_keys pattern shape d : parse_shape U shape pattern = Ok d -> NoDup (map fst d).
  Proof.
    intros H. apply parse_shape_iff in H as [e [He [_ ->]]]. unfold shape_dict. apply dict_NoDup.
    pose proof (written_names U pattern e He) as Hn.
    destruct (opened_cases pattern e (length shape) He) as [[_ ->]|[a [b [E [_ [_ ->]]]]]]; [exact Hn|].
    rewrite !shape_names_app, skips_names. rewrite E in Hn. rewrite shape_names_app in Hn.
    change (Atom ADots :: b) with ([Atom ADots] ++ b) in Hn. rewrite shape_names_app in Hn.
    cbn in Hn. apply NoDup_remove_1 in Hn. exact Hn.
  Qed.
  Lemma in_shape_dict e shape s n : In (s, n) (flat_map (fun '(i, d) => named i d) (combine e shape)) <->
    s <> [c_under] /\ exists a i b, e = a ++ i :: b /\ content i = [AName s] /\ nth_error shape (length a) = Some n.
  Proof.
    revert shape. induction e as [|i e IH]; intros shape.
    - cbn. split; [intros []|]. intros [_ [[|? a] [j [b [E _]]]]]; discriminate.
    - destruct shape as [|d shape].
      + cbn. split; [intros []|]. intros [_ [a [j [b [_ [_ H]]]]]]. destruct (length a); discriminate.
      + cbn [combine flat_map]. rewrite in_app_iff, IH. split.
        * intros [H|[Hs [a [j [b [-> [H1 H2]]]]]]].
          -- unfold named in H. destruct (content i) as [|[s'|z|] [|? ?]] eqn:E; try (destruct H; fail).
             destruct (str_eqb s' [c_under]) eqn:Es; [destruct H|]. destruct H as [H|[]]. injection H as -> ->.
             split; [intros ->; rewrite str_eqb_refl in Es; discriminate|]. exists [], i, e. repeat split; auto.
          -- split; [exact Hs|]. exists (i :: a), j, b. repeat split; auto.
        * intros [Hs [[|i' a] [j [b [E [H1 H2]]]]]]; injection E as -> ->.
          -- left. unfold named. rewrite H1. destruct (str_eqb s [c_under]) eqn:Es; [apply str_eqb_eq in Es; contradiction|].
             cbn in H2. injection H2 as ->. left. reflexivity.
          -- right. split; [exact Hs|]. exists a, j, b. repeat split; auto.
  Qed.
  Lemma split_mid {B} (a : list B) i b c d : a ++ i :: b = c ++ d ->
    (exists b', c = a ++ i :: b' /\ b = b' ++ d) \/ (exists a', a = c ++ a' /\ d = a' ++ i :: b).
  Proof.
    revert c. induction a as [|x a IH]; intros [|y c] E; cbn [app] in E.
    - right. exists []. auto.
    - injection E as -> ->. left. exists c. auto.
    - right. exists (x :: a). auto.
    - injection E as -> E. destruct (IH _ E) as [[b' [-> ->]]|[a' [-> ->]]]; [left; exists b'|right; exists a']; auto.
  Qed.

  Lemma parse_shape_entries pattern shape d s n : parse_shape U shape pattern = Ok d ->
    (In (s, n) d <->
     s <> [c_under] /\
     exists e before i after, written_as U true false pattern e /\ e = before ++ i :: after /\ content i = [AName s] /\
       ((~ In (Atom ADots) before /\ nth_error shape (length before) = Some n) \/
        (In (Atom ADots) before /\ nth_error shape (length shape - S (length after)) = Some n))).
  Proof.
    intros H. apply parse_shape_iff in H as [e [He [[_ [_ Hs]] ->]]]. unfold shape_dict. rewrite in_shape_dict.
    apply Forall2_length in Hs.
    assert (Hdots : forall s, content (Atom ADots) <> [AName s]) by (intros; discriminate).
    split; intros [Hu H]; (split; [exact Hu|]).
    - destruct H as [a [i [b [E [Hc Hn]]]]]. exists e.
      destruct (opened_cases pattern e (length shape) He) as [[H0 H1]|[a0 [b0 [E0 [Ha [Hb H1]]]]]]; rewrite H1 in E, Hs.
      + exists a, i, b. split; [exact He|]. split; [exact E|]. split; [exact Hc|]. left. split; [|exact Hn].
        intros X. apply H0. rewrite E. apply in_or_app. auto.
      + symmetry in E. apply split_mid in E as [[b' [E1 E2]]|[a' [E1 E2]]].
        * exists a, i, (b' ++ Atom ADots :: b0). split; [exact He|]. split; [rewrite E0, E1, <- app_assoc; reflexivity|].
          split; [exact Hc|]. left. split; [|exact Hn]. intros X. apply Ha. rewrite E1. apply in_or_app. auto.
        * symmetry in E2. apply split_mid in E2 as [[b' [E2 E3]]|[a'' [E2 E3]]].
          { exfalso. assert (X : In i (repeat skip (length shape + 1 - length e))) by (rewrite E2; apply in_or_app; right; left; reflexivity).
            apply repeat_spec in X. subst i. cbn in Hc. injection Hc as <-. apply Hu. reflexivity. }
          exists (a0 ++ Atom ADots :: a''), i, b. split; [exact He|]. split; [rewrite E0, E3, <- app_assoc; reflexivity|].
          split; [exact Hc|]. right. split; [apply in_or_app; right; left; reflexivity|].
          rewrite <- Hn. f_equal. rewrite E1, E2. rewrite E3 in Hs. rewrite !app_length in *. cbn [length] in *. lia.
    - destruct H as [e' [a [i [b [He' [E [Hc Hn]]]]]]]. rewrite (written_fun _ _ _ _ _ _ HU He' He) in E. clear e' He'.
      destruct (opened_cases pattern e (length shape) He) as [[H0 H1]|[a0 [b0 [E0 [Ha [Hb H1]]]]]]; rewrite H1 in *.
      + destruct Hn as [[_ Hn]|[X _]]; [exists a, i, b; auto|]. exfalso. apply H0. rewrite E. apply in_or_app. auto.
      + rewrite E0 in E. symmetry in E. apply split_mid in E as [[b' [E1 E2]]|[a' [E1 E2]]].
        * exists a, i, (b' ++ repeat skip (length shape + 1 - length e) ++ b0). split; [rewrite E1, <- app_assoc; reflexivity|].
          split; [exact Hc|]. destruct Hn as [[_ Hn]|[X _]]; [exact Hn|]. exfalso. apply Ha. rewrite E1. apply in_or_app. auto.
        * destruct a' as [|i' a']; injection E2 as E2 E3; [subst i; destruct (Hdots s Hc)|]. subst i'.
          destruct Hn as [[X _]|[_ Hn]]; [exfalso; apply X; rewrite E1; apply in_or_app; right; left; reflexivity|].
          exists (a0 ++ repeat skip (length shape + 1 - length e) ++ a'), i, b. split; [rewrite E3, <- !app_assoc; reflexivity|].
          split; [exact Hc|]. rewrite <- Hn. f_equal. rewrite E3 in Hs. rewrite !app_length in *. cbn [length] in *. lia.
  Qed.

  Lemma ellipsis_character : exists p, parse_expression U false false 0 (lit "a " ++ [c_ell]) = Ok p /\ p_has_ellipsis (fst p) = false /\
    p_composition (fst p) = [CGrp [AxName (lit "a")]; CEll].
  Proof.
    exists (compile 0 [Atom (AName (lit "a")); Atom (AName ell_name)]). split; [|split; reflexivity].
    apply (parse_expression_iff U HU). eexists. split; [|reflexivity].
    exists [TWord (lit "a"); TWord ell_name]. split; [apply spells_iff; reflexivity|]. split.
    - apply st_word; [|apply st_word; [|apply st_nil]].
      + apply wa_name. right. split; [|split].
        * unfold isidentifier. cbn. rewrite (uo_idstart U HU) by reflexivity. reflexivity.
        * intros c [<-|[]]. left. rewrite (uo_alnum U HU) by reflexivity. reflexivity.
        * left. split; discriminate.
      + apply wa_name. left. reflexivity.
    - split; [cbn; lia|]. right. cbn. constructor; [intros [X|[]]; discriminate|]. constructor; [intros []|constructor].
  Qed.
End ParseShapeForms.
