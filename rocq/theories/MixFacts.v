(** * EinMix: expressions without groups, and the patterns made from them *)
From Verif Require Import Py Tensor ListFacts SpecSem SpecGrammar SpecPattern SpecForms SpecOps Parsing Compile Recipe Ops Backends Api
  ParseFacts ParseFacts2 ParseFacts3 FrontFacts FrontFacts2 FrontFacts3 MainFacts Layers Einsum EinMix SpecEinMix.

Definition no_ones (l : list atom) : list atom := filter (fun a => negb (is_one a)) l.
Definition flat (E : expr) : expr := map Atom (no_ones (atoms E)).
(** labels of atoms without numbers *)
Definition alab (e : nat) (a : atom) : list label :=
  match a with AName s => [LName s] | ADots => map LDots (seq 0 e) | ANum _ => [] end.
Notation alabs e l := (flat_map (alab e) l).
Definition atext (a : atom) : pystr := match a with AName s => s | ADots => s_dots | ANum _ => [] end.

Lemma atoms_flat E : atoms (flat E) = no_ones (atoms E).
Proof. unfold flat. induction (no_ones (atoms E)) as [|a l IH]; [reflexivity|]. cbn. unfold atoms in IH. rewrite IH. reflexivity. Qed.
Lemma in_no_ones a l : In a (no_ones l) -> In a l.
Proof. intros H. apply filter_In in H. apply H. Qed.
Lemma alabs_no_ones e l : alabs e (no_ones l) = alabs e l.
Proof.
  unfold no_ones. induction l as [|a l IH]; [reflexivity|]. cbn [filter]. destruct a as [s|n|]; cbn [is_one negb flat_map]; try (rewrite IH; reflexivity).
  destruct (n =? 1)%Z; cbn [negb flat_map alab app]; exact IH.
Qed.
Lemma keys_no_ones l : flat_map atom_key (no_ones l) = flat_map atom_key l.
Proof.
  unfold no_ones. induction l as [|a l IH]; [reflexivity|]. cbn [filter]. destruct a as [s|n|]; cbn [is_one negb flat_map]; try (rewrite IH; reflexivity).
  destruct (n =? 1)%Z; cbn [negb flat_map atom_key app]; exact IH.
Qed.
Lemma keys_flat E : keys (flat E) = keys E.
Proof. unfold keys. rewrite atoms_flat. apply keys_no_ones. Qed.
Lemma existsb_no_ones p l : (forall n, p (ANum n) = negb (n =? 1)%Z && p (ANum n)) -> existsb p (no_ones l) = existsb p l.
Proof.
  intros H. unfold no_ones. induction l as [|a l IH]; [reflexivity|]. cbn [filter]. destruct a as [s|n|]; cbn [is_one negb existsb]; try (rewrite IH; reflexivity).
  rewrite H. destruct (n =? 1)%Z eqn:E; cbn [negb existsb andb orb]; [exact IH|]. rewrite IH. reflexivity.
Qed.
Lemma has_dots_flat E : has_dots (flat E) = has_dots E.
Proof. unfold has_dots. rewrite atoms_flat. apply existsb_no_ones. intros n. cbn. rewrite andb_false_r. reflexivity. Qed.
Lemma has_numbers_flat E : has_numbers (flat E) = has_numbers E.
Proof. unfold has_numbers. rewrite atoms_flat. apply existsb_no_ones. intros n. cbn. destruct (n =? 1)%Z; reflexivity. Qed.
Lemma ndots_flat E : ndots (flat E) = ndots E.
Proof.
  unfold ndots. rewrite atoms_flat. unfold no_ones. induction (atoms E) as [|a l IH]; [reflexivity|]. cbn [filter].
  destruct a as [s|n|]; cbn [is_one negb filter is_dots length]; auto. destruct (n =? 1)%Z; cbn [negb filter is_dots]; auto.
Qed.
Lemma plain_flat E : plain E -> plain (flat E).
Proof. unfold plain. rewrite atoms_flat. intros H X. apply H, in_no_ones, X. Qed.

(** ** labels *)
Section Labels.
  Context (dots : bool) (e : nat).
  Lemma stands_plain a : (dots = true \/ is_dots a = false) -> a <> AName ell_name -> stands_for_dots dots a = is_dots a.
  Proof.
    intros H Hn. destruct a as [s|n|]; cbn; auto. destruct (str_eqb s ell_name) eqn:E; [|apply andb_false_r].
    apply str_eqb_eq in E. subst. congruence.
  Qed.
  Lemma atom_labels_alab k a : is_big a = false -> (dots = true \/ is_dots a = false) -> a <> AName ell_name -> atom_labels dots e k a = alab e a.
  Proof.
    intros Hb Hd Hn. unfold atom_labels. rewrite stands_plain by auto. destruct a as [s|n|]; cbn; try reflexivity.
    cbn in Hb. apply negb_false_iff in Hb. rewrite Hb. reflexivity.
  Qed.
  Lemma atoms_labels_alabs l : forall k, existsb is_big l = false -> (dots = true \/ existsb is_dots l = false) -> ~ In (AName ell_name) l ->
    atoms_labels dots e k l = alabs e l.
  Proof.
    induction l as [|a l IH]; intros k Hb Hd Hn; [reflexivity|]. cbn [existsb] in Hb, Hd. apply orb_false_iff in Hb as [Hb1 Hb2].
    cbn [atoms_labels flat_map]. rewrite atom_labels_alab.
    - f_equal. apply IH; [exact Hb2| |intros X; apply Hn; right; exact X]. destruct Hd as [Hd|Hd]; [left; exact Hd|right]. apply orb_false_iff in Hd. apply Hd.
    - exact Hb1.
    - destruct Hd as [Hd|Hd]; [left; exact Hd|right]. apply orb_false_iff in Hd. apply Hd.
    - intros ->. apply Hn. left. reflexivity.
  Qed.
  Lemma concat_alabs k E : has_numbers E = false -> (dots = true \/ has_dots E = false) -> plain E -> concat (groups dots e k E) = alabs e (atoms E).
  Proof. intros Hb Hd Hn. rewrite concat_groups. apply atoms_labels_alabs; auto. Qed.

  (** without groups every label is a dimension *)
  Lemma groups_atoms l : forall k, existsb is_big l = false -> existsb is_one l = false -> (dots = true \/ existsb is_dots l = false) -> ~ In (AName ell_name) l ->
    groups dots e k (map Atom l) = map (fun a => [a]) (alabs e l).
  Proof.
    induction l as [|a l IH]; intros k Hb Ho Hd Hn; [reflexivity|]. cbn [existsb] in Hb, Ho, Hd. apply orb_false_iff in Hb as [Hb1 Hb2]. apply orb_false_iff in Ho as [Ho1 Ho2].
    assert (Hd1 : dots = true \/ is_dots a = false) by (destruct Hd as [Hd|Hd]; [left; exact Hd|right; apply orb_false_iff in Hd; apply Hd]).
    assert (Hd2 : dots = true \/ existsb is_dots l = false) by (destruct Hd as [Hd|Hd]; [left; exact Hd|right; apply orb_false_iff in Hd; apply Hd]).
    assert (Hna : a <> AName ell_name) by (intros ->; apply Hn; left; reflexivity).
    cbn [map groups flat_map]. rewrite map_app. rewrite IH; [|exact Hb2|exact Ho2|exact Hd2|intros X; apply Hn; right; exact X]. f_equal.
    cbn [item_groups]. rewrite stands_plain by auto. rewrite atom_labels_alab by auto.
    destruct a as [s|n|]; cbn; try reflexivity. cbn in Hb1, Ho1. rewrite Ho1 in Hb1. discriminate.
  Qed.
  Lemma no_ones_none l : existsb is_one (no_ones l) = false.
  Proof.
    unfold no_ones. induction l as [|a l IH]; [reflexivity|]. cbn [filter]. destruct (is_one a) eqn:E; cbn [negb existsb]; [exact IH|]. rewrite E. exact IH.
  Qed.
  Lemma groups_flat k E : has_numbers E = false -> (dots = true \/ has_dots E = false) -> plain E ->
    groups dots e k (flat E) = map (fun a => [a]) (alabs e (atoms E)).
  Proof.
    intros Hb Hd Hn. unfold flat. rewrite groups_atoms, alabs_no_ones; [reflexivity| | | |].
    - rewrite existsb_no_ones; [exact Hb|]. intros n. cbn. destruct (n =? 1)%Z; reflexivity.
    - apply no_ones_none.
    - destruct Hd as [Hd|Hd]; [left; exact Hd|right]. rewrite existsb_no_ones; [exact Hd|]. intros n. cbn. rewrite andb_false_r. reflexivity.
    - intros X. apply Hn, in_no_ones, X.
  Qed.
End Labels.

(** ** the texts *)
Lemma axis_text_atom k a : is_big a = false -> map axis_text (atom_axes k a) = if is_one a then [] else match a with AName s => if str_eqb s ell_name then [s_dots] else [s] | _ => [atext a] end.
Proof.
  destruct a as [s|n|]; cbn; intros H.
  - unfold axis_text. change ellipsis_str with ell_name. destruct (str_eqb s ell_name); reflexivity.
  - apply negb_false_iff in H. rewrite H. reflexivity.
  - reflexivity.
Qed.
Lemma axes_texts l : forall k, existsb is_big l = false -> ~ In (AName ell_name) l -> map axis_text (atoms_axes k l) = map atext (no_ones l).
Proof.
  unfold no_ones. induction l as [|a l IH]; intros k Hb Hn; [reflexivity|]. cbn [existsb] in Hb. apply orb_false_iff in Hb as [Hb1 Hb2].
  cbn [atoms_axes filter]. rewrite map_app, IH, axis_text_atom; [|exact Hb1|exact Hb2|intros X; apply Hn; right; exact X].
  destruct (is_one a) eqn:E; cbn [negb map app]; [reflexivity|]. destruct a as [s|n|]; cbn; try reflexivity.
  destruct (str_eqb s ell_name) eqn:Es; [|reflexivity]. apply str_eqb_eq in Es. subst. exfalso. apply Hn. left. reflexivity.
Qed.
Lemma flat_axes_compile k E : flat_axes (fst (compile k E)) = atoms_axes k (atoms E).
Proof. unfold flat_axes, compile. cbn [fst p_composition]. rewrite flat_map_concat_map. apply concat_comps. Qed.
Lemma flat_texts_compile k E : has_numbers E = false -> plain E -> flat_texts (fst (compile k E)) = map atext (no_ones (atoms E)).
Proof. intros Hb Hn. unfold flat_texts. rewrite flat_axes_compile. apply axes_texts; auto. Qed.

Section Written.
  Context (U : unicode) (HU : unicode_ok U).
  Lemma sep_not_alnum c : separator c -> u_alnum U c = false.
  Proof. intros [H|[H|H]]; subst c; rewrite (uo_alnum U HU); reflexivity. Qed.
  Lemma word_not_sep w a c : word_atom U false w a -> In c w -> ~ separator c.
  Proof.
    intros H Hc Hs. destruct a as [s|n|].
    - destruct (word_atom_chars U HU false w _ H ltac:(discriminate) c Hc) as [[G|[G|G]] _]; [rewrite sep_not_alnum in G by exact Hs; discriminate|subst c; destruct Hs as [X|[X|X]]; discriminate|subst c; destruct Hs as [X|[X|X]]; discriminate].
    - destruct (word_atom_chars U HU false w _ H ltac:(discriminate) c Hc) as [[G|[G|G]] _]; [rewrite sep_not_alnum in G by exact Hs; discriminate|subst c; destruct Hs as [X|[X|X]]; discriminate|subst c; destruct Hs as [X|[X|X]]; discriminate].
    - inversion H; subst. destruct Hc as [<-|[<-|[<-|[]]]]; destruct Hs as [X|[X|X]]; discriminate.
  Qed.
  Lemma word_nonempty w a : word_atom U false w a -> w <> [].
  Proof.
    intros H ->. inversion H as [E|w Hd Hn|w Hl]; subst.
    - cbn in Hd. discriminate.
    - destruct Hl as [E|[Hi _]]; [discriminate|cbn in Hi; discriminate].
  Qed.

  Lemma spells_words ws l tail ts : Forall2 (word_atom U false) ws l -> spells tail ts -> (tail = [] \/ exists c s', tail = c :: s' /\ separator c) ->
    spells (str_join (lit " ") ws ++ tail) (map TWord ws ++ ts).
  Proof.
    intros HF Ht Hc. induction HF as [|w a ws l Hw HF IH]; [exact Ht|].
    destruct ws as [|w' ws].
    - cbn. apply sp_word; [eapply word_nonempty; eauto|intros c Hin; eapply word_not_sep; eauto|exact Hc|exact Ht].
    - change (str_join (lit " ") (w :: w' :: ws)) with (w ++ lit " " ++ str_join (lit " ") (w' :: ws)). rewrite <- !app_assoc. cbn [map app].
      apply sp_word; [eapply word_nonempty; eauto|intros c Hin; eapply word_not_sep; eauto| |].
      + right. exists c_space. eexists. split; [reflexivity|right; right; reflexivity].
      + apply (sp_space (str_join (lit " ") (w' :: ws) ++ tail)). exact IH.
  Qed.

  Lemma structured_atoms ws l : Forall2 (word_atom U false) ws l -> structured U false (map TWord ws) (map Atom l).
  Proof. induction 1; cbn; constructor; auto. Qed.

  Lemma structured_words au ts E : structured U au ts E -> forall a, In a (atoms E) -> exists w, word_atom U au w a.
  Proof.
    induction 1 as [|w a ts E Hw _ IH|ws l ts E Hl _ IH]; intros b Hb; [destruct Hb| |].
    - unfold atoms in Hb. cbn in Hb. destruct Hb as [<-|Hb]; [eauto|apply IH, Hb].
    - unfold atoms in Hb. cbn [flat_map item_atoms] in Hb. apply in_app_or in Hb as [Hb|Hb]; [|apply IH, Hb].
      clear -Hl Hb. induction Hl as [|w a ws l Hw _ IH]; [destruct Hb|]. destruct Hb as [<-|Hb]; [eauto|apply IH, Hb].
  Qed.
  Lemma atext_word w a : word_atom U false w a -> is_big a = false -> is_one a = false -> word_atom U false (atext a) a.
  Proof.
    intros H Hb Ho. destruct H as [|w Hd Hn|w Hl].
    - apply wa_dots.
    - exfalso. cbn in Hb, Ho. rewrite Ho in Hb. discriminate.
    - apply wa_name, Hl.
  Qed.
  Lemma texts_words s E : written U s E -> has_numbers E = false -> Forall2 (word_atom U false) (map atext (no_ones (atoms E))) (no_ones (atoms E)).
  Proof.
    intros (ts & _ & Hst & _) Hb.
    assert (G : forall l, incl l (no_ones (atoms E)) -> Forall2 (word_atom U false) (map atext l) l); [|apply G, incl_refl].
    induction l as [|a l IH]; intros Hi; cbn; constructor; [|apply IH; intros b H; apply Hi; right; exact H].
    assert (Ha : In a (no_ones (atoms E))) by (apply Hi; left; reflexivity). apply filter_In in Ha as [Ha Ho]. apply negb_true_iff in Ho.
    destruct (structured_words false ts E Hst a Ha) as [w Hw]. apply (atext_word w); auto.
    destruct (is_big a) eqn:Eb; [|reflexivity]. assert (X : has_numbers E = true) by (unfold has_numbers; apply existsb_exists; eauto). congruence.
  Qed.
  Lemma no_repeats_flat s E : written U s E -> no_repeats false false (flat E).
  Proof. intros (ts & _ & _ & H1 & H2). split; [rewrite ndots_flat; exact H1|]. rewrite keys_flat. exact H2. Qed.

  Lemma written_before s E : written U s E -> has_numbers E = false -> written U (lit " " ++ str_join (lit " ") (map atext (no_ones (atoms E)))) (flat E).
  Proof.
    intros H Hb. pose proof (texts_words s E H Hb) as HF. exists (map TWord (map atext (no_ones (atoms E)))). split; [|split].
    - apply (sp_space (str_join (lit " ") (map atext (no_ones (atoms E))))).
      rewrite <- (app_nil_r (str_join _ _)), <- (app_nil_r (map TWord _)). eapply spells_words; [exact HF|constructor|left; reflexivity].
    - apply structured_atoms, HF.
    - eapply no_repeats_flat; eauto.
  Qed.
  Lemma written_after s E : written U s E -> has_numbers E = false -> written U (str_join (lit " ") (map atext (no_ones (atoms E))) ++ lit " ") (flat E).
  Proof.
    intros H Hb. pose proof (texts_words s E H Hb) as HF. exists (map TWord (map atext (no_ones (atoms E)))). split; [|split].
    - rewrite <- (app_nil_r (map TWord _)). eapply spells_words; [exact HF| |].
      + apply (sp_space []). constructor.
      + right. exists c_space, []. split; [reflexivity|right; right; reflexivity].
    - apply structured_atoms, HF.
    - eapply no_repeats_flat; eauto.
  Qed.
End Written.
