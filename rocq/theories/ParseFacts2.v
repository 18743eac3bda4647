(** * The parser implements the grammar, part 2: structure *)
From Verif Require Import Py ListFacts Parsing SpecGrammar Compile ParseFacts.

(** ** structure over an arbitrary word relation *)
Inductive struct_by (W : pystr -> atom -> Prop) : list token -> expr -> Prop :=
| sb_nil : struct_by W [] []
| sb_word w a ts e : W w a -> struct_by W ts e -> struct_by W (TWord w :: ts) (Atom a :: e)
| sb_group ws l ts e :
    Forall2 W ws l -> struct_by W ts e ->
    struct_by W (TOpen :: map TWord ws ++ TClose :: ts) (Group l :: e).

Lemma structured_by U au ts e : structured U au ts e <-> struct_by (word_atom U au) ts e.
Proof. split; induction 1; constructor; auto. Qed.

Lemma Forall2_fun {A B} (W : A -> B -> Prop) l m1 m2 :
  (forall w a b, W w a -> W w b -> a = b) -> Forall2 W l m1 -> Forall2 W l m2 -> m1 = m2.
Proof.
  intros HW H. revert m2; induction H as [|x y l m Hxy _ IH]; intros m2 H2; inversion H2; subst; f_equal; eauto.
Qed.

Lemma map_TWord_close_inj ws1 ws2 t1 t2 :
  map TWord ws1 ++ TClose :: t1 = map TWord ws2 ++ TClose :: t2 -> ws1 = ws2 /\ t1 = t2.
Proof.
  revert ws2; induction ws1 as [|w ws1 IH]; intros [|w2 ws2] E; simpl in E; inversion E; subst; auto.
  destruct (IH ws2 H1) as [-> ->]; auto.
Qed.

Lemma struct_by_fun (W : pystr -> atom -> Prop) ts e1 e2 :
  (forall w a b, W w a -> W w b -> a = b) -> struct_by W ts e1 -> struct_by W ts e2 -> e1 = e2.
Proof.
  intros HW H. revert e2; induction H as [|w a ts e Hw _ IH|ws l ts e Hws _ IH]; intros e2 H2.
  - inversion H2; auto.
  - inversion H2; subst. f_equal; [f_equal; eauto|eauto].
  - inversion H2 as [| |ws' l' ts' e' Hws' H' E1 E2]; subst.
    apply map_TWord_close_inj in E1 as [-> ->]. f_equal; [f_equal; eapply Forall2_fun; eauto|eauto].
Qed.

Section Run.
  Context (U : unicode) (au ad : bool).

  Definition Wf (w : pystr) (a : atom) : Prop := watom U au w = Some a.

  Definition add_atoms (l : list atom) (st : pstate) : result pstate :=
    foldM (fun st a => add_atom au ad a st) l st.
  Definition add_item (st : pstate) (i : item) : result pstate :=
    match i with
    | Atom a => add_atom au ad a st
    | Group l => let* st' := add_atoms l (set_bracket (Some []) st) in
                 Ok (close_bracket (match s_bracket st' with Some g => g | None => [] end) st')
    end.
  Definition add_items (e : expr) (st : pstate) : result pstate := foldM add_item e st.

  Lemma add_atom_ok a st st' :
    add_atom au ad a st = Ok st' -> st' = do_atom a st.
  Proof. unfold add_atom. destruct (clash au ad a st); congruence. Qed.

  Lemma add_atom_ids_ok w a st st' :
    Wf w a -> ids_ok U au st -> add_atom au ad a st = Ok st' -> ids_ok U au st'.
  Proof. intros Hw Hok E. apply add_atom_ok in E; subst. apply do_atom_ids_ok; auto. eapply watom_key; eauto. Qed.

  Lemma run_group ws l rest st g :
    Forall2 Wf ws l -> s_bracket st = Some g -> ids_ok U au st ->
    run U au ad (map TWord ws ++ TClose :: rest) st =
    let* st' := add_atoms l st in
    run U au ad rest (close_bracket (match s_bracket st' with Some g => g | None => [] end) st').
  Proof.
    intros H. revert st g; induction H as [|w a ws l Hw _ IH]; intros st g Hb Hok; simpl.
    - rewrite Hb. reflexivity.
    - rewrite add_axis_name_spec by auto. rewrite Hw.
      change (add_atoms (a :: l) st) with (let* st1 := add_atom au ad a st in add_atoms l st1).
      destruct (add_atom au ad a st) as [st1|] eqn:E; simpl; [|reflexivity].
      eapply IH.
      + apply add_atom_ok in E; subst. simpl. rewrite Hb. reflexivity.
      + eapply add_atom_ids_ok; eauto.
  Qed.

  Lemma add_atoms_inv l st st' ws :
    Forall2 Wf ws l -> ids_ok U au st -> add_atoms l st = Ok st' -> ids_ok U au st'.
  Proof.
    intros H. revert st; induction H as [|w a ws l Hw _ IH]; intros st Hok E; simpl in E.
    - inversion E; subst; auto.
    - apply bind_Ok in E as [st1 [E1 E2]]. eapply IH; [|exact E2]. eapply add_atom_ids_ok; eauto.
  Qed.

  Lemma run_struct ts e st :
    struct_by Wf ts e -> s_bracket st = None -> ids_ok U au st ->
    run U au ad ts st = add_items e st.
  Proof.
    intros H. revert st; induction H as [|w a ts e Hw _ IH|ws l ts e Hws _ IH]; intros st Hb Hok.
    - simpl. rewrite Hb. reflexivity.
    - simpl. rewrite add_axis_name_spec by auto. rewrite Hw. unfold add_items; simpl.
      destruct (add_atom au ad a st) as [st1|] eqn:E; simpl; [|reflexivity].
      apply IH.
      + apply add_atom_ok in E; subst. simpl. rewrite Hb; reflexivity.
      + eapply add_atom_ids_ok; eauto.
    - cbn [run]. rewrite Hb. erewrite run_group by (eauto; reflexivity).
      unfold add_items; simpl.
      destruct (add_atoms l (set_bracket (Some []) st)) as [st1|] eqn:E; simpl; [|reflexivity].
      apply IH; [reflexivity|]. eapply add_atoms_inv in E; eauto.
  Qed.

  Lemma run_sound ts st st' :
    ids_ok U au st -> run U au ad ts st = Ok st' ->
    match s_bracket st with
    | None => exists e, struct_by Wf ts e
    | Some _ => exists ws l rest e, ts = map TWord ws ++ TClose :: rest /\ Forall2 Wf ws l /\ struct_by Wf rest e
    end.
  Proof.
    revert st; induction ts as [|t ts IH]; intros st Hok E; simpl in E.
    - destruct (s_bracket st); [discriminate|]. exists []; constructor.
    - destruct t as [| |w].
      + destruct (s_bracket st) eqn:Eb; [discriminate|].
        apply IH in E; [|exact Hok]. simpl in E. destruct E as [ws [l [rest [e [-> [H1 H2]]]]]].
        exists (Group l :: e). constructor; auto.
      + destruct (s_bracket st) as [g|] eqn:Eb; [|discriminate].
        apply IH in E; [|exact Hok]. simpl in E. destruct E as [e He].
        exists [], [], ts, e. repeat split; auto.
      + apply bind_Ok in E as [st1 [E1 E2]]. rewrite add_axis_name_spec in E1 by auto.
        destruct (watom U au w) as [a|] eqn:Ew; [|discriminate].
        pose proof (add_atom_ids_ok _ _ _ _ Ew Hok E1) as Hok1.
        apply IH in E2; auto. apply add_atom_ok in E1; subst st1. simpl in E2.
        destruct (s_bracket st) as [g|]; simpl in E2.
        * destruct E2 as [ws [l [rest [e [-> [H1 H2]]]]]].
          exists (w :: ws), (a :: l), rest, e. repeat split; auto.
        * destruct E2 as [e He]. exists (Atom a :: e). constructor; auto.
  Qed.
End Run.

(** ** closed form of the state after a group / an expression *)
Definition add_all (ids axs : list axis) : list axis := fold_left (fun acc x => set_add x acc) axs ids.
Lemma add_all_app ids l1 l2 : add_all ids (l1 ++ l2) = add_all (add_all ids l1) l2.
Proof. unfold add_all. apply fold_left_app. Qed.

Lemma nbig_app l1 l2 : nbig (l1 ++ l2) = nbig l1 + nbig l2.
Proof. unfold nbig. rewrite filter_app, app_length. reflexivity. Qed.
Lemma nbig_cons a l : nbig (a :: l) = nbig [a] + nbig l.
Proof. apply (nbig_app [a] l). Qed.

Definition after_atoms (l : list atom) (g : list axis) (st : pstate) : pstate :=
  {| s_ids := add_all (s_ids st) (atoms_axes (s_next st) l);
     s_par := if existsb is_ell l then Some true else s_par st;
     s_anon := s_anon st || existsb is_big l;
     s_comp := s_comp st;
     s_bracket := Some (g ++ atoms_axes (s_next st) l);
     s_next := s_next st + nbig l |}.

Lemma do_atoms_closed l st g :
  s_bracket st = Some g -> fold_left (fun st a => do_atom a st) l st = after_atoms l g st.
Proof.
  revert st g; induction l as [|a l IH]; intros st g Hb.
  - unfold after_atoms; simpl. rewrite orb_false_r, app_nil_r, Nat.add_0_r. destruct st; simpl in *; subst; reflexivity.
  - cbn [fold_left]. rewrite (IH _ (g ++ atom_axes (s_next st) a)) by (simpl; rewrite Hb; reflexivity).
    unfold after_atoms; simpl. rewrite Hb. f_equal.
    + rewrite add_all_app. reflexivity.
    + destruct (is_ell a); simpl; destruct (existsb is_ell l); reflexivity.
    + rewrite orb_assoc; reflexivity.
    + rewrite <- app_assoc. reflexivity.
    + rewrite (nbig_cons a l). lia.
Qed.

Definition after_items (e : expr) (st : pstate) : pstate :=
  {| s_ids := add_all (s_ids st) (concat (map comp_axes (comps (s_next st) e)));
     s_par := fold_left ell_par_step e (s_par st);
     s_anon := s_anon st || existsb is_big (atoms e);
     s_comp := s_comp st ++ comps (s_next st) e;
     s_bracket := None;
     s_next := s_next st + nbig (atoms e) |}.

Lemma ell_axes_of a k : is_ell a = true -> atom_axes k a = [ax_ellipsis].
Proof. destruct a as [s|n|]; simpl; try discriminate; auto. intros E; apply str_eqb_eq in E; subst; auto. Qed.

Lemma comp_axes_atom k a : comp_axes (item_comp k (Atom a)) = atom_axes k a.
Proof. simpl. destruct (is_ell a) eqn:E; simpl; auto. symmetry; apply ell_axes_of; auto. Qed.

Definition do_item (st : pstate) (i : item) : pstate :=
  match i with
  | Atom a => do_atom a st
  | Group l => let st' := fold_left (fun st a => do_atom a st) l (set_bracket (Some []) st) in
               close_bracket (match s_bracket st' with Some g => g | None => [] end) st'
  end.

Lemma do_item_closed st i : s_bracket st = None -> do_item st i = after_items [i] st.
Proof.
  intros Hb. destruct i as [a|l].
  - unfold do_item, after_items. cbn [comps map concat atoms flat_map item_atoms fold_left].
    rewrite comp_axes_atom. unfold do_atom. rewrite Hb. simpl. rewrite orb_false_r, app_nil_r. f_equal.
  - unfold do_item. rewrite (do_atoms_closed _ _ []) by reflexivity.
    unfold after_atoms, after_items, close_bracket; simpl. rewrite !app_nil_r. reflexivity.
Qed.

Lemma after_items_cons i e st :
  after_items (i :: e) st = after_items e (after_items [i] st).
Proof.
  unfold after_items. simpl. rewrite !app_nil_r. f_equal.
  - rewrite add_all_app. reflexivity.
  - rewrite existsb_app, orb_assoc. reflexivity.
  - rewrite <- app_assoc. reflexivity.
  - rewrite nbig_app. lia.
Qed.

Lemma do_items_closed e st :
  s_bracket st = None -> fold_left do_item e st = after_items e st.
Proof.
  revert st; induction e as [|i e IH]; intros st Hb.
  - unfold after_items; simpl. rewrite orb_false_r, app_nil_r, Nat.add_0_r. destruct st; simpl in *; subst; reflexivity.
  - cbn [fold_left]. rewrite do_item_closed by auto. rewrite IH by reflexivity. symmetry; apply after_items_cons.
Qed.

(** ** when the names do not clash *)
Section Clash.
  Context (au ad : bool).
  Definition relevant (s : pystr) : bool := negb (au && str_eqb s [c_under]).
  Definition ok_keys (ids : list axis) (ks : list pystr) : Prop :=
    ad = true \/ (NoDup (filter relevant ks) /\ forall s, In s (filter relevant ks) -> ~ In (AxName s) ids).

  Lemma ok_keys_app ids ids' k1 k2 :
    (forall s, In (AxName s) ids' <-> In s k1 \/ In (AxName s) ids) ->
    (ok_keys ids (k1 ++ k2) <-> ok_keys ids k1 /\ ok_keys ids' k2).
  Proof.
    intros Hids. unfold ok_keys. rewrite filter_app, NoDup_app_iff. destruct ad.
    - split; auto.
    - split.
      + intros [E|[[H1 [H2 H3]] H4]]; [discriminate|]. split; right; split; auto.
        * intros s Hs. apply H4. apply in_or_app; auto.
        * intros s Hs Hin. apply Hids in Hin as [Hin|Hin].
          -- apply (H3 s); auto. apply filter_In; split; auto. apply filter_In in Hs; tauto.
          -- apply (H4 s); auto. apply in_or_app; auto.
      + intros [[E|[H1 H2]] [E'|[H3 H4]]]; try discriminate. right. split; [split; [auto|split; auto]|].
        * intros s Hs Hs'. apply (H4 s Hs'). apply Hids. left. apply filter_In in Hs; tauto.
        * intros s Hs Hin. apply in_app_or in Hs as [Hs|Hs]; [apply (H2 s); auto|].
          apply (H4 s Hs). apply Hids; auto.
  Qed.

  Lemma do_atom_ids a st s :
    In (AxName s) (s_ids (do_atom a st)) <-> In s (atom_key a) \/ In (AxName s) (s_ids st).
  Proof.
    unfold do_atom; simpl. rewrite fold_set_add_In. destruct a as [x|n|]; simpl.
    - split; intros [[H|[]]|H]; try (inversion H; subst); auto.
    - destruct (n =? 1)%Z; simpl; split; intros [H|H]; auto; try contradiction.
      destruct H as [H|[]]; discriminate.
    - split; intros [[H|[]]|H]; try (inversion H; subst); auto.
  Qed.

  Lemma clash_spec a st : clash au ad a st = false <-> ok_keys (s_ids st) (atom_key a).
  Proof.
    assert (G : forall s, axis_mem (AxName s) (s_ids st) && relevant s && negb ad = false <-> ok_keys (s_ids st) [s]).
    { intros s. unfold ok_keys. simpl. destruct ad; simpl; [rewrite andb_false_r; tauto|]. rewrite andb_true_r.
      destruct (relevant s); simpl; rewrite ?andb_true_r, ?andb_false_r.
      - rewrite axis_mem_false. split.
        + intros H. right. split; [constructor; [tauto|constructor]|]. intros s' [<-|[]]; auto.
        + intros [E|[_ H]]; [discriminate|]. apply H; auto.
      - split; auto. intros _. right; split; [constructor|]. intros s' []. }
    unfold clash. destruct a as [x|n|]; cbn [atom_key existsb]; rewrite ?orb_false_r.
    - apply G.
    - split; auto. intros _. right; split; [constructor|]. intros s [].
    - apply G.
  Qed.

  Lemma do_atoms_ids l st s :
    In (AxName s) (s_ids (fold_left (fun st a => do_atom a st) l st)) <->
    In s (flat_map atom_key l) \/ In (AxName s) (s_ids st).
  Proof.
    revert st; induction l as [|a l IH]; intros st; simpl; [tauto|].
    rewrite IH, do_atom_ids, in_app_iff. tauto.
  Qed.

  Lemma add_atoms_spec l st :
    (ok_keys (s_ids st) (flat_map atom_key l) /\ add_atoms au ad l st = Ok (fold_left (fun st a => do_atom a st) l st))
    \/ (~ ok_keys (s_ids st) (flat_map atom_key l) /\ add_atoms au ad l st = Err EinopsError).
  Proof.
    revert st; induction l as [|a l IH]; intros st; simpl.
    - left; split; auto. right; split; [constructor|]. intros s [].
    - rewrite (ok_keys_app _ (s_ids (do_atom a st))) by (intros; apply do_atom_ids).
      change (add_atoms au ad (a :: l) st) with (let* st1 := add_atom au ad a st in add_atoms au ad l st1).
      unfold add_atom. rewrite <- clash_spec. destruct (clash au ad a st); simpl.
      + right. split; auto. intros [H _]; discriminate.
      + destruct (IH (do_atom a st)) as [[H1 H2]|[H1 H2]]; [left|right]; split; auto. intros [_ H]; auto.
  Qed.

  Lemma do_item_ids i st s :
    In (AxName s) (s_ids (do_item st i)) <-> In s (flat_map atom_key (item_atoms i)) \/ In (AxName s) (s_ids st).
  Proof.
    destruct i as [a|l]; cbn [do_item item_atoms flat_map].
    - rewrite do_atom_ids, app_nil_r. tauto.
    - unfold close_bracket; cbn [s_ids]. rewrite do_atoms_ids. simpl. tauto.
  Qed.

  Lemma add_items_spec e st :
    (ok_keys (s_ids st) (keys e) /\ add_items au ad e st = Ok (fold_left do_item e st))
    \/ (~ ok_keys (s_ids st) (keys e) /\ add_items au ad e st = Err EinopsError).
  Proof.
    revert st; induction e as [|i e IH]; intros st; simpl.
    - left; split; auto. right; split; [constructor|]. intros s [].
    - unfold keys, atoms; cbn [flat_map]. fold (atoms e). rewrite flat_map_app. fold (keys e).
      rewrite (ok_keys_app _ (s_ids (do_item st i))) by (intros; apply do_item_ids).
      assert (Hi : (ok_keys (s_ids st) (flat_map atom_key (item_atoms i)) /\ add_item au ad st i = Ok (do_item st i))
                   \/ (~ ok_keys (s_ids st) (flat_map atom_key (item_atoms i)) /\ add_item au ad st i = Err EinopsError)).
      { destruct i as [a|l]; simpl.
        - rewrite app_nil_r, <- clash_spec. unfold add_atom. destruct (clash au ad a st); [right|left]; split; auto; discriminate.
        - destruct (add_atoms_spec l (set_bracket (Some []) st)) as [[H1 H2]|[H1 H2]]; simpl in H1; rewrite H2; simpl; auto. }
      change (add_items au ad (i :: e) st) with (let* st1 := add_item au ad st i in add_items au ad e st1).
      destruct Hi as [[H1 H2]|[H1 H2]]; rewrite H2; simpl.
      + destruct (IH (do_item st i)) as [[H3 H4]|[H3 H4]]; [left|right]; split; auto. intros [_ H]; auto.
      + right; split; auto. intros [H _]; auto.
  Qed.
End Clash.

(** ** the loop as a whole (on a string without dots) *)
Definition state_of (e : expr) (k : nat) : pstate := after_items e (init_pstate k).

Lemma ids_ok_init U au k : ids_ok U au (init_pstate k).
Proof. intros s []. Qed.

Lemma parse_loop_iff U au ad s k st :
  parse_loop U au ad s None (init_pstate k) = Ok st <->
  forallb (allowed U) s = true /\
  exists e, struct_by (Wf U au) (lex None s) e /\ ok_keys au ad [] (keys e) /\ st = state_of e k.
Proof.
  rewrite parse_loop_run. destruct (forallb (allowed U) s); [|split; [discriminate|intros [H _]; discriminate]].
  split.
  - intros E. split; auto. pose proof (run_sound U au ad _ _ _ (ids_ok_init U au k) E) as [e He].
    rewrite (run_struct U au ad _ e) in E by (auto using ids_ok_init).
    exists e. split; auto.
    destruct (add_items_spec au ad e (init_pstate k)) as [[H1 H2]|[H1 H2]]; rewrite E in H2; [|discriminate].
    split; auto. inversion H2; subst. apply do_items_closed; reflexivity.
  - intros [_ [e [He [Hk ->]]]]. rewrite (run_struct U au ad _ e) by (auto using ids_ok_init).
    destruct (add_items_spec au ad e (init_pstate k)) as [[H1 H2]|[H1 H2]]; [|contradiction].
    rewrite H2. f_equal. apply do_items_closed; reflexivity.
Qed.

Lemma parse_loop_err U au ad s cur st e : parse_loop U au ad s cur st = Err e -> e = EinopsError.
Proof.
  rewrite parse_loop_run. destruct (forallb (allowed U) s); [apply run_err|congruence].
Qed.

Lemma parse_expression_err U au ad k s e : parse_expression U au ad k s = Err e -> e = EinopsError.
Proof.
  unfold parse_expression. intros H.
  apply bind_Err in H as [H|[u [_ H]]]; [apply raise_if_Err in H as [_ H]; auto|].
  apply bind_Err in H as [H|[u' [_ H]]]; [apply raise_if_Err in H as [_ H]; auto|].
  apply bind_Err in H as [H|[st [_ H]]]; [eapply parse_loop_err; eauto|discriminate].
Qed.
