(** * The parser implements the grammar, part 3: the ellipsis *)
From Verif Require Import Py ListFacts Parsing SpecGrammar Compile ParseFacts ParseFacts2.

(** ** strings *)
Lemma prefixb_spec p s : prefixb p s = true <-> exists post, s = p ++ post.
Proof.
  revert s; induction p as [|a p IH]; intros s; simpl.
  - split; eauto.
  - destruct s as [|b s]; [split; [discriminate|intros [post E]; discriminate]|].
    rewrite andb_true_iff, N.eqb_eq, IH. split.
    + intros [-> [post ->]]. eauto.
    + intros [post E]. inversion E; subst. eauto.
Qed.

Lemma str_contains_spec sub s : str_contains sub s = true <-> exists pre post, s = pre ++ sub ++ post.
Proof.
  induction s as [|c s IH]; simpl; rewrite orb_true_iff, prefixb_spec.
  - split.
    + intros [[post E]|E]; [|discriminate]. exists [], post. auto.
    + intros [pre [post E]]. left. destruct pre; [|discriminate]. eauto.
  - rewrite IH. split.
    + intros [[post E]|[pre [post ->]]].
      * exists [], post. auto.
      * exists (c :: pre), post. reflexivity.
    + intros [pre [post E]]. destruct pre as [|d pre].
      * left; eauto.
      * right. inversion E; subst. eauto.
Qed.

Definition count_dot (s : pystr) : nat := count_occ N.eq_dec s c_dot.

Lemma count_dot_app s1 s2 : count_dot (s1 ++ s2) = count_dot s1 + count_dot s2.
Proof. apply count_occ_app. Qed.

Lemma count_dot_0 s : count_dot s = 0 <-> ~ In c_dot s.
Proof. unfold count_dot. symmetry. apply count_occ_not_In. Qed.

Lemma str_count_dot s : str_count dot s = count_dot s.
Proof.
  unfold str_count. change dot with [c_dot]. induction s as [|c s IH]; [reflexivity|].
  cbn [str_count_aux prefixb length Nat.sub]. rewrite andb_true_r. unfold count_dot in *; cbn [count_occ].
  destruct (N.eq_dec c c_dot) as [->|Hne].
  - rewrite N.eqb_refl. simpl in IH. rewrite IH. reflexivity.
  - rewrite (proj2 (N.eqb_neq _ _)) by congruence. exact IH.
Qed.

Lemma dots_eq : dots = [c_dot; c_dot; c_dot].
Proof. reflexivity. Qed.

Lemma prefix_dots_no c s : c <> c_dot -> prefixb dots (c :: s) = false.
Proof. intros H. rewrite dots_eq. cbn [prefixb]. rewrite (proj2 (N.eqb_neq _ _)) by congruence. reflexivity. Qed.

Lemma count_dots_free s : ~ In c_dot s -> str_count_aux dots 0 s = 0.
Proof.
  induction s as [|c s IH]; intros H; [reflexivity|]. cbn [str_count_aux].
  rewrite prefix_dots_no by (intros ->; apply H; left; auto). apply IH. intros Hin; apply H; right; auto.
Qed.

Lemma replace_dots_free s : ~ In c_dot s -> str_replace dots ellipsis_str s = s.
Proof.
  unfold str_replace. induction s as [|c s IH]; intros H; [reflexivity|]. cbn [str_replace_aux].
  rewrite prefix_dots_no by (intros ->; apply H; left; auto). f_equal. apply IH. intros Hin; apply H; right; auto.
Qed.

Lemma count_dots_one pre post :
  ~ In c_dot pre -> ~ In c_dot post -> str_count dots (pre ++ dots ++ post) = 1.
Proof.
  unfold str_count. intros H1 H2. induction pre as [|c pre IH].
  - rewrite dots_eq. cbn. f_equal. rewrite <- dots_eq. apply count_dots_free; auto.
  - cbn [app str_count_aux]. rewrite prefix_dots_no by (intros ->; apply H1; left; auto).
    apply IH. intros Hin; apply H1; right; auto.
Qed.

Lemma replace_dots_one pre post :
  ~ In c_dot pre -> ~ In c_dot post -> str_replace dots ellipsis_str (pre ++ dots ++ post) = pre ++ ellipsis_str ++ post.
Proof.
  unfold str_replace. intros H1 H2. induction pre as [|c pre IH].
  - rewrite dots_eq. cbn. rewrite <- dots_eq. f_equal. apply replace_dots_free; auto.
  - cbn [app str_replace_aux]. rewrite prefix_dots_no by (intros ->; apply H1; left; auto).
    f_equal. apply IH. intros Hin; apply H1; right; auto.
Qed.

(** ** tokens around a hole *)
Lemma lex_some s : exists v T, (forall w, lex (Some w) s = TWord (w ++ v) :: T) /\
  (forall c, In c v -> In c s) /\ (forall w, In (TWord w) T -> forall c, In c w -> In c s).
Proof.
  induction s as [|c s IH].
  - exists [], []. split; [|split]; [|intros c []|intros w []]. intros w; simpl. rewrite app_nil_r. reflexivity.
  - simpl. destruct (is_sep c) eqn:E.
    + eexists [], _. split; [|split].
      * intros w. rewrite app_nil_r. simpl. reflexivity.
      * intros d [].
      * intros w Hw d Hd. apply in_app_or in Hw as [Hw|Hw].
        -- destruct (c =? c_open)%N; [destruct Hw as [Hw|[]]; discriminate|].
           destruct (c =? c_close)%N; [destruct Hw as [Hw|[]]; discriminate|contradiction].
        -- destruct (lex_cur_words None s w Hw d Hd) as [H|[]]. right; auto.
    + destruct IH as [v [T [H1 [H2 H3]]]]. exists (c :: v), T. split; [|split].
      * intros w. unfold cur_add. rewrite H1. rewrite <- app_assoc. reflexivity.
      * intros d [<-|Hd]; [left; auto|right; auto].
      * intros w Hw d Hd. right; eauto.
Qed.

Lemma lex_hole pre post cur :
  exists T u v T',
    (forall X, X <> [] -> (forall c, In c X -> is_sep c = false) ->
               lex cur (pre ++ X ++ post) = T ++ TWord (u ++ X ++ v) :: T') /\
    (forall c, In c u \/ In c v -> In c pre \/ In c post \/ match cur with Some w => In c w | None => False end) /\
    (forall w, In (TWord w) (T ++ T') -> forall c, In c w ->
       In c pre \/ In c post \/ match cur with Some w => In c w | None => False end).
Proof.
  revert cur; induction pre as [|c pre IH]; intros cur.
  - destruct (lex_some post) as [v [T' [H1 [H2 H3]]]].
    exists [], (match cur with Some w => w | None => [] end), v, T'. split; [|split].
    + intros X Hne HX. simpl. rewrite lex_word by auto. destruct X as [|x X]; [congruence|].
      rewrite H1. destruct cur; rewrite ?app_assoc; reflexivity.
    + intros d [Hd|Hd]; auto. destruct cur; auto.
    + simpl. intros w Hw d Hd. eauto.
  - simpl. destruct (is_sep c) eqn:E.
    + destruct (IH None) as [T [u [v [T' [H1 [H2 H3]]]]]].
      exists (tok_of cur ++ (if (c =? c_open)%N then [TOpen] else if (c =? c_close)%N then [TClose] else []) ++ T), u, v, T'.
      split; [|split].
      * intros X Hne HX. rewrite H1 by auto. rewrite <- !app_assoc. reflexivity.
      * intros d Hd. destruct (H2 d Hd) as [H|[H|[]]]; auto.
      * intros w Hw d Hd. rewrite <- !app_assoc in Hw. apply in_app_or in Hw as [Hw|Hw].
        -- destruct cur as [x|]; simpl in Hw; [|contradiction]. destruct Hw as [Ew|[]]. inversion Ew; subst. auto.
        -- apply in_app_or in Hw as [Hw|Hw].
           ++ destruct (c =? c_open)%N; [destruct Hw as [Hw|[]]; discriminate|].
              destruct (c =? c_close)%N; [destruct Hw as [Hw|[]]; discriminate|contradiction].
           ++ destruct (H3 w Hw d Hd) as [H|[H|[]]]; auto.
    + destruct (IH (cur_add cur c)) as [T [u [v [T' [H1 [H2 H3]]]]]].
      assert (G : forall d, In d pre \/ In d post \/ match cur_add cur c with Some w => In d w | None => False end ->
                  (c = d \/ In d pre) \/ In d post \/ match cur with Some w => In d w | None => False end).
      { intros d [H|[H|H]]; auto. unfold cur_add in H. destruct cur as [w|].
        - apply in_app_or in H as [H|[H|[]]]; auto.
        - destruct H as [H|[]]; auto. }
      exists T, u, v, T'. split; [|split]; eauto.
Qed.

Fixpoint tok_dots (ts : list token) : nat :=
  match ts with [] => 0 | TWord w :: ts' => count_dot w + tok_dots ts' | _ :: ts' => tok_dots ts' end.
Lemma tok_dots_app a b : tok_dots (a ++ b) = tok_dots a + tok_dots b.
Proof. induction a as [|[| |w] a IH]; simpl; auto. rewrite IH; lia. Qed.
Lemma lex_count cur s :
  tok_dots (lex cur s) = count_dot s + match cur with Some w => count_dot w | None => 0 end.
Proof.
  revert cur; induction s as [|c s IH]; intros cur; simpl.
  - destruct cur; simpl; auto.
  - destruct (is_sep c) eqn:E.
    + rewrite !tok_dots_app, IH.
      replace (tok_dots (if (c =? c_open)%N then [TOpen] else if (c =? c_close)%N then [TClose] else [])) with 0
        by (destruct (c =? c_open)%N; [|destruct (c =? c_close)%N]; reflexivity).
      assert (Hc : count_dot (c :: s) = count_dot s).
      { unfold count_dot. apply count_occ_cons_neq. intros ->. discriminate. }
      rewrite Hc. destruct cur; simpl; lia.
    + rewrite IH. unfold cur_add. destruct cur as [w|].
      * rewrite count_dot_app. unfold count_dot; simpl. destruct (N.eq_dec c c_dot); lia.
      * unfold count_dot; simpl. destruct (N.eq_dec c c_dot); lia.
Qed.

(** every word of the token list is a substring *)
Lemma lex_word_sub s : forall cur w, In (TWord w) (lex cur s) ->
  exists pre post, match cur with Some v => v | None => [] end ++ s = pre ++ w ++ post.
Proof.
  induction s as [|c s IH]; intros cur w Hin; simpl in Hin.
  - destruct cur as [v|]; simpl in Hin; [|contradiction]. destruct Hin as [E|[]]. inversion E; subst.
    exists [], []. reflexivity.
  - destruct (is_sep c) eqn:E.
    + apply in_app_or in Hin as [Hin|Hin].
      * destruct cur as [v|]; simpl in Hin; [|contradiction]. destruct Hin as [E'|[]]. inversion E'; subst.
        exists [], (c :: s). reflexivity.
      * apply in_app_or in Hin as [Hin|Hin].
        -- destruct (c =? c_open)%N; [destruct Hin as [Hin|[]]; discriminate|].
           destruct (c =? c_close)%N; [destruct Hin as [Hin|[]]; discriminate|contradiction].
        -- apply IH in Hin as [pre [post Ep]]. simpl in Ep.
           exists (match cur with Some v => v | None => [] end ++ c :: pre), post.
           rewrite Ep, <- app_assoc. reflexivity.
    + apply IH in Hin as [pre [post Ep]]. exists pre, post. rewrite <- Ep.
      unfold cur_add. destruct cur; simpl; rewrite <- ?app_assoc; reflexivity.
Qed.

(** ** atoms with and without dots *)
Definition undot (a : atom) : atom := match a with ADots => AName ell_name | _ => a end.
Definition undot_item (i : item) : item := match i with Atom a => Atom (undot a) | Group l => Group (map undot l) end.
Definition undot_word (w : pystr) : pystr := if str_eqb w dots_word then ell_name else w.
Definition undot_tok (t : token) : token := match t with TWord w => TWord (undot_word w) | _ => t end.

Lemma atoms_undot e : atoms (map undot_item e) = map undot (atoms e).
Proof.
  unfold atoms. induction e as [|i e IH]; simpl; [reflexivity|]. rewrite map_app, IH. destruct i; reflexivity.
Qed.
Lemma keys_undot e : keys (map undot_item e) = keys e.
Proof.
  unfold keys. rewrite atoms_undot, flat_map_concat_map, map_map, <- flat_map_concat_map.
  apply flat_map_ext. intros [| |]; reflexivity.
Qed.
Lemma is_big_undot a : is_big (undot a) = is_big a.
Proof. destruct a; reflexivity. Qed.
Lemma is_ell_undot a : is_ell (undot a) = is_ell a.
Proof. destruct a; try reflexivity. Qed.
Lemma nbig_undot l : nbig (map undot l) = nbig l.
Proof.
  unfold nbig. induction l as [|a l IH]; simpl; [reflexivity|]. rewrite is_big_undot.
  destruct (is_big a); simpl; auto.
Qed.
Lemma existsb_undot (p : atom -> bool) l :
  (forall a, p (undot a) = p a) -> existsb p (map undot l) = existsb p l.
Proof. intros H. induction l as [|a l IH]; simpl; [reflexivity|]. rewrite H, IH. reflexivity. Qed.
Lemma atom_axes_undot k a : atom_axes k (undot a) = atom_axes k a.
Proof. destruct a; reflexivity. Qed.
Lemma atoms_axes_undot k l : atoms_axes k (map undot l) = atoms_axes k l.
Proof.
  revert k; induction l as [|a l IH]; intros k; simpl; [reflexivity|].
  rewrite atom_axes_undot, IH. f_equal. f_equal. f_equal. apply (nbig_undot [a]).
Qed.
Lemma comps_undot k e : comps k (map undot_item e) = comps k e.
Proof.
  revert k; induction e as [|i e IH]; intros k; cbn [map comps]; [reflexivity|].
  rewrite IH. f_equal.
  - destruct i as [a|l]; simpl; [rewrite is_ell_undot, atom_axes_undot; auto|rewrite atoms_axes_undot; auto].
  - f_equal. f_equal. destruct i as [a|l]; simpl; [apply (nbig_undot [a])|apply nbig_undot].
Qed.
Lemma ell_par_undot e acc : fold_left ell_par_step (map undot_item e) acc = fold_left ell_par_step e acc.
Proof.
  revert acc; induction e as [|i e IH]; intros acc; simpl; [reflexivity|]. rewrite IH. f_equal.
  destruct i as [a|l]; simpl; [rewrite is_ell_undot; auto|]. rewrite existsb_undot by apply is_ell_undot. reflexivity.
Qed.

Section WithU.
  Context (U : unicode) (HU : unicode_ok U) (au : bool).

  Lemma dot_not_alnum : u_alnum U c_dot = false.
  Proof. rewrite (uo_alnum U HU) by reflexivity. reflexivity. Qed.
  Lemma dot_no_digit : u_digit U c_dot = None.
  Proof. rewrite (uo_digit U HU) by reflexivity. reflexivity. Qed.

  Lemma isdecimal_digits w : isdecimal U w = true -> forall c, In c w -> exists d, u_digit U c = Some d.
  Proof.
    unfold isdecimal. intros H c Hc. apply andb_true_iff in H as [_ H].
    rewrite forallb_forall in H. specialize (H c Hc). destruct (u_digit U c); [eauto|discriminate].
  Qed.

  Lemma ident_not_decimal w : isidentifier U w = true -> isdecimal U w = false.
  Proof.
    destruct w as [|c w]; [discriminate|]. simpl. intros H. apply andb_true_iff in H as [H _].
    destruct (isdecimal U (c :: w)) eqn:E; auto.
    destruct (isdecimal_digits _ E c (or_introl eq_refl)) as [d Hd].
    rewrite (uo_digit_start U HU c d Hd) in H. discriminate.
  Qed.

  Lemma ell_not_decimal : isdecimal U ell_name = false.
  Proof. unfold isdecimal; simpl. destruct (uo_ell U HU) as [_ [-> _]]. reflexivity. Qed.

  Lemma ell_not_ident : isidentifier U ell_name = false.
  Proof. unfold isidentifier; simpl. destruct (uo_ell U HU) as [_ [_ [-> _]]]. reflexivity. Qed.

  Lemma check_axis_name_spec w :
    check_axis_name U au w = true <->
    isidentifier U w = true /\
    ((hd 0%N w <> c_under /\ last w 0%N <> c_under) \/ (au = true /\ w = [c_under])).
  Proof.
    unfold check_axis_name. destruct (isidentifier U w); simpl; [|split; [discriminate|intros [H _]; discriminate]].
    destruct ((hd 0%N w =? c_under)%N || (last w 0%N =? c_under)%N) eqn:E.
    - rewrite andb_true_iff, str_eqb_eq. apply orb_true_iff in E. rewrite !N.eqb_eq in E.
      split; [tauto|]. intros [_ [[H1 H2]|[H1 H2]]]; [tauto|auto].
    - apply orb_false_iff in E. rewrite !N.eqb_neq in E. tauto.
  Qed.

  (** a word whose characters pass the character check *)
  Definition good_char (c : N) : Prop := u_alnum U c = true \/ c = c_under \/ c = c_ell.

  Lemma word_atom_chars w a : word_atom U au w a -> a <> ADots -> forall c, In c w -> good_char c /\ c <> c_dot.
  Proof.
    intros H Hd c Hc. assert (G : good_char c).
    { destruct H as [|w Hw _|w [->|[_ [Hw _]]]]; [congruence| | |].
      - destruct (isdecimal_digits _ Hw c Hc) as [d E]. left. eapply uo_digit_alnum; eauto.
      - destruct Hc as [<-|[]]. right; right; auto.
      - destruct (Hw c Hc) as [E|E]; [left; auto|right; left; auto]. }
    split; auto. intros ->. destruct G as [G|[G|G]]; [rewrite dot_not_alnum in G|..]; discriminate.
  Qed.

  Lemma word_atom_dots a : word_atom U au dots_word a -> a = ADots.
  Proof.
    intros H. destruct a; auto; exfalso;
      destruct (word_atom_chars _ _ H ltac:(discriminate) c_dot (or_introl eq_refl)) as [_ G]; apply G; auto.
  Qed.

  Lemma word_atom_has_dot w a : word_atom U au w a -> In c_dot w -> w = dots_word /\ a = ADots.
  Proof.
    intros H Hin. destruct a as [s|n|].
    - exfalso; eapply (word_atom_chars _ _ H); [discriminate|exact Hin|auto].
    - exfalso; eapply (word_atom_chars _ _ H); [discriminate|exact Hin|auto].
    - inversion H; auto.
  Qed.

  Lemma word_atom_fun w a b : word_atom U au w a -> word_atom U au w b -> a = b.
  Proof.
    intros H1 H2. destruct a as [s|n|].
    - inversion H1 as [| |w' Hl]; subst. inversion H2 as [E|w' Hd Hn|w' Hl']; subst; auto.
      + apply word_atom_dots in H1. discriminate.
      + destruct Hl as [->|[Hi _]]; [rewrite ell_not_decimal in Hd; discriminate|].
        rewrite (ident_not_decimal _ Hi) in Hd; discriminate.
    - inversion H1 as [|w' Hd Hn|]; subst. inversion H2 as [E|w' Hd' Hn'|w' Hl]; subst; auto.
      + apply word_atom_dots in H1. discriminate.
      + destruct Hl as [->|[Hi _]]; [rewrite ell_not_decimal in Hd; discriminate|].
        rewrite (ident_not_decimal _ Hi) in Hd; discriminate.
    - inversion H1; subst. symmetry. apply word_atom_dots; auto.
  Qed.

  Lemma word_atom_watom w a : word_atom U au w a -> watom U au (undot_word w) = Some (undot a).
  Proof.
    intros H. unfold undot_word. destruct (str_eqb w dots_word) eqn:E.
    - apply str_eqb_eq in E; subst. apply word_atom_dots in H; subst. reflexivity.
    - unfold watom. destruct H as [|w Hd Hn|w Hl].
      + rewrite str_eqb_refl in E; discriminate.
      + destruct (str_eqb w ell_name) eqn:E2.
        * apply str_eqb_eq in E2; subst. rewrite ell_not_decimal in Hd; discriminate.
        * rewrite Hd. rewrite (proj2 (Z.leb_le _ _)) by auto. reflexivity.
      + destruct (str_eqb w ell_name) eqn:E2; [reflexivity|].
        destruct Hl as [->|[Hi [Hc Hu]]]; [rewrite str_eqb_refl in E2; discriminate|].
        rewrite (ident_not_decimal _ Hi).
        rewrite (proj2 (check_axis_name_spec w)) by auto. reflexivity.
  Qed.

  Lemma watom_word_atom w a :
    w <> dots_word -> (forall c, In c w -> good_char c) -> watom U au w = Some a -> word_atom U au w a.
  Proof.
    intros Hnd Hc. unfold watom. destruct (str_eqb w ell_name) eqn:E.
    - intros H; inversion H; subst. constructor. left. apply str_eqb_eq; auto.
    - destruct (isdecimal U w) eqn:Ed.
      + destruct (1 <=? int_of_str U w)%Z eqn:En; intros H; inversion H; subst.
        constructor; auto. apply Z.leb_le; auto.
      + destruct (check_axis_name U au w) eqn:Ek; intros H; inversion H; subst.
        apply check_axis_name_spec in Ek as [Hi Hu]. constructor. right. repeat split; auto.
        intros c Hin. destruct (Hc c Hin) as [G|[G|G]]; auto. subst c. exfalso.
        destruct w as [|c w]; [discriminate|]. simpl in Hi. apply andb_true_iff in Hi as [H1 H2].
        destruct (uo_ell U HU) as [_ [_ [F1 [F2 _]]]].
        destruct Hin as [->|Hin]; [congruence|]. rewrite forallb_forall in H2. rewrite (H2 _ Hin) in F2. discriminate.
  Qed.

  Lemma watom_ell_inside u v a : watom U au (u ++ ell_name ++ v) = Some a -> u = [] /\ v = [].
  Proof.
    unfold watom. destruct (str_eqb (u ++ ell_name ++ v) ell_name) eqn:E.
    - apply str_eqb_eq in E. intros _. destruct u as [|c u]; simpl in E.
      + inversion E; auto.
      + inversion E as [[E1 E2]]. destruct u; discriminate.
    - destruct (uo_ell U HU) as [_ [F0 [F1 [F2 _]]]].
      destruct (isdecimal U (u ++ ell_name ++ v)) eqn:Ed.
      + destruct (isdecimal_digits _ Ed c_ell) as [d Hd]; [apply in_or_app; right; left; auto|congruence].
      + destruct (check_axis_name U au (u ++ ell_name ++ v)) eqn:Ek; [|discriminate].
        apply check_axis_name_spec in Ek as [Hi _]. exfalso.
        destruct u as [|c u]; simpl in Hi.
        * rewrite F1 in Hi. discriminate.
        * apply andb_true_iff in Hi as [_ Hi]. rewrite forallb_forall in Hi.
          specialize (Hi c_ell). rewrite F2 in Hi. discriminate Hi. apply in_or_app; right; left; auto.
  Qed.

  Lemma struct_undot ts e :
    struct_by (word_atom U au) ts e -> struct_by (Wf U au) (map undot_tok ts) (map undot_item e).
  Proof.
    induction 1 as [|w a ts e Hw _ IH|ws l ts e Hws _ IH]; simpl.
    - constructor.
    - constructor; auto. apply word_atom_watom; auto.
    - rewrite map_app, map_map. cbn [map undot_tok].
      rewrite <- (map_map undot_word TWord). constructor; auto.
      clear -Hws HU. induction Hws as [|w a ws l Hw _ IH]; simpl; constructor; auto.
      apply word_atom_watom; auto.
  Qed.

  Lemma struct_redot ts' e' : struct_by (Wf U au) ts' e' ->
    forall ts, ts' = map undot_tok ts ->
    (forall w, In (TWord w) ts -> w = dots_word \/ (forall c, In c w -> good_char c)) ->
    exists e, struct_by (word_atom U au) ts e /\ e' = map undot_item e.
  Proof.
    assert (HW : forall w a, Wf U au (undot_word w) a -> (w = dots_word \/ (forall c, In c w -> good_char c)) ->
                 exists b, word_atom U au w b /\ a = undot b).
    { intros w a Ha Hw. unfold undot_word, Wf in Ha. destruct (str_eqb w dots_word) eqn:E.
      - apply str_eqb_eq in E; subst. exists ADots. split; [constructor|].
        unfold watom in Ha. rewrite str_eqb_refl in Ha. inversion Ha; auto.
      - assert (w <> dots_word) by (intros ->; rewrite str_eqb_refl in E; discriminate).
        destruct Hw as [Hw|Hw]; [contradiction|]. exists a. split; [apply watom_word_atom; auto|].
        destruct a; auto. unfold watom in Ha.
        destruct (str_eqb w ell_name); [discriminate|]. destruct (isdecimal U w).
        + destruct (1 <=? int_of_str U w)%Z; discriminate.
        + destruct (check_axis_name U au w); discriminate. }
    induction 1 as [|w a ts' e' Hw _ IH|ws l ts' e' Hws _ IH]; intros ts E Hg.
    - destruct ts; [|discriminate]. exists []; split; [constructor|auto].
    - destruct ts as [|[| |w0] ts]; simpl in E; try discriminate. inversion E; subst.
      destruct (IH ts eq_refl) as [e [He ->]]; [intros; apply Hg; right; auto|].
      destruct (HW w0 a Hw) as [b [Hb ->]]; [apply Hg; left; auto|].
      exists (Atom b :: e). split; [constructor; auto|reflexivity].
    - destruct ts as [|[| |w0] ts]; simpl in E; try discriminate. inversion E as [E']; clear E.
      assert (G : exists ws0 l0 ts0, ts = map TWord ws0 ++ TClose :: ts0 /\ Forall2 (word_atom U au) ws0 l0
                                     /\ l = map undot l0 /\ ts' = map undot_tok ts0).
      { assert (Hg' : forall w, In (TWord w) ts -> w = dots_word \/ (forall c, In c w -> good_char c))
          by (intros; apply Hg; right; auto).
        clear Hg IH. revert ts E' Hg'. induction Hws as [|w a ws l Hw _ IHw]; intros ts E' Hg'; simpl in E'.
        - destruct ts as [|[| |w0] ts]; simpl in E'; try discriminate. inversion E'; subst.
          exists [], [], ts. repeat split; auto.
        - destruct ts as [|[| |w0] ts]; simpl in E'; try discriminate. inversion E' as [[E1 E2]].
          rewrite E1 in Hw. destruct (HW w0 a Hw) as [b [Hb ->]]; [apply Hg'; left; auto|].
          destruct (IHw ts E2) as [ws0 [l0 [ts0 [-> [H1 [-> ->]]]]]]; [intros; apply Hg'; right; auto|].
          exists (w0 :: ws0), (b :: l0), ts0. repeat split; auto. }
      destruct G as [ws0 [l0 [ts0 [-> [H1 [-> ->]]]]]].
      destruct (IH ts0 eq_refl) as [e [He ->]].
      { intros w Hin. apply Hg. right. apply in_or_app. right; right; auto. }
      exists (Group l0 :: e). split; [constructor; auto|reflexivity].
  Qed.

  (** dots in the tree = dots in the string *)
  Lemma struct_tok_dots ts e : struct_by (word_atom U au) ts e -> tok_dots ts = 3 * ndots e.
  Proof.
    assert (HW : forall w a, word_atom U au w a -> count_dot w = 3 * length (filter is_dots [a])).
    { intros w a H. destruct a.
      - simpl. apply count_dot_0. intros Hin. apply word_atom_has_dot in H as [_ H]; auto; discriminate.
      - simpl. apply count_dot_0. intros Hin. apply word_atom_has_dot in H as [_ H]; auto; discriminate.
      - inversion H; reflexivity. }
    unfold ndots, atoms.
    induction 1 as [|w a ts e Hw _ IH|ws l ts e Hws _ IH]; cbn [flat_map item_atoms tok_dots].
    - reflexivity.
    - rewrite filter_app, app_length, (HW w a Hw). lia.
    - rewrite tok_dots_app. cbn [tok_dots]. rewrite IH, filter_app, app_length.
      assert (tok_dots (map TWord ws) = 3 * length (filter is_dots l)); [|lia].
      clear -Hws HW. induction Hws as [|w a ws l Hw _ IH]; [reflexivity|].
      cbn [map tok_dots]. rewrite (HW w a Hw), IH. simpl. destruct (is_dots a); simpl; lia.
  Qed.

  Lemma has_dots_ndots e : has_dots e = negb (ndots e =? 0).
  Proof.
    unfold has_dots, ndots. induction (atoms e) as [|a l IH]; simpl; [reflexivity|].
    destruct (is_dots a); simpl; auto.
  Qed.

  Lemma undot_tok_free ts : (forall w, In (TWord w) ts -> ~ In c_dot w) -> map undot_tok ts = ts.
  Proof.
    intros H. rewrite <- (map_id ts) at 2. apply map_ext_in. intros [| |w] Hin; auto. simpl. f_equal.
    unfold undot_word. destruct (str_eqb w dots_word) eqn:E; auto. apply str_eqb_eq in E; subst.
    exfalso; apply (H dots_word Hin). left; auto.
  Qed.

  Lemma allowed_words s : forallb (allowed U) s = true <-> forall w, In (TWord w) (lex None s) -> forall c, In c w -> good_char c.
  Proof.
    split.
    - intros H w Hw c Hc. rewrite forallb_forall in H.
      destruct (lex_cur_words None s w Hw c Hc) as [Hin|[]]. specialize (H c Hin).
      unfold allowed in H. rewrite (lex_words_nonsep None s w I Hw c Hc) in H. simpl in H.
      rewrite !orb_true_iff, !N.eqb_eq in H. destruct H as [[H|H]|H]; [left|right; left|right; right]; auto.
    - intros H. apply forallb_forall. intros c Hc. unfold allowed. destruct (is_sep c) eqn:E; auto. simpl.
      destruct (lex_chars s None c Hc E) as [w [Hw Hin]]. specialize (H w Hw c Hin).
      rewrite !orb_true_iff, !N.eqb_eq. destruct H as [H|[H|H]]; auto.
  Qed.

  Lemma tok_dots_free ts : tok_dots ts = 0 <-> forall w, In (TWord w) ts -> ~ In c_dot w.
  Proof.
    induction ts as [|[| |w] ts IH]; simpl.
    - split; auto.
    - rewrite IH. split; [intros H w [E|Hw]; [discriminate|auto]|auto].
    - rewrite IH. split; [intros H w [E|Hw]; [discriminate|auto]|auto].
    - split.
      + intros H w' [E|Hw]; [inversion E; subst; apply count_dot_0; lia|]. apply IH; auto. lia.
      + intros H. assert (H1 : count_dot w = 0) by (apply count_dot_0; apply H; auto).
        rewrite H1. apply IH. auto.
  Qed.

  Context (ad : bool).

  Lemma ok_keys_nil e : ok_keys au ad [] (keys e) <->
    (ad = true \/ NoDup (filter (fun s => negb (au && str_eqb s [c_under])) (keys e))).
  Proof.
    unfold ok_keys. fold (relevant au). split.
    - intros [H|[H _]]; auto.
    - intros [H|H]; auto.
  Qed.

  Lemma parsed_of_state e k hd_ : hd_ = has_dots e ->
    let st := state_of (map undot_item e) k in
    ({| p_has_ellipsis := hd_; p_ell_par := s_par st; p_identifiers := s_ids st;
        p_anon := s_anon st; p_composition := s_comp st |}, s_next st) = compile k e.
  Proof.
    intros ->. cbv zeta. unfold state_of, after_items, compile; simpl.
    rewrite comps_undot, ell_par_undot, atoms_undot, nbig_undot.
    rewrite existsb_undot by apply is_big_undot. reflexivity.
  Qed.

  (** the string on which the loop runs *)
  Lemma parse_expression_iff k s p :
    parse_expression U au ad k s = Ok p <-> exists e, written_as U au ad s e /\ p = compile k e.
  Proof.
    unfold parse_expression, written_as.
    destruct (str_contains dot s) eqn:Ed.
    - (* dots *)
      simpl. split.
      + intros H. apply bind_Ok in H as [u1 [H1 H]]. apply raise_if_Ok in H1.
        apply bind_Ok in H as [u2 [H2 H]]. apply raise_if_Ok in H2.
        apply bind_Ok in H as [st [H3 H]]. inversion H; subst; clear H.
        apply negb_false_iff in H1. apply orb_false_iff in H2 as [H2 H2'].
        apply negb_false_iff in H2, H2'. apply Nat.eqb_eq in H2, H2'.
        apply str_contains_spec in H1 as [pre [post ->]].
        rewrite str_count_dot, !count_dot_app in H2'. change (count_dot dots) with 3 in H2'.
        assert (Hpre : ~ In c_dot pre) by (apply count_dot_0; lia).
        assert (Hpost : ~ In c_dot post) by (apply count_dot_0; lia).
        rewrite replace_dots_one in H3 by auto.
        apply parse_loop_iff in H3 as [Hal [e' [He' [Hk ->]]]].
        destruct (lex_hole pre post None) as [T [u [v [T' [Hlex [Huv HT]]]]]].
        assert (L1 : lex None (pre ++ ellipsis_str ++ post) = T ++ TWord (u ++ ell_name ++ v) :: T').
        { apply Hlex; [discriminate|]. intros c [<-|[]]; reflexivity. }
        assert (L2 : lex None (pre ++ dots ++ post) = T ++ TWord (u ++ dots ++ v) :: T').
        { apply Hlex; [discriminate|]. intros c [<-|[<-|[<-|[]]]]; reflexivity. }
        assert (Hfree : forall w, In (TWord w) (T ++ T') -> ~ In c_dot w).
        { intros w Hw Hin. destruct (HT w Hw c_dot Hin) as [G|[G|[]]]; auto. }
        assert (Hw : exists a, watom U au (u ++ ell_name ++ v) = Some a).
        { rewrite L1 in He'. clear -He'.
          assert (G : forall ts e, struct_by (Wf U au) ts e -> forall w, In (TWord w) ts -> exists a, watom U au w = Some a).
          { induction 1 as [|w a ts e Hw _ IH|ws l ts e Hws _ IH]; intros x Hin.
            - destruct Hin.
            - destruct Hin as [E|Hin]; [inversion E; subst; eauto|auto].
            - destruct Hin as [E|Hin]; [discriminate|]. apply in_app_or in Hin as [Hin|[E|Hin]]; [|discriminate|auto].
              clear -Hws Hin. induction Hws as [|w a ws l Hw _ IH]; [destruct Hin|].
              destruct Hin as [E|Hin]; [inversion E; subst; eauto|auto]. }
          eapply G; [exact He'|]. apply in_or_app; right; left; reflexivity. }
        destruct Hw as [a Ha]. apply watom_ell_inside in Ha as [-> ->]. rewrite app_nil_l, app_nil_r in L1, L2.
        destruct (struct_redot _ _ He' (T ++ TWord dots_word :: T')) as [e [He ->]].
        { rewrite L1, map_app. cbn [map undot_tok]. rewrite !undot_tok_free.
          - reflexivity.
          - intros w Hw. apply Hfree. apply in_or_app; auto.
          - intros w Hw. apply Hfree. apply in_or_app; auto. }
        { intros w Hin. apply in_app_or in Hin as [Hin|[E|Hin]].
          - right. apply (proj1 (allowed_words _) Hal w). rewrite L1. apply in_or_app; auto.
          - inversion E; auto.
          - right. apply (proj1 (allowed_words _) Hal w). rewrite L1. apply in_or_app; right; right; auto. }
        rewrite keys_undot in Hk.
        assert (Hn : ndots e = 1).
        { pose proof (struct_tok_dots _ _ He) as E. rewrite tok_dots_app in E. cbn [tok_dots] in E.
          assert (tok_dots T = 0) by (apply tok_dots_free; intros w Hw; apply Hfree; apply in_or_app; auto).
          assert (tok_dots T' = 0) by (apply tok_dots_free; intros w Hw; apply Hfree; apply in_or_app; auto).
          change (count_dot dots_word) with 3 in E. lia. }
        exists e. split.
        * exists (T ++ TWord dots_word :: T'). split; [apply spells_iff; symmetry; exact L2|].
          split; [apply structured_by; exact He|]. split; [lia|]. apply ok_keys_nil; auto.
        * apply parsed_of_state. rewrite has_dots_ndots, Hn. reflexivity.
      + intros [e [[ts [Hs [He [Hn Hk]]]] ->]].
        apply spells_iff in Hs; subst ts. apply structured_by in He.
        pose proof (struct_tok_dots _ _ He) as Hc. rewrite lex_count, Nat.add_0_r in Hc.
        assert (Hpos : count_dot s <> 0).
        { rewrite count_dot_0. intros G. apply G. apply str_contains_spec in Ed as [pre [post ->]].
          apply in_or_app; right; left; reflexivity. }
        assert (Hn1 : ndots e = 1) by lia. rewrite Hn1 in Hc.
        assert (Hd : In (TWord dots_word) (lex None s)).
        { assert (Hin : In c_dot s) by (destruct (in_dec N.eq_dec c_dot s); auto; apply count_dot_0 in n; lia).
          destruct (lex_chars s None c_dot Hin eq_refl) as [w [Hw Hwin]].
          assert (Hwa : exists a, word_atom U au w a).
          { clear -He Hw. induction He as [|x a ts e Hx _ IH|ws l ts e Hws _ IH].
            - destruct Hw.
            - destruct Hw as [E|Hin]; [inversion E; subst; eauto|auto].
            - destruct Hw as [E|Hin]; [discriminate|]. apply in_app_or in Hin as [Hin|[E|Hin]]; [|discriminate|auto].
              clear -Hws Hin. induction Hws as [|x a ws l Hx _ IH]; [destruct Hin|].
              destruct Hin as [E|Hin]; [inversion E; subst; eauto|auto]. }
          destruct Hwa as [a Ha]. apply word_atom_has_dot in Ha as [-> _]; auto. }
        destruct (lex_word_sub _ _ _ Hd) as [pre [post Es]]. rewrite app_nil_l in Es. change dots_word with dots in Es. subst s.
        rewrite !count_dot_app in Hc. change (count_dot dots) with 3 in Hc.
        assert (Hpre : ~ In c_dot pre) by (apply count_dot_0; lia).
        assert (Hpost : ~ In c_dot post) by (apply count_dot_0; lia).
        rewrite count_dots_one by auto. rewrite str_count_dot, !count_dot_app.
        replace (count_dot pre) with 0 by lia. replace (count_dot post) with 0 by lia.
        replace (str_contains dots (pre ++ dots ++ post)) with true
          by (symmetry; apply str_contains_spec; eauto).
        cbn [negb raise_if bind Nat.eqb orb]. rewrite replace_dots_one by auto.
        change (count_dot dots) with 3. cbn [negb raise_if bind Nat.eqb orb Nat.add].
        destruct (lex_hole pre post None) as [T [u [v [T' [Hlex [Huv HT]]]]]].
        assert (L1 : lex None (pre ++ ellipsis_str ++ post) = T ++ TWord (u ++ ell_name ++ v) :: T').
        { apply Hlex; [discriminate|]. intros c [<-|[]]; reflexivity. }
        assert (L2 : lex None (pre ++ dots ++ post) = T ++ TWord (u ++ dots ++ v) :: T').
        { apply Hlex; [discriminate|]. intros c [<-|[<-|[<-|[]]]]; reflexivity. }
        assert (Hfree : forall w, In (TWord w) (T ++ T') -> ~ In c_dot w).
        { intros w Hw Hin. destruct (HT w Hw c_dot Hin) as [G|[G|[]]]; auto. }
        assert (Hall : forall w, In (TWord w) (lex None (pre ++ dots ++ post)) -> exists a, word_atom U au w a).
        { clear -He. intros w Hw. induction He as [|x a ts e Hx _ IH|ws l ts e Hws _ IH].
          - destruct Hw.
          - destruct Hw as [E|Hin]; [inversion E; subst; eauto|auto].
          - destruct Hw as [E|Hin]; [discriminate|]. apply in_app_or in Hin as [Hin|[E|Hin]]; [|discriminate|auto].
            clear -Hws Hin. induction Hws as [|x a ws l Hx _ IH]; [destruct Hin|].
            destruct Hin as [E|Hin]; [inversion E; subst; eauto|auto]. }
        assert (Huv0 : u = [] /\ v = []).
        { destruct (Hall (u ++ dots ++ v)) as [a Ha].
          - rewrite L2. apply in_or_app; right; left; auto.
          - apply word_atom_has_dot in Ha as [E _]; [|apply in_or_app; right; left; auto].
            apply (f_equal (@length N)) in E. rewrite !app_length in E. simpl in E.
            destruct u, v; simpl in E; auto; lia. }
        destruct Huv0 as [-> ->]. rewrite app_nil_l, app_nil_r in L1, L2.
        assert (L3 : lex None (pre ++ ellipsis_str ++ post) = map undot_tok (lex None (pre ++ dots ++ post))).
        { rewrite L1, L2, map_app. cbn [map undot_tok]. rewrite !undot_tok_free.
          - reflexivity.
          - intros w Hw. apply Hfree. apply in_or_app; auto.
          - intros w Hw. apply Hfree. apply in_or_app; auto. }
        assert (Hst : parse_loop U au ad (pre ++ ellipsis_str ++ post) None (init_pstate k) = Ok (state_of (map undot_item e) k)).
        { apply parse_loop_iff. split.
          - apply allowed_words. intros w Hw c Hcw. rewrite L1 in Hw.
            apply in_app_or in Hw as [Hw|[E|Hw]].
            + destruct (Hall w) as [a Ha]; [rewrite L2; apply in_or_app; auto|].
              destruct (word_atom_chars w a Ha) with (c := c); auto.
              intros ->. inversion Ha; subst. apply (Hfree dots_word); [apply in_or_app; auto|left; auto].
            + inversion E; subst. destruct Hcw as [<-|[]]. right; right; auto.
            + destruct (Hall w) as [a Ha]; [rewrite L2; apply in_or_app; right; right; auto|].
              destruct (word_atom_chars w a Ha) with (c := c); auto.
              intros ->. inversion Ha; subst. apply (Hfree dots_word); [apply in_or_app; auto|left; auto].
          - exists (map undot_item e). split; [rewrite L3; apply struct_undot; auto|].
            split; [rewrite keys_undot; apply ok_keys_nil; auto|reflexivity]. }
        rewrite Hst. cbn [bind].
        f_equal. apply parsed_of_state. rewrite has_dots_ndots, Hn1. reflexivity.
    - (* no dots *)
      simpl.
      assert (Hnd : ~ In c_dot s).
      { intros Hin. apply in_split in Hin as [pre [post ->]].
        assert (str_contains dot (pre ++ c_dot :: post) = true); [|congruence].
        apply str_contains_spec. exists pre, post. reflexivity. }
      assert (Hfree : forall w, In (TWord w) (lex None s) -> ~ In c_dot w).
      { intros w Hw Hin. destruct (lex_cur_words None s w Hw c_dot Hin) as [G|[]]; auto. }
      split.
      + intros H. apply bind_Ok in H as [st [H3 H]]. inversion H; subst; clear H.
        apply parse_loop_iff in H3 as [Hal [e' [He' [Hk ->]]]].
        destruct (struct_redot _ _ He' (lex None s)) as [e [He ->]].
        { symmetry; apply undot_tok_free; auto. }
        { intros w Hw. right. apply (proj1 (allowed_words _) Hal w Hw). }
        rewrite keys_undot in Hk.
        assert (Hn : ndots e = 0).
        { pose proof (struct_tok_dots _ _ He) as E. rewrite lex_count in E. apply count_dot_0 in Hnd. lia. }
        exists e. split.
        * exists (lex None s). split; [apply spells_iff; reflexivity|].
          split; [apply structured_by; exact He|]. split; [lia|]. apply ok_keys_nil; auto.
        * apply parsed_of_state. rewrite has_dots_ndots, Hn. reflexivity.
      + intros [e [[ts [Hs [He [Hn Hk]]]] ->]].
        apply spells_iff in Hs; subst ts. apply structured_by in He.
        assert (Hn0 : ndots e = 0).
        { pose proof (struct_tok_dots _ _ He) as E. rewrite lex_count in E. apply count_dot_0 in Hnd. lia. }
        assert (Hall : forall w, In (TWord w) (lex None s) -> exists a, word_atom U au w a).
        { clear -He. intros w Hw. induction He as [|x a ts e Hx _ IH|ws l ts e Hws _ IH].
          - destruct Hw.
          - destruct Hw as [E|Hin]; [inversion E; subst; eauto|auto].
          - destruct Hw as [E|Hin]; [discriminate|]. apply in_app_or in Hin as [Hin|[E|Hin]]; [|discriminate|auto].
            clear -Hws Hin. induction Hws as [|x a ws l Hx _ IH]; [destruct Hin|].
            destruct Hin as [E|Hin]; [inversion E; subst; eauto|auto]. }
        assert (Hst : parse_loop U au ad s None (init_pstate k) = Ok (state_of (map undot_item e) k)).
        { apply parse_loop_iff. split.
          - apply allowed_words. intros w Hw c Hcw. destruct (Hall w Hw) as [a Ha].
            destruct (word_atom_chars w a Ha) with (c := c); auto.
            intros ->. inversion Ha; subst. apply (Hfree dots_word Hw). left; auto.
          - exists (map undot_item e). split; [rewrite <- (undot_tok_free (lex None s)) by auto; apply struct_undot; auto|].
            split; [rewrite keys_undot; apply ok_keys_nil; auto|reflexivity]. }
        rewrite Hst. simpl. f_equal. apply parsed_of_state. rewrite has_dots_ndots, Hn0. reflexivity.
  Qed.
End WithU.

Lemma written_fun U au ad s e1 e2 :
  unicode_ok U -> written_as U au ad s e1 -> written_as U au ad s e2 -> e1 = e2.
Proof.
  intros HU [ts1 [Hs1 [H1 _]]] [ts2 [Hs2 [H2 _]]]. apply spells_iff in Hs1, Hs2. subst.
  apply structured_by in H1, H2. eapply struct_by_fun; eauto. intros. eapply word_atom_fun; eauto.
Qed.
