(** * The first half of recipe preparation, in terms of the grammar *)
From Verif Require Import Py Tensor ListFacts SpecSem SpecGrammar SpecPattern Parsing Compile Recipe ParseFacts ParseFacts2 ParseFacts3 RecipeFacts InferFacts ApplyFacts FrontFacts.

(** ** the arrow *)
Definition c_minus : N := 45.
Definition c_gt : N := 62.
Lemma arrow_eq : s_arrow = [c_minus; c_gt].
Proof. reflexivity. Qed.

Lemma split_nonnil sep k s : str_split_aux sep k s <> [].
Proof.
  revert k; induction s as [|c s IH]; intros k; simpl; [discriminate|]. destruct k.
  - destruct (prefixb sep (c :: s)); [discriminate|]. destruct (str_split_aux sep 0 s) eqn:E; [exfalso; eapply IH; eauto|discriminate].
  - apply IH.
Qed.

Lemma prefix_arrow s : prefixb s_arrow s = true <-> exists r, s = c_minus :: c_gt :: r.
Proof. rewrite prefixb_spec, arrow_eq. split; intros [r H]; exists r; auto. Qed.

Lemma split_arrow_cons c s :
  str_split s_arrow (c :: s) =
  if prefixb s_arrow (c :: s) then [] :: str_split s_arrow (tl s) else cons_head c (str_split s_arrow s).
Proof.
  unfold str_split. cbn [str_split_aux]. destruct (prefixb s_arrow (c :: s)) eqn:E; [|reflexivity].
  apply prefix_arrow in E as [r E]. inversion E; subst. reflexivity.
Qed.

Lemma split_two p l r : str_split s_arrow p = [l; r] -> p = l ++ s_arrow ++ r.
Proof.
  revert l; induction p as [|c p IH]; intros l H; [discriminate|].
  rewrite split_arrow_cons in H. destruct (prefixb s_arrow (c :: p)) eqn:E.
  - apply prefix_arrow in E as [q E]. inversion E; subst. simpl in H. inversion H; subst l.
    assert (G : forall q, str_split s_arrow q = [r] -> q = r).
    { clear. induction q as [|c q IHq] in r |- *; intros H; [inversion H; auto|]. rewrite split_arrow_cons in H.
      destruct (prefixb s_arrow (c :: q)) eqn:E.
      - inversion H as [[H1 H2]]. exfalso; eapply split_nonnil; eauto.
      - destruct (str_split s_arrow q) as [|a t] eqn:Eq; [exfalso; eapply split_nonnil; eauto|].
        simpl in H. inversion H; subst. f_equal. apply (IHq a); auto. }
    rewrite (G q) by auto. reflexivity.
  - destruct (str_split s_arrow p) as [|a t] eqn:Eq; [exfalso; eapply split_nonnil; eauto|].
    simpl in H. inversion H; subst. rewrite (IH a eq_refl). reflexivity.
Qed.

(** arrow-free strings *)
Definition arrow_free (s : pystr) : Prop := str_contains s_arrow s = false.

Lemma split_free s : arrow_free s -> str_split s_arrow s = [s].
Proof.
  unfold arrow_free. induction s as [|c s IH]; intros H; [reflexivity|]. rewrite split_arrow_cons.
  change (str_contains s_arrow (c :: s)) with (prefixb s_arrow (c :: s) || str_contains s_arrow s) in H.
  apply orb_false_iff in H as [H1 H2]. rewrite H1, IH; auto.
Qed.

Lemma prefix_arrow_app l r : prefixb s_arrow (l ++ s_arrow ++ r) = true -> l = [] \/ prefixb s_arrow l = true.
Proof.
  rewrite !prefix_arrow. intros [q H]. destruct l as [|c [|d l]]; auto.
  - simpl in H. inversion H.
  - right. simpl in H. inversion H; subst. eauto.
Qed.

Lemma split_one_arrow l r : arrow_free l -> str_split s_arrow (l ++ s_arrow ++ r) = l :: str_split s_arrow r.
Proof.
  induction l as [|c l IH]; intros H.
  - simpl. rewrite arrow_eq. reflexivity.
  - unfold arrow_free in H.
    change (str_contains s_arrow (c :: l)) with (prefixb s_arrow (c :: l) || str_contains s_arrow l) in H.
    apply orb_false_iff in H as [H1 H2]. cbn [app]. rewrite split_arrow_cons.
    destruct (prefixb s_arrow (c :: l ++ s_arrow ++ r)) eqn:E.
    + apply (prefix_arrow_app (c :: l)) in E as [E|E]; [discriminate|congruence].
    + rewrite IH by exact H2. reflexivity.
Qed.

Lemma no_minus_free s : ~ In c_minus s -> arrow_free s.
Proof.
  intros H. unfold arrow_free. destruct (str_contains s_arrow s) eqn:E; auto. exfalso.
  apply str_contains_spec in E as [a [b ->]]. apply H. apply in_or_app; right. left; auto.
Qed.

(** ** what a written expression contains *)
Section Written.
  Context (U : unicode) (HU : unicode_ok U).

  Lemma struct_words au ts e : struct_by (word_atom U au) ts e ->
    forall w, In (TWord w) ts -> exists a, word_atom U au w a /\ In a (atoms e).
  Proof.
    induction 1 as [|x a ts e Hx _ IH|ws l ts e Hws _ IH]; intros w Hw.
    - destruct Hw.
    - destruct Hw as [E|Hin]; [inversion E; subst; exists a; split; auto; left; auto|].
      destruct (IH _ Hin) as [b [H1 H2]]. exists b; split; auto. right; auto.
    - destruct Hw as [E|Hin]; [discriminate|]. unfold atoms. cbn [flat_map item_atoms].
      apply in_app_or in Hin as [Hin|[E|Hin]]; [|discriminate|].
      + assert (exists a, word_atom U au w a /\ In a l) as [a [H1 H2]].
        { clear -Hws Hin. induction Hws as [|x a ws l Hx _ IH]; [destruct Hin|].
          destruct Hin as [E|Hin]; [inversion E; subst; exists a; split; auto; left; auto|].
          destruct (IH Hin) as [b [H1 H2]]. exists b; split; auto. right; auto. }
        exists a; split; auto. apply in_or_app; auto.
      + destruct (IH _ Hin) as [b [H1 H2]]. exists b; split; auto. apply in_or_app; auto.
  Qed.

  Lemma struct_atoms au ts e : struct_by (word_atom U au) ts e ->
    forall a, In a (atoms e) -> exists w, word_atom U au w a.
  Proof.
    induction 1 as [|x a ts e Hx _ IH|ws l ts e Hws _ IH]; intros b Hb.
    - destruct Hb.
    - destruct Hb as [->|Hb]; eauto.
    - unfold atoms in Hb. cbn [flat_map item_atoms] in Hb. apply in_app_or in Hb as [Hb|Hb]; [|apply IH; auto].
      clear -Hws Hb. induction Hws as [|x a ws l Hx _ IH]; [destruct Hb|]. destruct Hb as [->|Hb]; eauto.
  Qed.

  Lemma minus_free au ad s e : written_as U au ad s e -> ~ In c_minus s.
  Proof.
    intros [ts [Hs [He _]]] Hin. apply spells_iff in Hs; subst ts. apply structured_by in He.
    destruct (lex_chars s None c_minus Hin eq_refl) as [w [Hw Hc]].
    destruct (struct_words _ _ _ He _ Hw) as [a [Ha _]].
    assert (Hm : u_alnum U c_minus = false) by (rewrite (uo_alnum U HU); reflexivity).
    inversion Ha; subst.
    - simpl in Hc. unfold c_minus in Hc. repeat (destruct Hc as [Hc|Hc]; [discriminate|]). destruct Hc.
    - destruct (isdecimal_digits U w H c_minus Hc) as [d Hd]. apply (uo_digit_alnum U HU) in Hd. congruence.
    - destruct H as [->|[_ [H _]]].
      + destruct Hc as [Hc|[]]; discriminate.
      + destruct (H _ Hc) as [X|X]; [congruence|discriminate].
  Qed.

  Lemma written_keys au ad s e x : written_as U au ad s e -> In x (keys e) -> plain_name U x.
  Proof.
    intros [ts [_ [He _]]] Hx. apply structured_by in He. unfold keys in Hx.
    apply in_flat_map in Hx as [a [Ha Hx]]. destruct (struct_atoms _ _ _ He a Ha) as [w Hw].
    inversion Hw; subst; simpl in Hx.
    - destruct Hx as [<-|[]]. left; auto.
    - destruct Hx.
    - destruct Hx as [<-|[]]. destruct H as [->|[H _]]; [left|right]; auto.
  Qed.

  Lemma written_num au ad s e n : written_as U au ad s e -> In (ANum n) (atoms e) -> (1 <= n)%Z.
  Proof.
    intros [ts [_ [He _]]] Hx. apply structured_by in He. destruct (struct_atoms _ _ _ He _ Hx) as [w Hw].
    inversion Hw; subst; auto.
  Qed.

  Lemma written_NoDup s e : written U s e -> NoDup (keys e).
  Proof.
    intros [ts [_ [_ [_ [H|H]]]]]; [discriminate|]. simpl in H.
    replace (filter (fun _ => true) (keys e)) with (keys e) in H; auto.
    clear. induction (keys e) as [|x l IH]; simpl; congruence.
  Qed.

  Lemma reads_split pattern L R :
    reads U pattern L R <->
    exists l r, str_split s_arrow pattern = [l; r] /\ written U l L /\ written U r R.
  Proof.
    unfold reads. change (lit "->") with s_arrow. split; intros [l [r [E [H1 H2]]]]; exists l, r; repeat split; auto.
    - rewrite E. rewrite split_one_arrow by (apply no_minus_free; eapply minus_free; eauto).
      rewrite split_free by (apply no_minus_free; eapply minus_free; eauto). reflexivity.
    - apply split_two; auto.
  Qed.

  Lemma reads_fun pattern L R L' R' : reads U pattern L R -> reads U pattern L' R' -> L = L' /\ R = R'.
  Proof.
    rewrite !reads_split. intros [l [r [E [H1 H2]]]] [l' [r' [E' [H1' H2']]]]. rewrite E in E'. inversion E'; subst.
    split; eapply written_fun; eauto.
  Qed.
End Written.

(** ** identifiers *)
Definition op_role (op : operation) : option role :=
  match op with
  | OpCallable => Some Reducing
  | OpStr s => if str_eqb s s_rearrange then Some Rearranging
               else if str_eqb s s_repeat then Some Repeating
               else if str_mem s reductions then Some Reducing else None
  end.

Lemma incl_ids k k' L R : (forall j n, ~ big_at k (atoms L) j n \/ ~ big_at k' (atoms R) j n) ->
  (incl (ids k L) (ids k' R) <-> has_numbers L = false /\ incl (keys L) (keys R)).
Proof.
  intros Hd. split.
  - intros H. split.
    + destruct (has_numbers L) eqn:E; auto. exfalso. destruct (big_exists k _ E) as [j [n Hj]].
      destruct (Hd j n) as [X|X]; [contradiction|]. apply X.
      apply (in_ids k' R (AxAnon j n)). apply H. apply (in_ids k L (AxAnon j n)). auto.
    + intros s Hs. apply (in_ids k' R (AxName s)). apply H. apply (in_ids k L (AxName s)). auto.
  - intros [Hn Hk] a Ha. apply in_ids in Ha. apply in_ids. destruct a as [s|j n]; auto.
    exfalso. apply big_at_range in Ha as [_ [Ha Hn1]].
    assert (has_numbers L = true); [|congruence]. unfold has_numbers. apply existsb_exists. exists (ANum n). split; auto.
    simpl. apply negb_true_iff, Z.eqb_neq; auto.
Qed.

Lemma no_numbers_big k l j n : existsb is_big l = false -> ~ big_at k l j n.
Proof.
  intros H Hb. apply big_at_range in Hb as [_ [Hin Hn]].
  assert (existsb is_big l = true); [|congruence]. apply existsb_exists. exists (ANum n). split; auto.
  simpl. apply negb_true_iff, Z.eqb_neq; auto.
Qed.

Lemma big_disjoint L R j n :
  ~ big_at 0 (atoms L) j n \/ ~ big_at (nbig (atoms L)) (atoms R) j n.
Proof.
  destruct (Nat.lt_ge_cases j (nbig (atoms L))) as [H|H].
  - right. intros X. apply big_at_range in X as [X _]. lia.
  - left. intros X. apply big_at_range in X as [X _]. lia.
Qed.

Lemma set_diff_app_nil a b : (length (set_diff a b ++ set_diff b a) =? 0) = true <-> incl a b /\ incl b a.
Proof. rewrite app_length. rewrite <- !set_diff_nil, !Nat.eqb_eq. lia. Qed.

Lemma check_identifiers_iff op L R names :
  check_identifiers op (fst (compile 0 L)) (fst (compile (nbig (atoms L)) R)) names = Ok tt <->
  exists w, op_role op = Some w /\ ident_ok w L R names.
Proof.
  unfold check_identifiers. rewrite !ids_eq.
  set (k := nbig (atoms L)).
  assert (D1 : forall j n, ~ big_at 0 (atoms L) j n \/ ~ big_at k (atoms R) j n) by (intros; apply big_disjoint).
  assert (D2 : forall j n, ~ big_at k (atoms R) j n \/ ~ big_at 0 (atoms L) j n) by (intros j n; destruct (D1 j n); auto).
  assert (Hred : raise_if (negb (length (set_diff (ids k R) (ids 0 L)) =? 0)) EinopsError = Ok tt
                 <-> ident_ok Reducing L R names).
  { rewrite raise_if_Ok, negb_false_iff, set_diff_nil. rewrite (incl_ids k 0 R L D2). reflexivity. }
  assert (Hw : forall w P, (P <-> ident_ok w L R names) ->
               (P <-> exists w', Some w = Some w' /\ ident_ok w' L R names)).
  { intros w P HP. rewrite HP. split; [eauto|]. intros [w' [E H]]. inversion E; subst; auto. }
  destruct op as [s|]; unfold op_role.
  - destruct (str_eqb s s_rearrange).
    + apply Hw. rewrite bind_Ok. split.
      * intros [u [H1 H2]]. apply raise_if_Ok in H1. apply orb_false_iff in H1 as [H1 H1'].
        apply raise_if_Ok in H2. rewrite negb_false_iff, set_diff_app_nil in H2. destruct H2 as [H2 H3].
        apply (incl_ids 0 k L R D1) in H2 as [_ H2]. apply (incl_ids k 0 R L D2) in H3 as [_ H3].
        repeat split; auto.
      * intros [H1 [H2 [H3 H4]]]. exists tt. split; [apply raise_if_Ok|].
        -- unfold compile; cbn [fst p_anon]. rewrite H1, H2. reflexivity.
        -- apply raise_if_Ok. rewrite negb_false_iff, set_diff_app_nil. split.
           ++ apply incl_ids; auto.
           ++ apply incl_ids; auto.
    + destruct (str_eqb s s_repeat).
      * apply Hw. rewrite bind_Ok.
        assert (Hn : incl (filter (fun a => negb (is_anon a)) (ids k R)) (ids 0 L ++ map AxName names)
                     <-> incl (keys R) (keys L ++ names)).
        { split.
          - intros H x Hx. specialize (H (AxName x)). rewrite filter_In, in_app_iff, in_map_iff in H.
            destruct H as [H|[y [E Hy]]].
            + split; [apply (in_ids k R (AxName x)); auto|reflexivity].
            + apply (in_ids 0 L (AxName x)) in H. apply in_or_app; auto.
            + inversion E; subst. apply in_or_app; auto.
          - intros H a Ha. apply filter_In in Ha as [Ha Hn]. destruct a as [x|]; [|discriminate].
            apply (in_ids k R (AxName x)) in Ha. apply H in Ha. apply in_app_or in Ha as [Ha|Ha]; apply in_or_app.
            + left. apply (in_ids 0 L (AxName x)); auto.
            + right. apply in_map; auto. }
        split.
        -- intros [u [H1 H2]]. apply raise_if_Ok in H1, H2. rewrite negb_false_iff, set_diff_nil in H1, H2.
           apply Hn in H2. apply (incl_ids 0 k L R D1) in H1 as [H1 H1']. repeat split; auto.
        -- intros [H1 [H2 H3]]. exists tt. split; apply raise_if_Ok; rewrite negb_false_iff, set_diff_nil.
           ++ apply incl_ids; auto.
           ++ apply Hn; auto.
      * destruct (str_mem s reductions); [apply Hw; auto|]. split; [discriminate|]. intros [w [E _]]; discriminate.
  - apply Hw; auto.
Qed.

Lemma check_identifiers_err op lft rght names e : check_identifiers op lft rght names = Err e -> e = EinopsError.
Proof.
  unfold check_identifiers. destruct op as [s|].
  - destruct (str_eqb s s_rearrange); [|destruct (str_eqb s s_repeat); [|destruct (str_mem s reductions); [|congruence]]]; intros H;
      repeat match type of H with bind _ _ = _ => apply bind_Err in H as [H|[? [_ H]]] end;
      apply raise_if_Err in H as [_ H]; auto.
  - intros H. apply raise_if_Err in H as [_ H]; auto.
Qed.

(** ** the ellipsis *)
Definition top_ell (i : item) : bool := match i with Atom a => is_ell a | Group _ => false end.
Definition ntop (ex : expr) : nat := length (filter top_ell ex).

Lemma is_ell_key a : is_ell a = true <-> In ell_name (atom_key a).
Proof.
  destruct a as [s|n|]; simpl.
  - rewrite str_eqb_eq. tauto.
  - split; [discriminate|tauto].
  - tauto.
Qed.
Lemma existsb_ell_key l : existsb is_ell l = true <-> In ell_name (flat_map atom_key l).
Proof.
  rewrite existsb_exists, in_flat_map. split; intros [a [H1 H2]]; exists a; split; auto; apply is_ell_key; auto.
Qed.
Lemma has_dots_key ex : has_dots ex = true -> In ell_name (keys ex).
Proof.
  unfold has_dots, keys. intros H. apply existsb_exists in H as [a [Ha Hd]]. destruct a; try discriminate.
  apply in_flat_map. exists ADots; split; auto. left; auto.
Qed.
Lemma item_ell_key i : top_ell i = true \/ grouped_ell i = true <-> In ell_name (flat_map atom_key (item_atoms i)).
Proof.
  destruct i as [a|l]; simpl.
  - rewrite app_nil_r, <- is_ell_key. split; [intros [H|H]; auto; discriminate|auto].
  - rewrite <- existsb_ell_key. split; [intros [H|H]; auto; discriminate|auto].
Qed.
Lemma keys_cons i ex : keys (i :: ex) = flat_map atom_key (item_atoms i) ++ keys ex.
Proof. unfold keys, atoms. cbn [flat_map]. apply flat_map_app. Qed.

Lemma no_ell_items ex : ~ In ell_name (keys ex) -> existsb grouped_ell ex = false /\ ntop ex = 0.
Proof.
  induction ex as [|i ex IH]; intros H; [split; reflexivity|]. rewrite keys_cons, in_app_iff in H.
  destruct IH as [H1 H2]; [tauto|]. unfold ntop in *. cbn [existsb filter].
  assert (Hi : top_ell i = false /\ grouped_ell i = false).
  { destruct (top_ell i) eqn:E1, (grouped_ell i) eqn:E2; auto; exfalso; apply H; left; apply item_ell_key; auto. }
  destruct Hi as [-> ->]. auto.
Qed.

Lemma ell_par_none ex acc : ~ In ell_name (keys ex) -> fold_left ell_par_step ex acc = acc.
Proof.
  revert acc; induction ex as [|i ex IH]; intros acc H; [reflexivity|]. rewrite keys_cons, in_app_iff in H.
  cbn [fold_left]. rewrite IH by tauto. destruct i as [a|l]; simpl.
  - destruct (is_ell a) eqn:E; auto. exfalso; apply H; left. apply (proj1 (item_ell_key (Atom a))). auto.
  - destruct (existsb is_ell l) eqn:E; auto. exfalso; apply H; left. apply (proj1 (item_ell_key (Group l))). auto.
Qed.

Lemma one_ell ex acc : NoDup (keys ex) -> In ell_name (keys ex) ->
  if existsb grouped_ell ex then fold_left ell_par_step ex acc = Some true /\ ntop ex = 0
  else fold_left ell_par_step ex acc = Some false /\ ntop ex = 1.
Proof.
  revert acc; induction ex as [|i ex IH]; intros acc Hn Hi; [destruct Hi|].
  rewrite keys_cons in Hn, Hi. apply NoDup_app_iff in Hn as [H1 [H2 H3]].
  cbn [existsb fold_left]. unfold ntop in *. cbn [filter].
  destruct (in_dec str_eq_dec ell_name (flat_map atom_key (item_atoms i))) as [Hin|Hin].
  - assert (Hno : ~ In ell_name (keys ex)) by (apply H3; auto).
    destruct (no_ell_items ex Hno) as [Hg Ht]. unfold ntop in Ht. rewrite Hg, orb_false_r.
    rewrite ell_par_none by auto. destruct i as [a|l].
    + simpl in Hin. rewrite app_nil_r in Hin. apply is_ell_key in Hin. simpl. rewrite Hin. simpl. auto.
    + simpl in Hin. apply existsb_ell_key in Hin. simpl. rewrite Hin. auto.
  - apply in_app_or in Hi as [Hi|Hi]; [contradiction|].
    assert (Ht : top_ell i = false /\ grouped_ell i = false).
    { destruct (top_ell i) eqn:E1, (grouped_ell i) eqn:E2; auto; exfalso; apply Hin; apply item_ell_key; auto. }
    destruct Ht as [-> ->]. simpl. apply IH; auto.
Qed.

Lemma groups_length e k ex : length (groups true e k ex) + ntop ex = length ex + ntop ex * e.
Proof.
  revert k; induction ex as [|i ex IH]; intros k; [reflexivity|].
  cbn [groups]. rewrite app_length. specialize (IH (k + nbig (item_atoms i))). unfold ntop in *. cbn [filter length].
  destruct i as [a|l]; cbn [item_groups top_ell].
  - rewrite stands_true. destruct (is_ell a) eqn:E.
    + rewrite map_length. unfold atom_labels. rewrite stands_true, E, map_length, seq_length.
      simpl. simpl in IH. lia.
    + simpl. simpl in IH. lia.
  - simpl. simpl in IH. lia.
Qed.


Lemma groups_length_plain e k ex : has_dots ex = false -> length (groups false e k ex) = length ex.
Proof.
  intros H. pose proof (f_equal (@length _) (groups_plain e k ex H)) as E. rewrite !map_length in E. rewrite E.
  clear. revert k; induction ex as [|i ex IH]; intros k; simpl; auto.
Qed.

Lemma comps_length k ex : length (comps k ex) = length ex.
Proof. revert k; induction ex as [|i ex IH]; intros k; simpl; auto. Qed.

Definition strip_ell (l : list axis) : list axis := filter (fun y => negb (axis_eqb ax_ellipsis y)) l.

Definition front_value (L R : expr) (e : nat) : list (list axis) * list (list axis) * list axis * list axis :=
  (map (map axis_of) (left_groups e L), map (map axis_of) (right_groups e L R),
   (if has_dots L then strip_ell (set_update (ids 0 L) (ell_axes e)) else ids 0 L),
   (if has_dots L && has_dots R then strip_ell (set_update (ids (nbig (atoms L)) R) (ell_axes e))
    else ids (nbig (atoms L)) R)).

Lemma resolve_iff L R n x :
  NoDup (keys L) -> (has_dots R = true -> has_dots L = true) ->
  (has_dots L = true -> existsb grouped_ell L = false) ->
  (resolve_ellipsis (fst (compile 0 L)) (fst (compile (nbig (atoms L)) R)) n = Ok x <->
   exists e, rank_fits L n e /\ x = front_value L R e).
Proof.
  intros Hnd HRL Hg. unfold resolve_ellipsis, rank_fits, front_value, left_groups, right_groups.
  rewrite !ids_eq. unfold compile. cbn [fst p_has_ellipsis p_composition]. rewrite !comps_length.
  destruct (has_dots L) eqn:EL.
  - specialize (Hg eq_refl). pose proof (has_dots_key _ EL) as Hk.
    assert (Hlen : 1 <= length L) by (destruct L; simpl; [discriminate|lia]).
    assert (Hmem : forall k ex e, In ell_name (keys ex) ->
       set_remove ax_ellipsis (set_update (ids k ex) (ell_axes e)) = Ok (strip_ell (set_update (ids k ex) (ell_axes e)))).
    { intros k ex e Hin. unfold set_remove.
      replace (axis_mem ax_ellipsis (set_update (ids k ex) (ell_axes e))) with true; [reflexivity|]. symmetry.
      apply axis_mem_In. unfold set_update. rewrite fold_set_add_In. right. apply (in_ids k ex ax_ellipsis). exact Hin. }
    rewrite Hmem by auto.
    assert (HR : (if has_dots R then set_remove ax_ellipsis (set_update (ids (nbig (atoms L)) R) (ell_axes (n - (length L - 1))))
                  else Ok (ids (nbig (atoms L)) R))
                 = Ok (if true && has_dots R then strip_ell (set_update (ids (nbig (atoms L)) R) (ell_axes (n - (length L - 1)))) else ids (nbig (atoms L)) R)).
    { destruct (has_dots R) eqn:ER; [apply Hmem, has_dots_key; auto|reflexivity]. }
    rewrite HR. cbn [bind]. split.
    + intros H. apply bind_Ok in H as [u [H1 H2]]. apply raise_if_Ok in H1. apply Nat.ltb_ge in H1.
      inversion H2; subst; clear H2. exists (n - (length L - 1)). split; [lia|].
      rewrite groups_dots_left, groups_dots_right by auto. reflexivity.
    + intros [e [He ->]]. rewrite (proj2 (Nat.ltb_ge _ _)) by lia. cbn [raise_if bind].
      replace (n - (length L - 1)) with e by lia. rewrite groups_dots_left, groups_dots_right by auto. reflexivity.
  - assert (ER : has_dots R = false) by (destruct (has_dots R); auto; specialize (HRL eq_refl); discriminate).
    split.
    + intros H. apply bind_Ok in H as [u [H1 H2]]. apply raise_if_Ok, negb_false_iff, Nat.eqb_eq in H1.
      inversion H2; subst; clear H2. exists 0. split; auto. rewrite !groups_plain by auto. reflexivity.
    + intros [e [[H1 ->] ->]]. subst n. rewrite Nat.eqb_refl. cbn [negb raise_if bind]. rewrite !groups_plain by auto. reflexivity.
Qed.

Lemma resolve_err L R n e :
  resolve_ellipsis (fst (compile 0 L)) (fst (compile (nbig (atoms L)) R)) n = Err e -> e = EinopsError.
Proof.
  unfold resolve_ellipsis. rewrite !ids_eq. unfold compile. cbn [fst p_has_ellipsis p_composition].
  assert (Hmem : forall k ex l, has_dots ex = true ->
       exists y, set_remove ax_ellipsis (set_update (ids k ex) l) = Ok y).
  { intros k ex l Hd. unfold set_remove.
    replace (axis_mem ax_ellipsis (set_update (ids k ex) l)) with true; [eauto|]. symmetry.
    apply axis_mem_In. unfold set_update. rewrite fold_set_add_In. right. apply (in_ids k ex ax_ellipsis).
    apply has_dots_key; auto. }
  destruct (has_dots L) eqn:EL.
  - intros H. apply bind_Err in H as [H|[u [_ H]]]; [apply raise_if_Err in H as [_ H]; auto|].
    destruct (Hmem 0 L (ell_axes (n - (length (comps 0 L) - 1))) EL) as [y Ey]. rewrite Ey in H. cbn [bind] in H.
    destruct (has_dots R) eqn:ER; [|discriminate].
    destruct (Hmem (nbig (atoms L)) R (ell_axes (n - (length (comps 0 L) - 1))) ER) as [z Ez]. rewrite Ez in H. discriminate.
  - intros H. apply bind_Err in H as [H|[u [_ H]]]; [apply raise_if_Err in H as [_ H]; auto|discriminate].
Qed.

Lemma compile_next k e : snd (compile k e) = k + nbig (atoms e).
Proof. reflexivity. Qed.

Definition no_grouped (L : expr) : Prop := has_dots L = true -> existsb grouped_ell L = false.

Lemma ell_par_check L : NoDup (keys L) ->
  (has_dots L && match fold_left ell_par_step L None with Some b => b | None => false end) = false <-> no_grouped L.
Proof.
  intros Hn. unfold no_grouped. destruct (has_dots L) eqn:E; simpl; [|split; auto; discriminate].
  pose proof (one_ell L None Hn (has_dots_key _ E)) as H.
  destruct (existsb grouped_ell L); destruct H as [-> _]; split; auto; try discriminate.
Qed.

Lemma frontend_iff U pattern op names n x : unicode_ok U ->
  (frontend U pattern op names n = Ok x <->
   exists L R e w, reads U pattern L R /\ op_role op = Some w /\ ident_ok w L R names /\
     (has_dots R = true -> has_dots L = true) /\ no_grouped L /\ rank_fits L n e /\ x = front_value L R e).
Proof.
  intros HU. unfold frontend. split.
  - intros H. destruct (str_split s_arrow pattern) as [|l [|r [|? ?]]] eqn:E; try discriminate.
    apply bind_Ok in H as [[lft k] [H1 H]]. apply bind_Ok in H as [[rght k'] [H2 H]].
    apply parse_expression_iff in H1 as [L [HL E1]]; auto. apply parse_expression_iff in H2 as [R [HR E2]]; auto.
    apply bind_Ok in H as [u1 [H3 H]]. apply bind_Ok in H as [u2 [H4 H]]. apply bind_Ok in H as [u3 [H5 H]].
    destruct u3. assert (Ek : k = nbig (atoms L)) by (apply (f_equal snd) in E1; simpl in E1; auto). subst k.
    assert (El : lft = fst (compile 0 L)) by (rewrite <- E1; auto).
    assert (Er : rght = fst (compile (nbig (atoms L)) R)) by (rewrite <- E2; auto). subst lft rght.
    pose proof (written_NoDup U _ _ HL) as HndL.
    apply raise_if_Ok in H3, H4. unfold compile in H3, H4. cbn [fst p_has_ellipsis p_ell_par] in H3, H4.
    apply ell_par_check in H4; auto.
    assert (HRL : has_dots R = true -> has_dots L = true).
    { intros HH. rewrite HH in H3. destruct (has_dots L); auto. }
    apply check_identifiers_iff in H5 as [w [Hw Hi]].
    apply resolve_iff in H as [e [He ->]]; auto.
    exists L, R, e, w. repeat split; auto. apply reads_split; auto. exists l, r; auto.
  - intros [L [R [e [w [Hr [Hw [Hi [HRL [Hg [He ->]]]]]]]]]].
    apply reads_split in Hr as [l [r [E [HL HR]]]]; auto. rewrite E.
    rewrite (proj2 (parse_expression_iff U HU false false 0 l _) (ex_intro _ L (conj HL eq_refl))).
    cbn [bind]. unfold compile at 1. cbn [plus].
    rewrite (proj2 (parse_expression_iff U HU false false (nbig (atoms L)) r _) (ex_intro _ R (conj HR eq_refl))).
    unfold compile at 1. cbn [bind p_has_ellipsis p_ell_par].
    replace (negb (has_dots L) && has_dots R) with false by (destruct (has_dots L), (has_dots R); auto; specialize (HRL eq_refl); discriminate).
    pose proof (written_NoDup U _ _ HL) as HndL.
    rewrite (proj2 (ell_par_check L HndL) Hg). cbn [raise_if bind].
    pose proof (proj2 (check_identifiers_iff op L R names) (ex_intro _ w (conj Hw Hi))) as Hc.
    unfold compile in Hc. cbn [fst] in Hc. rewrite Hc. cbn [bind].
    pose proof (proj2 (resolve_iff L R n (front_value L R e) HndL HRL Hg) (ex_intro _ e (conj He eq_refl))) as Hres.
    unfold compile in Hres. cbn [fst] in Hres. exact Hres.
Qed.

Lemma frontend_err U pattern op names n ex : unicode_ok U ->
  frontend U pattern op names n = Err ex ->
  ex = EinopsError \/ (ex = ValueError /\ forall l r, arrow_free l -> arrow_free r -> pattern <> l ++ s_arrow ++ r).
Proof.
  intros HU. unfold frontend. intros H.
  destruct (str_split s_arrow pattern) as [|l [|r [|? ?]]] eqn:E;
    try (right; split; [congruence|]; intros l1 r1 Hl Hr ->; rewrite split_one_arrow, split_free in E by auto; discriminate).
  left.
  apply bind_Err in H as [H|[[lft k] [H1 H]]]; [eapply parse_expression_err; eauto|].
  apply bind_Err in H as [H|[[rght k'] [H2 H]]]; [eapply parse_expression_err; eauto|].
  apply bind_Err in H as [H|[u1 [H3 H]]]; [apply raise_if_Err in H as [_ H]; auto|].
  apply bind_Err in H as [H|[u2 [H4 H]]]; [apply raise_if_Err in H as [_ H]; auto|].
  apply bind_Err in H as [H|[u3 [H5 H]]]; [eapply check_identifiers_err; eauto|].
  apply parse_expression_iff in H1 as [L [HL E1]]; auto. apply parse_expression_iff in H2 as [R [HR E2]]; auto.
  assert (Ek : k = nbig (atoms L)) by (apply (f_equal snd) in E1; simpl in E1; auto). subst k.
  assert (El : lft = fst (compile 0 L)) by (rewrite <- E1; auto).
  assert (Er : rght = fst (compile (nbig (atoms L)) R)) by (rewrite <- E2; auto). subst lft rght.
  eapply resolve_err; eauto.
Qed.
