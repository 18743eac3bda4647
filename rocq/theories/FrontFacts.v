(** * From the pattern string to groups of axes *)
From Coq Require DecimalNat.
From Verif Require Import Py Tensor ListFacts SpecSem SpecGrammar SpecPattern Parsing Compile Recipe ParseFacts ParseFacts2 ParseFacts3 RecipeFacts ApplyFacts.

(** ** labels and axis objects *)
Definition axis_of (l : label) : axis :=
  match l with LName s => AxName s | LDots i => ell_axis i | LNum k n => AxAnon k n end.

Lemma uint_codes_inj a b : uint_codes a = uint_codes b -> a = b.
Proof. revert b; induction a; intros []; simpl; intros H; inversion H; f_equal; auto. Qed.
Lemma str_of_nat_inj a b : str_of_nat a = str_of_nat b -> a = b.
Proof. intros H. apply uint_codes_inj in H. apply DecimalNat.Unsigned.to_uint_inj; auto. Qed.
Lemma str_of_nat_nonnil n : str_of_nat n <> [].
Proof.
  unfold str_of_nat. intros H. assert (E : Nat.to_uint n = Decimal.Nil).
  { destruct (Nat.to_uint n); simpl in H; try discriminate. reflexivity. }
  pose proof (DecimalNat.Unsigned.of_to n) as E'. rewrite E in E'. simpl in E'. subst n. discriminate E.
Qed.

Lemma ell_axis_inj i j : ell_axis i = ell_axis j -> i = j.
Proof. unfold ell_axis. intros H. inversion H. apply str_of_nat_inj; auto. Qed.
Lemma ell_axis_not_ell i : ell_axis i <> ax_ellipsis.
Proof. unfold ell_axis, ax_ellipsis, ellipsis_str. intros H. inversion H. eapply str_of_nat_nonnil; eauto. Qed.

Definition plain_name (U : unicode) (s : pystr) : Prop := s = ell_name \/ isidentifier U s = true.
Definition label_ok (U : unicode) (l : label) : Prop := match l with LName s => plain_name U s | _ => True end.

Lemma name_not_ell_axis U s i : unicode_ok U -> plain_name U s -> AxName s <> ell_axis i.
Proof.
  intros HU [->|H] E; unfold ell_axis in E; inversion E as [E'].
  - unfold ell_name, ellipsis_str in E'. simpl in E'. inversion E'. eapply str_of_nat_nonnil; eauto.
  - subst. unfold ellipsis_str in H. simpl in H. destruct (uo_ell U HU) as [_ [_ [F _]]]. rewrite F in H. discriminate.
Qed.

Lemma axis_of_inj U a b : unicode_ok U -> label_ok U a -> label_ok U b -> axis_of a = axis_of b -> a = b.
Proof.
  intros HU. destruct a as [s|i|k n], b as [s'|i'|k' n']; simpl; intros Ha Hb E; try discriminate; try congruence.
  - exfalso. eapply name_not_ell_axis; eauto.
  - exfalso. symmetry in E. eapply name_not_ell_axis; eauto.
  - f_equal. apply ell_axis_inj; auto.
Qed.

(** ** the labels of a side, as axis objects *)
Lemma map_single {B C} (f : B -> C) l : map (map f) (map (fun x => [x]) l) = map (fun x => [x]) (map f l).
Proof. rewrite !map_map. reflexivity. Qed.

Lemma dots_axes e : map axis_of (map LDots (seq 0 e)) = ell_axes e.
Proof. unfold ell_axes. rewrite map_map. reflexivity. Qed.

Lemma stands_true a : stands_for_dots true a = is_ell a.
Proof. destruct a; reflexivity. Qed.

Section NoDots.
  Lemma atom_axes_plain e k a : is_dots a = false -> map axis_of (atom_labels false e k a) = atom_axes k a.
  Proof. destruct a; simpl; try discriminate; auto. unfold atom_labels; simpl. destruct (n =? 1)%Z; auto. Qed.
  Lemma atoms_axes_plain e k l : existsb is_dots l = false -> map axis_of (atoms_labels false e k l) = atoms_axes k l.
  Proof.
    revert k; induction l as [|a l IH]; intros k H; [reflexivity|]. cbn [existsb] in H. apply orb_false_iff in H as [H1 H2].
    cbn [atoms_labels atoms_axes]. rewrite map_app, atom_axes_plain, IH; auto.
  Qed.
  Lemma groups_plain e k ex : has_dots ex = false -> map (map axis_of) (groups false e k ex) = map comp_axes (comps k ex).
  Proof.
    revert k; induction ex as [|i ex IH]; intros k H; [reflexivity|].
    unfold has_dots, atoms in H. cbn [flat_map] in H. rewrite existsb_app in H. apply orb_false_iff in H as [H1 H2].
    cbn [groups comps map]. rewrite map_app. rewrite IH by exact H2. destruct i as [a|l].
    - cbn [item_groups item_atoms existsb] in *. rewrite orb_false_r in H1.
      replace (stands_for_dots false a) with false by (destruct a; simpl in *; congruence).
      simpl. rewrite atom_axes_plain by auto. f_equal. destruct a as [s|n|]; simpl in *; try discriminate; auto.
      destruct (str_eqb s ell_name) eqn:E; auto. apply str_eqb_eq in E; subst. reflexivity.
    - cbn [item_groups item_atoms] in *. simpl. rewrite atoms_axes_plain by auto. reflexivity.
  Qed.
End NoDots.

Definition expand1 (ell : list axis) (a : axis) : list axis := if axis_eqb a ax_ellipsis then ell else [a].

Lemma not_ell_axes k a : is_ell a = false -> flat_map (expand1 (ell_axes 0)) [] = [] /\ ~ In ax_ellipsis (atom_axes k a).
Proof.
  intros H. split; [reflexivity|]. destruct a as [s|n|]; simpl in *; try discriminate.
  - intros [E|[]]. inversion E; subst. unfold ell_name, ellipsis_str in H. rewrite str_eqb_refl in H. discriminate.
  - destruct (n =? 1)%Z; simpl; [tauto|]. intros [E|[]]; discriminate.
Qed.

Lemma expand_id ell l : ~ In ax_ellipsis l -> flat_map (expand1 ell) l = l.
Proof.
  induction l as [|a l IH]; intros H; [reflexivity|]. cbn [flat_map]. rewrite IH by (intros X; apply H; right; auto).
  unfold expand1. destruct (axis_eqb a ax_ellipsis) eqn:E; [|reflexivity].
  apply axis_eqb_eq in E; subst. exfalso; apply H; left; auto.
Qed.

Lemma atom_labels_dots e k a : map axis_of (atom_labels true e k a) = flat_map (expand1 (ell_axes e)) (atom_axes k a).
Proof.
  unfold atom_labels. rewrite stands_true. destruct (is_ell a) eqn:E.
  - rewrite ell_axes_of by auto. cbn [flat_map]. unfold expand1. rewrite axis_eqb_refl, app_nil_r. apply dots_axes.
  - rewrite expand_id by (apply not_ell_axes; auto). destruct a as [s|n|]; simpl in *; try discriminate; auto.
    destruct (n =? 1)%Z; reflexivity.
Qed.
Lemma atoms_labels_dots e k l : map axis_of (atoms_labels true e k l) = flat_map (expand1 (ell_axes e)) (atoms_axes k l).
Proof.
  revert k; induction l as [|a l IH]; intros k; [reflexivity|]. cbn [atoms_labels atoms_axes].
  rewrite map_app, flat_map_app, atom_labels_dots, IH. reflexivity.
Qed.

Lemma groups_dots_right e k ex : map (map axis_of) (groups true e k ex) = expand_rght (ell_axes e) (comps k ex).
Proof.
  revert k; induction ex as [|i ex IH]; intros k; [reflexivity|].
  cbn [groups comps]. unfold expand_rght in *. cbn [flat_map]. rewrite map_app, IH. f_equal.
  destruct i as [a|l]; cbn [item_groups item_comp].
  - rewrite stands_true. destruct (is_ell a) eqn:E.
    + rewrite map_single, atom_labels_dots, ell_axes_of by auto. cbn [flat_map]. unfold expand1.
      rewrite axis_eqb_refl, app_nil_r. reflexivity.
    + cbn [map]. rewrite atom_labels_dots. reflexivity.
  - cbn [map]. rewrite atoms_labels_dots. reflexivity.
Qed.

(** an ellipsis inside parentheses *)
Definition grouped_ell (i : item) : bool := match i with Atom _ => false | Group l => existsb is_ell l end.

Lemma atoms_axes_no_ell k l : existsb is_ell l = false -> ~ In ax_ellipsis (atoms_axes k l).
Proof.
  revert k; induction l as [|a l IH]; intros k H; [simpl; tauto|]. cbn [existsb] in H. apply orb_false_iff in H as [H1 H2].
  cbn [atoms_axes]. rewrite in_app_iff. intros [X|X]; [eapply not_ell_axes; eauto|eapply IH; eauto].
Qed.

Lemma groups_dots_left e k ex : existsb grouped_ell ex = false ->
  map (map axis_of) (groups true e k ex) = expand_left (ell_axes e) (comps k ex).
Proof.
  rewrite groups_dots_right. unfold expand_rght, expand_left. revert k; induction ex as [|i ex IH]; intros k H; [reflexivity|].
  cbn [existsb] in H. apply orb_false_iff in H as [H1 H2]. cbn [comps flat_map]. rewrite IH by auto. f_equal.
  destruct i as [a|l]; cbn [item_comp].
  - destruct (is_ell a) eqn:E; [reflexivity|]. f_equal. apply expand_id. apply not_ell_axes; auto.
  - f_equal. apply expand_id. apply atoms_axes_no_ell; auto.
Qed.

(** ** which labels occur *)
Lemma atoms_labels_app dots e k l1 l2 :
  atoms_labels dots e k (l1 ++ l2) = atoms_labels dots e k l1 ++ atoms_labels dots e (k + nbig l1) l2.
Proof.
  revert k; induction l1 as [|a l1 IH]; intros k; simpl.
  - rewrite Nat.add_0_r. reflexivity.
  - rewrite IH, app_assoc. f_equal. f_equal. rewrite (nbig_cons a l1). lia.
Qed.

Lemma concat_single {B} (l : list B) : concat (map (fun x => [x]) l) = l.
Proof. induction l as [|x l IH]; simpl; congruence. Qed.

Lemma concat_groups dots e k ex : concat (groups dots e k ex) = atoms_labels dots e k (atoms ex).
Proof.
  revert k; induction ex as [|i ex IH]; intros k; [reflexivity|].
  cbn [groups]. rewrite concat_app, IH. unfold atoms. cbn [flat_map]. rewrite atoms_labels_app. f_equal.
  destruct i as [a|l]; cbn [item_groups item_atoms atoms_labels].
  - rewrite app_nil_r. destruct (stands_for_dots dots a); [apply concat_single|apply app_nil_r].
  - simpl. apply app_nil_r.
Qed.

(** numbers greater than 1, with their running number *)
Fixpoint big_at (k : nat) (l : list atom) (j : nat) (n : Z) : Prop :=
  match l with
  | [] => False
  | a :: l' => (is_big a = true /\ a = ANum n /\ j = k) \/ big_at (k + nbig [a]) l' j n
  end.

Lemma big_at_range k l j n : big_at k l j n -> k <= j < k + nbig l /\ In (ANum n) l /\ n <> 1%Z.
Proof.
  revert k; induction l as [|a l IH]; intros k; simpl; [tauto|]. intros [[H1 [-> ->]]|H].
  - simpl in H1. unfold nbig. simpl. rewrite H1. simpl. apply negb_true_iff, Z.eqb_neq in H1. repeat split; auto; lia.
  - apply IH in H as [H1 [H2 H3]]. rewrite (nbig_cons a l). repeat split; auto; lia.
Qed.

Lemma big_exists k l : existsb is_big l = true -> exists j n, big_at k l j n.
Proof.
  revert k; induction l as [|a l IH]; intros k; simpl; [discriminate|]. intros H.
  destruct (is_big a) eqn:E.
  - destruct a; try discriminate. exists k, n; auto.
  - simpl in H. destruct (IH (k + nbig [a]) H) as [j [n Hj]]. eauto.
Qed.

Lemma in_atom_labels dots e k a x : (dots = true \/ is_dots a = false) ->
  (In x (atom_labels dots e k a) <->
   match x with
   | LName s => In s (atom_key a) /\ (dots = false \/ s <> ell_name)
   | LDots i => i < e /\ dots = true /\ In ell_name (atom_key a)
   | LNum j n => is_big a = true /\ a = ANum n /\ j = k
   end).
Proof.
  intros Hd. unfold atom_labels. destruct a as [s|n|]; simpl.
  - destruct dots; simpl.
    + destruct (str_eqb s ell_name) eqn:E.
      * apply str_eqb_eq in E; subst. rewrite in_map_iff. destruct x as [s'|i|j n].
        -- split; [intros [? [X _]]; discriminate|]. intros [[<-|[]] [X|X]]; [discriminate|contradiction].
        -- split.
           ++ intros [y [X Hy]]. inversion X; subst. apply in_seq in Hy. repeat split; auto; lia.
           ++ intros [H1 _]. exists i; split; auto. apply in_seq; lia.
        -- split; [intros [? [X _]]; discriminate|]. intros [X _]; discriminate.
      * assert (Hne : s <> ell_name) by (intros ->; rewrite str_eqb_refl in E; discriminate).
        simpl. destruct x as [s'|i|j n]; split.
        -- intros [X|[]]; inversion X; subst; auto.
        -- intros [[->|[]] _]; auto.
        -- intros [X|[]]; discriminate.
        -- intros [_ [_ [X|[]]]]. contradiction.
        -- intros [X|[]]; discriminate.
        -- intros [X _]; discriminate.
    + destruct x as [s'|i|j n]; split.
      -- intros [X|[]]; inversion X; subst; auto.
      -- intros [[->|[]] _]; auto.
      -- intros [X|[]]; discriminate.
      -- intros [_ [X _]]. discriminate.
      -- intros [X|[]]; discriminate.
      -- intros [X _]; discriminate.
  - destruct (n =? 1)%Z eqn:E; simpl.
    + destruct x as [s'|i|j m]; split; try tauto; intros [X _]; discriminate.
    + destruct x as [s'|i|j m]; split; try tauto.
      * intros [X|[]]; discriminate.
      * intros [X|[]]; discriminate.
      * intros [X|[]]; inversion X; subst; auto.
      * intros [_ [X ->]]; inversion X; subst; auto.
  - destruct Hd as [->|Hd]; [|simpl in Hd; discriminate]. rewrite in_map_iff. destruct x as [s'|i|j n].
    + split; [intros [? [X _]]; discriminate|]. intros [[<-|[]] [X|X]]; [discriminate|contradiction].
    + split.
      * intros [y [X Hy]]. inversion X; subst. apply in_seq in Hy. repeat split; auto; lia.
      * intros [H1 _]. exists i; split; auto. apply in_seq; lia.
    + split; [intros [? [X _]]; discriminate|]. intros [X _]; discriminate.
Qed.

Definition label_in (dots : bool) (e k : nat) (l : list atom) (x : label) : Prop :=
  match x with
  | LName s => In s (flat_map atom_key l) /\ (dots = false \/ s <> ell_name)
  | LDots i => i < e /\ dots = true /\ In ell_name (flat_map atom_key l)
  | LNum j n => big_at k l j n
  end.

Lemma in_atoms_labels dots e k l x : (dots = true \/ existsb is_dots l = false) ->
  (In x (atoms_labels dots e k l) <-> label_in dots e k l x).
Proof.
  revert k; induction l as [|a l IH]; intros k Hd.
  - simpl. unfold label_in. destruct x; simpl; tauto.
  - cbn [atoms_labels]. rewrite in_app_iff.
    assert (Hd1 : dots = true \/ is_dots a = false).
    { destruct Hd as [Hd|Hd]; auto. cbn [existsb] in Hd. apply orb_false_iff in Hd; tauto. }
    assert (Hd2 : dots = true \/ existsb is_dots l = false).
    { destruct Hd as [Hd|Hd]; auto. cbn [existsb] in Hd. apply orb_false_iff in Hd; tauto. }
    rewrite in_atom_labels, IH by auto. unfold label_in. cbn [flat_map big_at].
    destruct x as [s|i|j n]; rewrite ?in_app_iff; tauto.
Qed.

Lemma NoDup_map_inj {B C} (f : B -> C) l :
  (forall a b, In a l -> In b l -> f a = f b -> a = b) -> NoDup l -> NoDup (map f l).
Proof.
  induction l as [|x l IH]; intros Hi Hn; simpl; [constructor|]. inversion Hn; subst. constructor.
  - intros H. apply in_map_iff in H as [y [E Hy]]. assert (y = x) by (apply Hi; auto; [right|left]; auto). congruence.
  - apply IH; auto. intros a b Ha Hb. apply Hi; right; auto.
Qed.

Lemma atoms_labels_NoDup dots e k l : (dots = true \/ existsb is_dots l = false) ->
  NoDup (flat_map atom_key l) -> NoDup (atoms_labels dots e k l).
Proof.
  revert k; induction l as [|a l IH]; intros k Hd Hn; [constructor|].
  cbn [flat_map] in Hn. apply NoDup_app_iff in Hn as [H1 [H2 H3]].
  assert (Hd1 : dots = true \/ is_dots a = false).
  { destruct Hd as [Hd|Hd]; auto. cbn [existsb] in Hd. apply orb_false_iff in Hd; tauto. }
  assert (Hd2 : dots = true \/ existsb is_dots l = false).
  { destruct Hd as [Hd|Hd]; auto. cbn [existsb] in Hd. apply orb_false_iff in Hd; tauto. }
  cbn [atoms_labels]. apply NoDup_app_iff. split; [|split].
  - unfold atom_labels. destruct (stands_for_dots dots a).
    + apply NoDup_map_inj; [congruence|apply seq_NoDup].
    + destruct a; try (repeat constructor; simpl; tauto). destruct (n =? 1)%Z; repeat constructor; simpl; tauto.
  - apply IH; auto.
  - intros x Hx Hy. rewrite in_atom_labels in Hx by auto. rewrite in_atoms_labels in Hy by auto. unfold label_in in Hy.
    destruct x as [s|i|j n].
    + destruct Hx as [Hx _], Hy as [Hy _]. eapply H3; eauto.
    + destruct Hx as [_ [_ Hx]], Hy as [_ [_ Hy]]. eapply H3; eauto.
    + destruct Hx as [Hb [-> ->]]. apply big_at_range in Hy as [Hy _]. unfold nbig in Hy. simpl in Hy, Hb.
      rewrite Hb in Hy. simpl in Hy. lia.
Qed.

(** ** identifier sets *)
Lemma atoms_axes_app k l1 l2 : atoms_axes k (l1 ++ l2) = atoms_axes k l1 ++ atoms_axes (k + nbig l1) l2.
Proof.
  revert k; induction l1 as [|a l1 IH]; intros k; simpl.
  - rewrite Nat.add_0_r. reflexivity.
  - rewrite IH, app_assoc. f_equal. f_equal. rewrite (nbig_cons a l1). lia.
Qed.
Lemma concat_comps k ex : concat (map comp_axes (comps k ex)) = atoms_axes k (atoms ex).
Proof.
  revert k; induction ex as [|i ex IH]; intros k; [reflexivity|].
  cbn [comps map concat]. rewrite IH. unfold atoms. cbn [flat_map]. rewrite atoms_axes_app. f_equal.
  destruct i as [a|l]; [rewrite comp_axes_atom; simpl; rewrite app_nil_r|]; reflexivity.
Qed.

Lemma in_atoms_axes k l a :
  In a (atoms_axes k l) <-> match a with AxName s => In s (flat_map atom_key l) | AxAnon j n => big_at k l j n end.
Proof.
  revert k; induction l as [|b l IH]; intros k.
  - simpl. destruct a; simpl; tauto.
  - cbn [atoms_axes flat_map big_at]. rewrite in_app_iff, IH.
    assert (H : In a (atom_axes k b) <-> match a with AxName s => In s (atom_key b) | AxAnon j n => is_big b = true /\ b = ANum n /\ j = k end).
    { destruct b as [s|n|]; simpl.
      - destruct a as [s'|j n]; split; try tauto.
        + intros [X|[]]; inversion X; auto.
        + intros [X|[]]; subst; auto.
        + intros [X|[]]; discriminate.
        + intros [X _]; discriminate.
      - destruct (n =? 1)%Z eqn:E; destruct a as [s'|j m]; simpl; split; try tauto.
        + intros [X _]; discriminate.
        + intros [X|[]]; discriminate.
        + intros [X|[]]; inversion X; auto.
        + intros [_ [X ->]]; inversion X; auto.
      - destruct a as [s'|j n]; split; try tauto.
        + intros [X|[]]; inversion X; auto.
        + intros [X|[]]; subst; auto.
        + intros [X|[]]; discriminate.
        + intros [X _]; discriminate. }
    rewrite H. destruct a as [s|j n]; rewrite ?in_app_iff; tauto.
Qed.

Definition ids (k : nat) (ex : expr) : list axis := set_of (atoms_axes k (atoms ex)).
Lemma ids_eq k ex : p_identifiers (fst (compile k ex)) = ids k ex.
Proof. unfold compile, ids. cbn [fst p_identifiers]. rewrite concat_comps. reflexivity. Qed.
Lemma in_ids k ex a : In a (ids k ex) <-> match a with AxName s => In s (keys ex) | AxAnon j n => big_at k (atoms ex) j n end.
Proof. unfold ids. rewrite set_of_In. apply in_atoms_axes. Qed.
Lemma ids_NoDup k ex : NoDup (ids k ex).
Proof. apply set_of_is_NoDup. Qed.

Lemma set_diff_nil a b : (length (set_diff a b) =? 0) = true <-> incl a b.
Proof.
  unfold set_diff. rewrite Nat.eqb_eq. split.
  - intros H x Hx. apply length_zero_iff_nil in H. destruct (axis_mem x b) eqn:E; [apply axis_mem_In; auto|].
    assert (In x (filter (fun x => negb (axis_mem x b)) a)) by (apply filter_In; rewrite E; auto).
    rewrite H in H0; destruct H0.
  - intros H. apply length_zero_iff_nil. destruct (filter (fun x => negb (axis_mem x b)) a) as [|y l] eqn:E; auto.
    assert (Hy : In y (filter (fun x => negb (axis_mem x b)) a)) by (rewrite E; left; auto).
    apply filter_In in Hy as [H1 H2]. apply H in H1. apply axis_mem_In in H1. rewrite H1 in H2. discriminate.
Qed.
