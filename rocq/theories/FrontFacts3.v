(** * Patterns and resolved compositions *)
From Verif Require Import Py Tensor ListFacts SpecSem SpecGrammar SpecPattern SpecOps Parsing Compile Recipe ParseFacts ParseFacts2 ParseFacts3 RecipeFacts InferFacts ApplyFacts FrontFacts FrontFacts2.

(** axes of one side *)
Definition ax_in (dots : bool) (e k : nat) (ex : expr) (a : axis) : Prop :=
  match a with
  | AxName s => (In s (keys ex) /\ (dots = false \/ s <> ell_name)) \/
                (dots = true /\ In ell_name (keys ex) /\ exists i, i < e /\ AxName s = ell_axis i)
  | AxAnon j n => big_at k (atoms ex) j n
  end.

Lemma in_side dots e k ex a : (dots = true \/ has_dots ex = false) ->
  (In a (concat (map (map axis_of) (groups dots e k ex))) <-> ax_in dots e k ex a).
Proof.
  intros Hd. rewrite <- concat_map, concat_groups, in_map_iff. split.
  - intros [x [<- Hx]]. apply in_atoms_labels in Hx; [|exact Hd]. destruct x as [s|i|j n]; simpl in *.
    + left; auto.
    + destruct Hx as [Hi [H1 H2]]. right. repeat split; auto. exists i; auto.
    + auto.
  - destruct a as [s|j n]; simpl.
    + intros [[H1 H2]|[H1 [H2 [i [Hi E]]]]].
      * exists (LName s). split; auto. apply in_atoms_labels; [exact Hd|]. simpl; auto.
      * exists (LDots i). split; auto. apply in_atoms_labels; [exact Hd|]. simpl; auto.
    + intros H. exists (LNum j n); split; auto. apply in_atoms_labels; [exact Hd|]. auto.
Qed.

Lemma in_strip a l : In a (strip_ell l) <-> In a l /\ a <> ax_ellipsis.
Proof.
  unfold strip_ell. rewrite filter_In, negb_true_iff. split; intros [H1 H2]; split; auto.
  - intros ->. rewrite axis_eqb_refl in H2. discriminate.
  - destruct (axis_eqb ax_ellipsis a) eqn:E; auto. apply axis_eqb_eq in E. congruence.
Qed.
Lemma in_update a l xs : In a (set_update l xs) <-> In a xs \/ In a l.
Proof. unfold set_update. apply fold_set_add_In. Qed.
Lemma in_ell_axes a e : In a (ell_axes e) <-> exists i, i < e /\ a = ell_axis i.
Proof.
  unfold ell_axes. rewrite in_map_iff. split.
  - intros [i [<- Hi]]. apply in_seq in Hi. exists i; split; auto; lia.
  - intros [i [Hi ->]]. exists i; split; auto. apply in_seq; lia.
Qed.

Lemma in_dotted_ids k ex e a : In ell_name (keys ex) ->
  (In a (strip_ell (set_update (ids k ex) (ell_axes e))) <-> ax_in true e k ex a).
Proof.
  intros Hk. rewrite in_strip, in_update, in_ell_axes, in_ids. destruct a as [s|j n]; simpl.
  - split.
    + intros [[[i [Hi E]]|H] Hne].
      * right. repeat split; auto. exists i; auto.
      * left. split; auto. right. intros ->. apply Hne. reflexivity.
    + intros [[H1 [H2|H2]]|[_ [_ [i [Hi E]]]]]; [discriminate| |].
      * split; auto. intros E. inversion E; subst. apply H2. reflexivity.
      * split; [left; eauto|]. rewrite E. apply ell_axis_not_ell.
  - split; [intros [[[i [_ E]]|H] _]; [discriminate|auto]|]. intros H; split; [auto|discriminate].
Qed.

Lemma in_plain_ids k ex e a : In a (ids k ex) <-> ax_in false e k ex a.
Proof.
  rewrite in_ids. destruct a as [s|j n]; simpl; [|tauto]. split; [auto|].
  intros [[H _]|[H _]]; [auto|discriminate].
Qed.

Lemma set_update_NoDup l xs : NoDup l -> NoDup (set_update l xs).
Proof.
  unfold set_update. revert l; induction xs as [|x xs IH]; intros l H; simpl; auto.
  apply IH. unfold set_add. destruct (axis_mem x l) eqn:E; auto.
  apply NoDup_app_iff. repeat split; auto.
  - constructor; [simpl; tauto|constructor].
  - intros y Hy [<-|[]]. apply axis_mem_false in E. auto.
Qed.

Section Resolved.
  Context (U : unicode) (HU : unicode_ok U) (pattern : pystr) (L R : expr) (e : nat).
  Context (Hr : reads U pattern L R) (Hd : has_dots R = true -> has_dots L = true).

  Notation gl := (left_groups e L).
  Notation gr := (right_groups e L R).
  Notation lcomp := (map (map axis_of) gl).
  Notation rcomp := (map (map axis_of) gr).
  Definition lids_of := if has_dots L then strip_ell (set_update (ids 0 L) (ell_axes e)) else ids 0 L.
  Definition rids_of := if has_dots L && has_dots R then strip_ell (set_update (ids (nbig (atoms L)) R) (ell_axes e))
    else ids (nbig (atoms L)) R.

  Lemma front_value_eq : front_value L R e = (lcomp, rcomp, lids_of, rids_of).
  Proof. reflexivity. Qed.

  Lemma key_plain_L s : In s (keys L) -> plain_name U s.
  Proof. destruct Hr as [l [r [_ [H _]]]]. intros Hs. exact (written_keys U false false l L s H Hs). Qed.
  Lemma key_plain_R s : In s (keys R) -> plain_name U s.
  Proof. destruct Hr as [l [r [_ [_ H]]]]. intros Hs. exact (written_keys U false false r R s H Hs). Qed.
  Lemma keys_NoDup_L : NoDup (keys L).
  Proof. destruct Hr as [l [r [_ [H _]]]]. eapply written_NoDup; eauto. Qed.
  Lemma keys_NoDup_R : NoDup (keys R).
  Proof. destruct Hr as [l [r [_ [_ H]]]]. eapply written_NoDup; eauto. Qed.
  Lemma num_L n : In (ANum n) (atoms L) -> (1 <= n)%Z.
  Proof. destruct Hr as [l [r [_ [H _]]]]. intros Hs. exact (written_num U false false l L n H Hs). Qed.
  Lemma num_R n : In (ANum n) (atoms R) -> (1 <= n)%Z.
  Proof. destruct Hr as [l [r [_ [_ H]]]]. intros Hs. exact (written_num U false false r R n H Hs). Qed.

  Lemma side_L : has_dots L = true \/ has_dots L = false.
  Proof. destruct (has_dots L); auto. Qed.
  Lemma side_R0 : has_dots R = true \/ has_dots R = false.
  Proof. destruct (has_dots R); auto. Qed.
  Lemma dots_R : has_dots L = false -> has_dots R = false.
  Proof. intros E. destruct side_R0 as [ER|ER]; auto. rewrite Hd in E by auto. discriminate. Qed.
  Lemma side_R : has_dots L = true \/ has_dots R = false.
  Proof. destruct side_L as [E|E]; auto. right; apply dots_R; auto. Qed.

  Lemma in_left a : In a (concat lcomp) <-> ax_in (has_dots L) e 0 L a.
  Proof. apply in_side, side_L. Qed.
  Lemma in_right a : In a (concat rcomp) <-> ax_in (has_dots L) e (nbig (atoms L)) R a.
  Proof. apply in_side, side_R. Qed.

  Lemma in_lids a : In a lids_of <-> In a (concat lcomp).
  Proof.
    rewrite in_left. unfold lids_of. destruct (has_dots L) eqn:E.
    - apply in_dotted_ids, has_dots_key; auto.
    - apply in_plain_ids.
  Qed.

  Lemma labels_ok l : In l (concat gl ++ concat gr) -> label_ok U l.
  Proof.
    intros H. destruct l as [s|i|k n]; simpl; auto. apply in_app_or in H as [H|H].
    - unfold left_groups in H. rewrite concat_groups in H. apply in_atoms_labels in H; [|apply side_L].
      apply key_plain_L. apply H.
    - unfold right_groups in H. rewrite concat_groups in H. apply in_atoms_labels in H; [|apply side_R].
      apply key_plain_R. apply H.
  Qed.

  Lemma labels_inj a b : In a (concat gl ++ concat gr) -> In b (concat gl ++ concat gr) ->
    axis_of a = axis_of b -> a = b.
  Proof. intros Ha Hb. apply (axis_of_inj U); auto using labels_ok. Qed.

  Lemma gl_NoDup : NoDup (concat gl).
  Proof. unfold left_groups. rewrite concat_groups. apply atoms_labels_NoDup; [apply side_L|apply keys_NoDup_L]. Qed.
  Lemma gr_NoDup : NoDup (concat gr).
  Proof. unfold right_groups. rewrite concat_groups. apply atoms_labels_NoDup; [apply side_R|apply keys_NoDup_R]. Qed.
  Lemma lcomp_NoDup : NoDup (concat lcomp).
  Proof.
    rewrite <- concat_map. apply NoDup_map_inj; [|apply gl_NoDup].
    intros a b Ha Hb. apply labels_inj; apply in_or_app; auto.
  Qed.
  Lemma rcomp_NoDup : NoDup (concat rcomp).
  Proof.
    rewrite <- concat_map. apply NoDup_map_inj; [|apply gr_NoDup].
    intros a b Ha Hb. apply labels_inj; apply in_or_app; auto.
  Qed.

  Lemma rids_NoDup : NoDup rids_of.
  Proof.
    unfold rids_of. destruct (has_dots L && has_dots R); [|apply ids_NoDup].
    apply NoDup_filter, set_update_NoDup, ids_NoDup.
  Qed.

  Lemma in_rids_same a : has_dots L = has_dots R -> (In a rids_of <-> In a (concat rcomp)).
  Proof.
    intros E. rewrite in_right. unfold rids_of. rewrite E. destruct side_R0 as [ER|ER]; rewrite ER; simpl.
    - apply in_dotted_ids, has_dots_key; auto.
    - apply in_plain_ids.
  Qed.

  Lemma in_rids_diff a : has_dots L = true -> has_dots R = false ->
    (In a rids_of <-> ax_in false e (nbig (atoms L)) R a).
  Proof. intros E1 E2. unfold rids_of. rewrite E1, E2. simpl. apply in_plain_ids. Qed.

  Lemma ell_left i : has_dots L = true -> i < e -> In (ell_axis i) (concat lcomp).
  Proof.
    intros E Hi. apply in_left. rewrite E. simpl. right. repeat split; auto; [apply has_dots_key; auto|]. exists i; auto.
  Qed.

  Lemma rcomp_rids a : In a (concat rcomp) -> In a (concat lcomp) \/ In a rids_of.
  Proof.
    intros H. destruct side_L as [EL|EL]; [|right; apply in_rids_same; auto; rewrite EL; symmetry; apply dots_R; auto].
    destruct side_R0 as [ER|ER]; [right; apply in_rids_same; auto; congruence|].
    apply in_right in H. rewrite EL in H. destruct a as [s|j n].
    - destruct H as [[H1 H2]|[_ [_ [i [Hi E]]]]].
      + right. apply in_rids_diff; auto. left; auto.
      + left. rewrite E. apply ell_left; auto.
    - right. apply in_rids_diff; auto.
  Qed.

  Lemma anon_sides a : In a (concat lcomp) \/ In a rids_of -> anon_ok a.
  Proof.
    destruct a as [s|j n]; simpl; auto. intros [H|H].
    - apply in_left in H. apply big_at_range in H as [_ [H1 H2]]. apply num_L in H1. lia.
    - assert (H' : big_at (nbig (atoms L)) (atoms R) j n).
      { unfold rids_of in H. destruct (has_dots L && has_dots R).
        - apply in_strip in H as [H _]. apply in_update in H as [H|H]; [apply in_ell_axes in H as [i [_ E]]; discriminate|].
          apply in_ids in H; auto.
        - apply in_ids in H; auto. }
      apply big_at_range in H' as [_ [H1 H2]]. apply num_R in H1. lia.
  Qed.

  Lemma front_weak : weakly_resolved lcomp rcomp lids_of rids_of.
  Proof.
    constructor; auto using lcomp_NoDup, rcomp_NoDup, rids_NoDup, in_lids, rcomp_rids, anon_sides.
  Qed.

  Lemma front_agree a : (odd_pattern L R -> e = 0) -> In a (concat lcomp) -> (In a rids_of <-> In a (concat rcomp)).
  Proof.
    intros Ho Ha. destruct (Bool.bool_dec (has_dots L) (has_dots R)) as [E|E]; [apply in_rids_same; auto|].
    assert (EL : has_dots L = true) by (destruct side_L as [EL|EL]; auto; rewrite dots_R in E by auto; congruence).
    assert (ER : has_dots R = false) by (destruct side_R0; auto; congruence).
    rewrite in_rids_diff by auto. rewrite in_right, EL. apply in_left in Ha. rewrite EL in Ha.
    destruct a as [s|j n]; simpl; [|tauto]. destruct Ha as [[H1 [H2|H2]]|[_ [_ [i [Hi Ei]]]]]; [discriminate| |].
    - split.
      + intros [[H3 _]|[H3 _]]; [auto|discriminate].
      + intros [[H3 _]|[_ [_ [i [Hi Ei]]]]]; [auto|]. exfalso. eapply (name_not_ell_axis U); eauto. apply key_plain_L; auto.
    - split.
      + intros [[H3 _]|[H3 _]]; [|discriminate]. exfalso. eapply (name_not_ell_axis U); eauto. apply key_plain_R; auto.
      + intros [[H3 _]|[_ [H3 _]]].
        * exfalso. eapply (name_not_ell_axis U); eauto. apply key_plain_R; auto.
        * exfalso. assert (e = 0) by (apply Ho; repeat split; auto). lia.
  Qed.

  Lemma no_new w names : ident_ok w L R names -> w <> Repeating -> incl (concat rcomp) (concat lcomp).
  Proof.
    intros Hi Hw. assert (Hk : has_numbers R = false /\ incl (keys R) (keys L)) by (destruct w; simpl in Hi; tauto).
    destruct Hk as [Hn Hk]. intros a Ha. apply in_right in Ha. apply in_left. destruct a as [s|j n]; simpl in *.
    - destruct Ha as [[H1 H2]|[H1 [H2 H3]]]; [left; auto|right; auto].
    - exfalso. eapply no_numbers_big; eauto.
  Qed.

  Lemma none_missing w names : ident_ok w L R names -> w <> Reducing -> (odd_pattern L R -> e = 0) ->
    incl (concat lcomp) (concat rcomp).
  Proof.
    intros Hi Hw Ho. assert (Hk : has_numbers L = false /\ incl (keys L) (keys R)) by (destruct w; simpl in Hi; tauto).
    destruct Hk as [Hn Hk]. intros a Ha. apply in_left in Ha. apply in_right. destruct a as [s|j n]; simpl in *.
    - destruct Ha as [[H1 H2]|[H1 [H2 H3]]]; [left; auto|right; auto].
    - exfalso. eapply no_numbers_big; eauto.
  Qed.

  Lemma added_nil : incl (concat rcomp) (concat lcomp) -> added_of lcomp rcomp = [].
  Proof.
    intros H. unfold added_of. destruct (filter _ _) as [|[i a] l] eqn:E; auto. exfalso.
    assert (X : In (i, a) (filter (fun '(_, a) => negb (axis_mem a (concat lcomp))) (enumerate (concat rcomp)))) by (rewrite E; left; auto).
    apply filter_In in X as [X Y]. apply negb_true_iff, axis_mem_false in Y. apply Y, H. eapply enumerate_In; eauto.
  Qed.

  Lemma front_resolved w names : ident_ok w L R names -> (odd_pattern L R -> e = 0) ->
    resolved lcomp rcomp lids_of rids_of.
  Proof.
    intros Hi Ho. constructor.
    - apply front_weak.
    - intros a. apply front_agree; auto.
    - destruct (w) eqn:Ew.
      + right. apply added_nil. eapply no_new; eauto; discriminate.
      + left. unfold reduced_axes_of. destruct (filter _ _) as [|a l] eqn:E; auto. exfalso.
        assert (X : In a (filter (fun a => negb (axis_mem a rids_of)) (concat lcomp))) by (rewrite E; left; auto).
        apply filter_In in X as [X Y]. apply negb_true_iff, axis_mem_false in Y. apply Y, front_agree; auto.
        eapply none_missing; eauto; discriminate.
      + right. apply added_nil. eapply no_new; eauto; discriminate.
  Qed.

  (** ** labels again *)
  Lemma label_eqb_eq a b : label_eqb a b = true <-> a = b.
  Proof. unfold label_eqb. destruct (label_eq_dec a b); split; auto; discriminate. Qed.
  Lemma label_mem_In a l : existsb (label_eqb a) l = true <-> In a l.
  Proof.
    rewrite existsb_exists. split.
    - intros [b [H E]]. apply label_eqb_eq in E; subst; auto.
    - intros H; exists a; split; auto. apply label_eqb_eq; auto.
  Qed.

  Lemma in_axes_gl a : In a (concat gl ++ concat gr) -> (In (axis_of a) (concat lcomp) <-> In a (concat gl)).
  Proof.
    intros Ha. rewrite <- concat_map, in_map_iff. split; [|intros; eauto].
    intros [b [E Hb]]. rewrite <- (labels_inj b a); auto. apply in_or_app; auto.
  Qed.
  Lemma in_axes_gr a : In a (concat gl ++ concat gr) -> (In (axis_of a) (concat rcomp) <-> In a (concat gr)).
  Proof.
    intros Ha. rewrite <- concat_map, in_map_iff. split; [|intros; eauto].
    intros [b [E Hb]]. rewrite <- (labels_inj b a); auto. apply in_or_app; auto.
  Qed.

  Lemma filter_map_in {B C} (f : B -> C) p q (l : list B) :
    (forall b, In b l -> q (f b) = p b) -> filter q (map f l) = map f (filter p l).
  Proof.
    induction l as [|b l IH]; intros H; [reflexivity|]. simpl. rewrite H by (left; auto).
    rewrite IH by (intros; apply H; right; auto). destruct (p b); reflexivity.
  Qed.

  Lemma kept_axes : kept_axes_of lcomp rcomp = map axis_of (kept gl gr).
  Proof.
    unfold kept_axes_of, kept. rewrite <- (concat_map axis_of gr). apply filter_map_in.
    intros b Hb. assert (Hb' : In b (concat gl ++ concat gr)) by (apply in_or_app; auto).
    apply Bool.eq_iff_eq_true. rewrite axis_mem_In, label_mem_In. apply in_axes_gl; auto.
  Qed.

  Lemma missing_axes : (odd_pattern L R -> e = 0) -> reduced_axes_of lcomp rids_of = map axis_of (missing gl gr).
  Proof.
    intros Ho. unfold reduced_axes_of, missing. rewrite <- (concat_map axis_of gl). apply filter_map_in.
    intros b Hb. assert (Hb' : In b (concat gl ++ concat gr)) by (apply in_or_app; auto). f_equal.
    apply Bool.eq_iff_eq_true. rewrite axis_mem_In, label_mem_In.
    rewrite front_agree; auto; [apply in_axes_gr; auto|]. apply in_axes_gl; auto.
  Qed.
End Resolved.
