(** * Calls in several stages *)
From Verif Require Import Py Tensor ListFacts TensorFacts SpecSem SpecGrammar SpecPattern SpecOps Parsing Recipe Ops Backends Api StepFacts FrontFacts FrontFacts2 FrontFacts3 MainFacts ReduceFacts MainFacts3 Laws Laws2 ApiFacts ApiFacts2 ApiFacts3 ApiFacts4.

(** ** groups of a plain expression *)
Lemma stands_plain d d' a : a <> AName ell_name -> stands_for_dots d a = stands_for_dots d' a.
Proof.
  intros H. destruct a as [s|n|]; auto. unfold stands_for_dots. destruct (str_eqb s ell_name) eqn:E.
  - apply str_eqb_eq in E. congruence.
  - rewrite !andb_false_r. reflexivity.
Qed.
Lemma atom_labels_plain d d' e e' k a : a <> AName ell_name -> (a = ADots -> e = e') -> atom_labels d e k a = atom_labels d' e' k a.
Proof.
  intros H He. unfold atom_labels. rewrite (stands_plain d d' a H). destruct (stands_for_dots d' a) eqn:E; auto.
  rewrite He; auto. destruct a as [s|n|]; auto; try discriminate. cbn in E. apply andb_true_iff in E as [_ E].
  apply str_eqb_eq in E. congruence.
Qed.
Lemma atoms_labels_plain d d' e e' k l : (forall a, In a l -> a <> AName ell_name) -> (In ADots l -> e = e') ->
  atoms_labels d e k l = atoms_labels d' e' k l.
Proof.
  revert k; induction l as [|a l IH]; intros k H He; auto. cbn [atoms_labels]. f_equal.
  - apply atom_labels_plain; [apply H; left; auto|]. intros ->. apply He; left; auto.
  - apply IH; [intros b Hb; apply H; right; auto|]. intros X. apply He; right; auto.
Qed.
Lemma groups_any d d' e e' k ex : plain ex -> (has_dots ex = true -> e = e') -> groups d e k ex = groups d' e' k ex.
Proof.
  unfold plain, has_dots, atoms. revert k; induction ex as [|i ex IH]; intros k Hp He; auto. cbn [groups flat_map] in *.
  rewrite existsb_app in He. rewrite in_app_iff in Hp.
  assert (H1 : forall a, In a (item_atoms i) -> a <> AName ell_name) by (intros a Ha ->; tauto).
  assert (H2 : In ADots (item_atoms i) -> e = e').
  { intros H. apply He. apply orb_true_iff. left. apply existsb_exists. exists ADots; auto. }
  f_equal; [|apply IH; [tauto|]; intros H; apply He; rewrite H; apply orb_true_r].
  destruct i as [a|l]; cbn [item_groups item_atoms] in *.
  - rewrite (stands_plain d d' a) by (apply H1; left; auto).
    rewrite (atom_labels_plain d d' e e' k a); auto; [apply H1; left; auto|]. intros ->. apply H2. left; auto.
  - f_equal. apply atoms_labels_plain; auto.
Qed.

Lemma right_groups_any e e' L M R : plain R -> has_numbers R = false -> (has_dots R = true -> e = e') ->
  right_groups e L R = right_groups e' M R.
Proof. intros Hp Hn He. unfold right_groups. rewrite (groups_shift (has_dots L) e _ (nbig (atoms M))) by auto. apply groups_any; auto. Qed.
Lemma right_left_any e e' L M : plain M -> has_numbers M = false -> (has_dots M = true -> e = e') ->
  right_groups e L M = left_groups e' M.
Proof. intros Hp Hn He. unfold right_groups, left_groups. rewrite (groups_shift (has_dots L) e _ 0) by auto. apply groups_any; auto. Qed.

Lemma in_plain_groups d e k ex a : plain ex -> has_numbers ex = false ->
  (In a (concat (groups d e k ex)) <->
   match a with LName s => In s (keys ex) /\ s <> ell_name | LDots i => has_dots ex = true /\ i < e | LNum _ _ => False end).
Proof.
  intros Hp Hn. rewrite (groups_any d true e e k ex) by auto. rewrite concat_groups, in_atoms_labels by auto.
  unfold label_in. destruct a as [s|i|j n].
  - fold (keys ex). intuition congruence.
  - fold (keys ex). split.
    + intros [H1 [_ H2]]. split; auto. apply plain_key; auto.
    + intros [H1 H2]. split; auto. split; auto. apply has_dots_key; auto.
  - split; [|tauto]. intros H. eapply no_numbers_big; eauto.
Qed.

Lemma rank_unique L n e e' : rank_fits L n e -> rank_fits L n e' -> e = e'.
Proof. unfold rank_fits. destruct (has_dots L); lia. Qed.

(** ** one or two stages *)
Definition outcome {A} (red : list A -> result A) (gl gr : list (list label)) (len : label -> nat) (x y : tensor A) : Prop :=
  (missing gl gr = [] -> moves gl gr len x y) /\ (missing gl gr <> [] -> reduces red gl gr len x y).

Lemma empty_or {X} (l : list X) : l = [] \/ l <> [].
Proof. destruct l; [left; auto|right; discriminate]. Qed.

Lemma outcome_wf {A} (red : list A -> result A) gl gr len x y : outcome red gl gr len x y -> wf y /\ shp y = gshape len gr.
Proof.
  intros [H1 H2]. destruct (empty_or (missing gl gr)) as [D|D].
  - destruct (H1 D) as [? [? _]]; auto.
  - destruct (H2 D) as [? [? _]]; auto.
Qed.

Lemma outcome_fun {A} (red : list A -> result A) gl gr len x y y' : NoDup (concat gr) ->
  outcome red gl gr len x y -> outcome red gl gr len x y' -> y = y'.
Proof.
  intros Hn [M1 D1] [M2 D2]. destruct (empty_or (missing gl gr)) as [D|D].
  - eapply moves_fun; eauto. apply missing_nil; auto.
  - eapply reduces_fun; eauto.
Qed.

Lemma outcome_trans {A} (red : list A -> result A) gl gm gr len x y z :
  (missing gm gr <> [] -> symmetric red) -> (missing gl gm <> [] -> missing gm gr <> [] -> splits red) ->
  NoDup (concat gl) -> NoDup (concat gm) -> incl (concat gm) (concat gl) -> incl (concat gr) (concat gm) ->
  outcome red gl gm len x y -> outcome red gm gr len y z -> outcome red gl gr len x z.
Proof.
  intros Hsy Hsp N1 N2 I1 I2 [M1 D1] [M2 D2].
  destruct (empty_or (missing gl gm)) as [E1|E1], (empty_or (missing gm gr)) as [E2|E2].
  - pose proof (proj1 (missing_nil _ _) E1) as J1. pose proof (proj1 (missing_nil _ _) E2) as J2.
    assert (E3 : missing gl gr = []) by (apply missing_nil; intros a Ha; auto).
    split; intros D; [|contradiction]. apply (moves_trans gl gm gr len x y z); auto; intros a Ha; apply in_or_app; auto.
  - pose proof (proj1 (missing_nil _ _) E1) as J1.
    assert (E3 : missing gl gr <> []) by (intros X; apply E2; apply missing_nil in X; apply missing_nil; intros a Ha; auto).
    split; intros D; [contradiction|]. apply (reduces_moved red gl gm gr len x y z); auto. intros a Ha; auto.
  - pose proof (proj1 (missing_nil _ _) E2) as J2.
    assert (Em : missing gl gm = missing gl gr).
    { unfold missing. apply filter_ext. intros a. f_equal. apply eq_iff_eq_true.
      rewrite !label_mem_In. split; auto. }
    split; intros D; [congruence|]. apply (reduces_then_moves red gl gm gr len x y z); auto.
  - assert (E3 : missing gl gr <> []).
    { intros X. apply E2. apply missing_nil in X. apply missing_nil. intros a Ha; auto. }
    split; intros D; [contradiction|]. apply (reduces_trans red gl gm gr len x y z); auto.
Qed.

Lemma moves_outcome {A} (red : list A -> result A) gl gr len (x y : tensor A) : missing gl gr = [] -> moves gl gr len x y -> outcome red gl gr len x y.
Proof. intros H M. split; intros D; auto. contradiction. Qed.

Section Laws7.
  Context {A : Type} (r : runtime A) (Hok : runtime_ok r).
  Notation U := (rt_unicode r).
  Notation f := (rt_framework r).
  Implicit Types (x y z : tensor A) (pattern : pystr) (sizes : list (pystr * Z)).
  Let HU : unicode_ok U := ro_unicode r Hok.

  (** two calls, neither adding axes, after one another *)
  Lemma two_stages w1 w2 (red : list A -> result A) x y z p1 p2 s1 s2 L M R e e' len :
    w1 <> Repeating -> w2 <> Repeating ->
    call_ok U w1 p1 s1 (shp x) L M e len -> call_ok U w2 p2 s2 (shp y) M R e' len ->
    plain M -> plain R -> 
    (missing (left_groups e' M) (right_groups e' M R) <> [] -> symmetric red) ->
    (missing (left_groups e L) (right_groups e L M) <> [] -> missing (left_groups e' M) (right_groups e' M R) <> [] -> splits red) ->
    outcome red (left_groups e L) (right_groups e L M) len x y ->
    outcome red (left_groups e' M) (right_groups e' M R) len y z ->
    outcome red (left_groups e L) (right_groups e L R) len x z.
  Proof.
    intros W1 W2 K1 K2 HpM HpR Hsy Hsp O1 O2.
    assert (NM : has_numbers M = false) by (pose proof (co_ident _ _ _ _ _ _ _ _ _ K1) as X; destruct w1; simpl in X; tauto).
    assert (NR : has_numbers R = false) by (pose proof (co_ident _ _ _ _ _ _ _ _ _ K2) as X; destruct w2; simpl in X; tauto).
    destruct (outcome_wf _ _ _ _ _ _ O1) as [_ Es].
    assert (He : has_dots M = true -> e = e').
    { intros Hd. pose proof (co_rank _ _ _ _ _ _ _ _ _ K2) as Hk. rewrite Es in Hk.
      rewrite (right_left_any e e L M HpM NM) in Hk by auto.
      eapply rank_unique; [|exact Hk]. eapply next_rank; [apply (co_reads _ _ _ _ _ _ _ _ _ K2)|eapply call_flat; eauto|]. congruence. }
    assert (HdR : has_dots R = true -> has_dots M = true) by apply (co_dots _ _ _ _ _ _ _ _ _ K2).
    rewrite (right_left_any e e' L M HpM NM He) in O1, Hsp.
    rewrite <- (right_groups_any e e' L M R HpR NR) in O2, Hsy, Hsp by auto.
    apply (outcome_trans red _ (left_groups e' M) _ len x y z); auto.
    - apply (call_gl_NoDup U p1 s1 x w1 L M e len); auto.
    - apply (call_gl_NoDup U p2 s2 y w2 M R e' len); auto.
    - intros a Ha. assert (E : kept (left_groups e L) (right_groups e L M) = concat (right_groups e L M)) by (eapply all_kept; eauto).
      rewrite <- (right_left_any e e' L M HpM NM He), <- E in Ha. apply in_kept in Ha. tauto.
    - intros a Ha. assert (E : kept (left_groups e' M) (right_groups e' M R) = concat (right_groups e' M R)) by (eapply all_kept; eauto).
      rewrite (right_groups_any e e' L M R HpR NR) in Ha by auto. rewrite <- E in Ha. apply in_kept in Ha. tauto.
  Qed.

  (** the direct call, told all lengths *)
  Lemma direct_call_ok w1 w2 x y p1 p2 p3 s1 s2 s3 L M R e e' len : w1 <> Repeating -> w2 <> Repeating ->
    call_ok U w1 p1 s1 (shp x) L M e len -> call_ok U w2 p2 s2 (shp y) M R e' len -> reads U p3 L R ->
    plain L -> plain R -> gives_all L R len s3 -> call_ok U Reducing p3 s3 (shp x) L R e len.
  Proof.
    intros W1 W2 K1 K2 R3 HpL HpR Ha.
    assert (I1 : incl (keys M) (keys L)) by (pose proof (co_ident _ _ _ _ _ _ _ _ _ K1) as X; destruct w1; simpl in X; tauto).
    assert (I2 : has_numbers R = false /\ incl (keys R) (keys M)) by (pose proof (co_ident _ _ _ _ _ _ _ _ _ K2) as X; destruct w2; simpl in X; tauto).
    destruct (co_fits _ _ _ _ _ _ _ _ _ K1) as [F1 [F2 F3]].
    apply full_call_ok; auto.
    - split; [tauto|]. intros a Hin. apply I1, I2; auto.
    - intros Hd. apply (co_dots _ _ _ _ _ _ _ _ _ K1), (co_dots _ _ _ _ _ _ _ _ _ K2); auto.
    - apply (co_flat _ _ _ _ _ _ _ _ _ K1).
    - apply (co_rank _ _ _ _ _ _ _ _ _ K1).
    - intros k n Hin. apply (F2 k n). apply in_app_or in Hin as [Hin|Hin]; [apply in_or_app; auto|]. exfalso.
      revert Hin. destruct I2 as [N _]. clear -N. unfold right_groups. generalize (has_dots L) as d, (nbig (atoms L)) as q. intros d.
      unfold has_numbers, atoms in N. induction R as [|i R IH]; intros q Hin; [destruct Hin|].
      cbn [flat_map] in N. rewrite existsb_app in N. apply orb_false_iff in N as [N1 N2].
      cbn [groups] in Hin. rewrite concat_app in Hin. apply in_app_or in Hin as [Hin|Hin]; [|apply (IH N2 _ Hin)].
      assert (Hat : forall q a, is_big a = false -> ~ In (LNum k n) (atom_labels d e q a)).
      { intros q' a Hb. unfold atom_labels. destruct (stands_for_dots d a).
        - rewrite in_map_iff. intros [? [? _]]; discriminate.
        - destruct a as [s|m|]; cbn [In]; try (intros [?|[]]; discriminate); try tauto.
          cbn in Hb. apply negb_false_iff in Hb. rewrite Hb. intros []. }
      destruct i as [a|l]; cbn [item_groups item_atoms existsb] in *.
      + apply orb_false_iff in N1 as [N1 _]. apply (Hat q a N1). destruct (stands_for_dots d a).
        * rewrite in_concat in Hin. destruct Hin as [g [Hg Hin]]. apply in_map_iff in Hg as [b [<- Hb]]. destruct Hin as [->|[]]. auto.
        * cbn [concat] in Hin. rewrite app_nil_r in Hin. auto.
      + cbn [concat] in Hin. rewrite app_nil_r in Hin. clear -Hat N1 Hin. revert q Hin. induction l as [|a l IH]; intros q Hin; [destruct Hin|].
        cbn [existsb] in N1. apply orb_false_iff in N1 as [N1 N2]. cbn [atoms_labels] in Hin.
        apply in_app_or in Hin as [Hin|Hin]; [apply (Hat _ _ N1 Hin)|apply (IH N2 _ Hin)].
  Qed.

  Let fit op := one_by_one f op = true -> splits (rt_red r op).

  Lemma reduce_twice x y z z' p1 p2 p3 s1 s2 s3 op L M R e e' len :
    NoDup (map fst s1) -> NoDup (map fst s2) -> NoDup (map fst s3) -> wf x ->
    str_mem op reductions = true -> splits (rt_red r op) -> symmetric (rt_red r op) ->
    reduce r (One x) p1 (RStr op) s1 = Ok y -> reduce r (One y) p2 (RStr op) s2 = Ok z -> reduce r (One x) p3 (RStr op) s3 = Ok z' ->
    reads U p1 L M -> reads U p2 M R -> reads U p3 L R -> plain M -> plain R ->
    rank_fits L (length (shp x)) e -> rank_fits M (length (shp y)) e' ->
    fits len (left_groups e L) (right_groups e L M) (shp x) s1 ->
    fits len (left_groups e' M) (right_groups e' M R) (shp y) s2 ->
    fits len (left_groups e L) (right_groups e L R) (shp x) s3 -> z' = z.
  Proof.
    intros Hn1 Hn2 Hn3 Hw Hop Hsp Hsy H1 H2 H3 R1 R2 R3 HpM HpR Hk1 Hk2 F1 F2 F3.
    destruct (reduce_at r Hok x p1 op s1 L M e len y Hn1 Hw Hop (fun _ => Hsp) H1 R1 Hk1 F1) as [K1 O1].
    fold (outcome (rt_red r op) (left_groups e L) (right_groups e L M) len x y) in O1.
    destruct (outcome_wf _ _ _ _ _ _ O1) as [Hwy _].
    destruct (reduce_at r Hok y p2 op s2 M R e' len z Hn2 Hwy Hop (fun _ => Hsp) H2 R2 Hk2 F2) as [K2 O2].
    destruct (reduce_at r Hok x p3 op s3 L R e len z' Hn3 Hw Hop (fun _ => Hsp) H3 R3 Hk1 F3) as [K3 O3].
    apply (outcome_fun (rt_red r op) (left_groups e L) (right_groups e L R) len x).
    - apply (call_gr_NoDup U p3 s3 x Reducing L R e len K3).
    - exact O3.
    - apply (two_stages Reducing Reducing (rt_red r op) x y z p1 p2 s1 s2 L M R e e' len); auto; discriminate.
  Qed.

  Lemma reduce_twice_total x y z p1 p2 p3 s1 s2 s3 op L M R e e' len :
    NoDup (map fst s1) -> NoDup (map fst s2) -> wf x ->
    str_mem op reductions = true -> splits (rt_red r op) -> symmetric (rt_red r op) ->
    (op = lit "mean" -> forall t, rt_isf r t = true) -> has_reduction f op = true ->
    reduce r (One x) p1 (RStr op) s1 = Ok y -> reduce r (One y) p2 (RStr op) s2 = Ok z ->
    reads U p1 L M -> reads U p2 M R -> reads U p3 L R -> plain L -> plain M -> plain R ->
    rank_fits L (length (shp x)) e -> rank_fits M (length (shp y)) e' ->
    fits len (left_groups e L) (right_groups e L M) (shp x) s1 ->
    fits len (left_groups e' M) (right_groups e' M R) (shp y) s2 ->
    gives_all L R len s3 -> no_reserved s3 ->
    reduce r (One x) p3 (RStr op) s3 = Ok z.
  Proof.
    intros Hn1 Hn2 Hw Hop Hsp Hsy Hfl Hh H1 H2 R1 R2 R3 HpL HpM HpR Hk1 Hk2 F1 F2 Ha Hres.
    destruct (reduce_at r Hok x p1 op s1 L M e len y Hn1 Hw Hop (fun _ => Hsp) H1 R1 Hk1 F1) as [K1 O1].
    fold (outcome (rt_red r op) (left_groups e L) (right_groups e L M) len x y) in O1.
    destruct (outcome_wf _ _ _ _ _ _ O1) as [Hwy _].
    destruct (reduce_at r Hok y p2 op s2 M R e' len z Hn2 Hwy Hop (fun _ => Hsp) H2 R2 Hk2 F2) as [K2 O2].
    assert (K3 : call_ok U Reducing p3 s3 (shp x) L R e len)
      by (apply (direct_call_ok Reducing Reducing x y p1 p2 p3 s1 s2 s3 L M R e e' len); auto; discriminate).
    assert (O3 : outcome (rt_red r op) (left_groups e L) (right_groups e L R) len x z)
      by (apply (two_stages Reducing Reducing (rt_red r op) x y z p1 p2 s1 s2 L M R e e' len); auto; discriminate).
    apply (reduce_iff r Hok x p3 op s3 L R e len); auto; [apply Ha|].
    destruct (empty_or (missing (left_groups e L) (right_groups e L R))) as [D|D]; [left|right]; split; auto; [apply O3; auto|split; auto; apply O3; auto].
  Qed.

  (** rearranging what was reduced *)
  Lemma rearrange_of_reduced x y z z' p1 p2 p3 s1 s2 s3 op L M R e e' len :
    NoDup (map fst s1) -> NoDup (map fst s2) -> NoDup (map fst s3) -> wf x ->
    str_mem op reductions = true -> fit op ->
    reduce r (One x) p1 (RStr op) s1 = Ok y -> rearrange r (One y) p2 s2 = Ok z -> reduce r (One x) p3 (RStr op) s3 = Ok z' ->
    reads U p1 L M -> reads U p2 M R -> reads U p3 L R -> plain M -> plain R ->
    rank_fits L (length (shp x)) e -> rank_fits M (length (shp y)) e' ->
    fits len (left_groups e L) (right_groups e L M) (shp x) s1 ->
    fits len (left_groups e' M) (right_groups e' M R) (shp y) s2 ->
    fits len (left_groups e L) (right_groups e L R) (shp x) s3 -> z' = z.
  Proof.
    intros Hn1 Hn2 Hn3 Hw Hop Hsp H1 H2 H3 R1 R2 R3 HpM HpR Hk1 Hk2 F1 F2 F3.
    destruct (reduce_at r Hok x p1 op s1 L M e len y Hn1 Hw Hop Hsp H1 R1 Hk1 F1) as [K1 O1].
    fold (outcome (rt_red r op) (left_groups e L) (right_groups e L M) len x y) in O1.
    destruct (outcome_wf _ _ _ _ _ _ O1) as [Hwy _].
    destruct (rearrange_at r Hok y p2 s2 M R e' len z Hn2 Hwy H2 R2 Hk2 F2) as [K2 O2].
    assert (E2 : missing (left_groups e' M) (right_groups e' M R) = []) by (eapply no_missing; eauto; discriminate).
    destruct (reduce_at r Hok x p3 op s3 L R e len z' Hn3 Hw Hop Hsp H3 R3 Hk1 F3) as [K3 O3].
    apply (outcome_fun (rt_red r op) (left_groups e L) (right_groups e L R) len x).
    - apply (call_gr_NoDup U p3 s3 x Reducing L R e len K3).
    - exact O3.
    - apply (two_stages Reducing Rearranging (rt_red r op) x y z p1 p2 s1 s2 L M R e e' len); auto; try discriminate; try contradiction.
      apply moves_outcome; auto.
  Qed.

  Lemma rearrange_of_reduced_total x y z p1 p2 p3 s1 s2 s3 op L M R e e' len :
    NoDup (map fst s1) -> NoDup (map fst s2) -> wf x ->
    str_mem op reductions = true -> fit op ->
    (op = lit "mean" -> forall t, rt_isf r t = true) -> has_reduction f op = true ->
    reduce r (One x) p1 (RStr op) s1 = Ok y -> rearrange r (One y) p2 s2 = Ok z ->
    reads U p1 L M -> reads U p2 M R -> reads U p3 L R -> plain L -> plain M -> plain R ->
    rank_fits L (length (shp x)) e -> rank_fits M (length (shp y)) e' ->
    fits len (left_groups e L) (right_groups e L M) (shp x) s1 ->
    fits len (left_groups e' M) (right_groups e' M R) (shp y) s2 ->
    gives_all L R len s3 -> no_reserved s3 ->
    reduce r (One x) p3 (RStr op) s3 = Ok z.
  Proof.
    intros Hn1 Hn2 Hw Hop Hsp Hfl Hh H1 H2 R1 R2 R3 HpL HpM HpR Hk1 Hk2 F1 F2 Ha Hres.
    destruct (reduce_at r Hok x p1 op s1 L M e len y Hn1 Hw Hop Hsp H1 R1 Hk1 F1) as [K1 O1].
    fold (outcome (rt_red r op) (left_groups e L) (right_groups e L M) len x y) in O1.
    destruct (outcome_wf _ _ _ _ _ _ O1) as [Hwy _].
    destruct (rearrange_at r Hok y p2 s2 M R e' len z Hn2 Hwy H2 R2 Hk2 F2) as [K2 O2].
    assert (E2 : missing (left_groups e' M) (right_groups e' M R) = []) by (eapply no_missing; eauto; discriminate).
    assert (K3 : call_ok U Reducing p3 s3 (shp x) L R e len)
      by (apply (direct_call_ok Reducing Rearranging x y p1 p2 p3 s1 s2 s3 L M R e e' len); auto; discriminate).
    assert (O3 : outcome (rt_red r op) (left_groups e L) (right_groups e L R) len x z).
    { apply (two_stages Reducing Rearranging (rt_red r op) x y z p1 p2 s1 s2 L M R e e' len); auto; try discriminate; try contradiction.
      apply moves_outcome; auto. }
    apply (reduce_iff r Hok x p3 op s3 L R e len); auto; [apply Ha|].
    destruct (empty_or (missing (left_groups e L) (right_groups e L R))) as [D|D]; [left|right]; split; auto; [apply O3; auto|split; auto; apply O3; auto].
  Qed.

  (** ** adding axes in stages *)
  Lemma right_of0 e L R M : has_numbers L = false -> has_numbers M = false -> has_dots L = has_dots M -> right_groups e L R = right_groups e M R.
  Proof. intros H1 H2 Hd. unfold right_groups. rewrite !has_numbers_nbig, Hd by auto. reflexivity. Qed.

  Lemma growing_stages w1 w2 x y z p1 p2 s1 s2 L M R e e' len : w1 <> Reducing -> w2 <> Reducing -> plain M ->
    call_ok U w1 p1 s1 (shp x) L M e len -> call_ok U w2 p2 s2 (shp y) M R e' len ->
    moves (left_groups e L) (right_groups e L M) len x y -> moves (left_groups e' M) (right_groups e' M R) len y z ->
    e' = e /\ moves (left_groups e L) (right_groups e L R) len x z.
  Proof.
    intros W1 W2 HpM K1 K2 M1 M2.
    assert (NL : has_numbers L = false) by (pose proof (co_ident _ _ _ _ _ _ _ _ _ K1) as X; destruct w1; simpl in X; tauto).
    assert (NM : has_numbers M = false) by (pose proof (co_ident _ _ _ _ _ _ _ _ _ K2) as X; destruct w2; simpl in X; tauto).
    pose proof (mid_dots r _ _ _ _ _ _ _ _ K1 W1 HpM) as Hd.
    assert (Es : shp y = gshape len (right_groups e L M)) by apply M1.
    assert (Ee : e' = e).
    { pose proof (co_rank _ _ _ _ _ _ _ _ _ K2) as Hk. rewrite Es, (right_as_left' e L M) in Hk by auto.
      eapply rank_unique; [exact Hk|]. eapply next_rank; [apply (co_reads _ _ _ _ _ _ _ _ _ K2)|eapply call_flat; eauto|].
      rewrite <- Hd. apply (rank_zero _ _ _ (co_rank _ _ _ _ _ _ _ _ _ K1)). }
    subst e'. split; auto. rewrite (right_as_left' e L M) in M1 by auto. rewrite <- (right_of0 e L R M) in M2 by auto.
    assert (I1 : incl (concat (left_groups e L)) (concat (left_groups e M))).
    { rewrite <- (right_as_left' e L M) by auto. apply missing_nil. eapply no_missing; eauto. }
    assert (I2 : incl (concat (left_groups e M)) (concat (right_groups e L R))).
    { rewrite (right_of0 e L R M) by auto. apply missing_nil. eapply no_missing; eauto. }
    apply (moves_trans _ (left_groups e M) _ _ _ y); auto; intros a Ha; apply in_or_app; auto.
  Qed.

  Lemma direct_repeat_ok w1 w2 x y p1 p2 p3 s1 s2 s3 L M R e len : w1 <> Reducing -> w2 <> Reducing ->
    call_ok U w1 p1 s1 (shp x) L M e len -> call_ok U w2 p2 s2 (shp y) M R e len -> reads U p3 L R ->
    plain L -> plain M -> plain R -> gives_all L R len s3 -> (forall s, In s (keys R) -> ~ In s (keys L) -> In s (map fst s3)) ->
    call_ok U Repeating p3 s3 (shp x) L R e len.
  Proof.
    intros W1 W2 K1 K2 R3 HpL HpM HpR Ha Hnew.
    assert (I1 : has_numbers L = false /\ incl (keys L) (keys M)) by (pose proof (co_ident _ _ _ _ _ _ _ _ _ K1) as X; destruct w1; simpl in X; tauto).
    assert (I2 : has_numbers M = false /\ incl (keys M) (keys R)) by (pose proof (co_ident _ _ _ _ _ _ _ _ _ K2) as X; destruct w2; simpl in X; tauto).
    destruct (co_fits _ _ _ _ _ _ _ _ _ K1) as [F1 [F2 F3]].
    destruct (co_fits _ _ _ _ _ _ _ _ _ K2) as [F1' [F2' F3']].
    pose proof (mid_dots r _ _ _ _ _ _ _ _ K1 W1 HpM) as Hd.
    apply full_call_ok; auto.
    - split; [tauto|]. split; [intros a Hin; apply I2, I1; auto|]. intros a Hin. apply in_or_app.
      destruct (in_dec (list_eq_dec N.eq_dec) a (keys L)) as [D|D]; auto.
    - intros X. rewrite Hd. apply (co_dots _ _ _ _ _ _ _ _ _ K2); auto.
    - apply (co_flat _ _ _ _ _ _ _ _ _ K1).
    - apply (co_rank _ _ _ _ _ _ _ _ _ K1).
    - intros k n Hin. apply in_app_or in Hin as [Hin|Hin].
      + apply (F2 k n). apply in_or_app; auto.
      + apply (F2' k n). apply in_or_app; right. rewrite <- (right_of0 e L R M); tauto.
  Qed.

  (** what a call of [rearrange] or [repeat] gives *)
  Lemma moving_at op w x pattern sizes L R e len y : op = s_rearrange /\ w = Rearranging \/ op = s_repeat /\ w = Repeating ->
    NoDup (map fst sizes) -> wf x -> repeat_sizes_ok r pattern sizes ->
    reduce r (One x) pattern (RStr op) sizes = Ok y -> reads U pattern L R -> rank_fits L (length (shp x)) e ->
    fits len (left_groups e L) (right_groups e L R) (shp x) sizes ->
    call_ok U w pattern sizes (shp x) L R e len /\ moves (left_groups e L) (right_groups e L R) len x y.
  Proof.
    intros [[-> ->]|[-> ->]] Hn Hw Hs H Hr Hk Hf.
    - apply rearrange_at; auto.
    - apply repeat_at; auto.
  Qed.

  Lemma grow_twice op1 op2 w1 w2 x y z z' p1 p2 p3 s1 s2 s3 L M R e e' len :
    op1 = s_rearrange /\ w1 = Rearranging \/ op1 = s_repeat /\ w1 = Repeating ->
    op2 = s_rearrange /\ w2 = Rearranging \/ op2 = s_repeat /\ w2 = Repeating ->
    NoDup (map fst s1) -> NoDup (map fst s2) -> NoDup (map fst s3) -> wf x ->
    repeat_sizes_ok r p1 s1 -> repeat_sizes_ok r p2 s2 -> repeat_sizes_ok r p3 s3 ->
    reduce r (One x) p1 (RStr op1) s1 = Ok y -> reduce r (One y) p2 (RStr op2) s2 = Ok z -> repeat_ r (One x) p3 s3 = Ok z' ->
    reads U p1 L M -> reads U p2 M R -> reads U p3 L R -> plain M ->
    rank_fits L (length (shp x)) e -> rank_fits M (length (shp y)) e' ->
    fits len (left_groups e L) (right_groups e L M) (shp x) s1 ->
    fits len (left_groups e' M) (right_groups e' M R) (shp y) s2 ->
    fits len (left_groups e L) (right_groups e L R) (shp x) s3 -> z' = z.
  Proof.
    intros W1 W2 Hn1 Hn2 Hn3 Hw Hs1 Hs2 Hs3 H1 H2 H3 R1 R2 R3 HpM Hk1 Hk2 F1 F2 F3.
    destruct (moving_at op1 w1 x p1 s1 L M e len y W1 Hn1 Hw Hs1 H1 R1 Hk1 F1) as [K1 M1].
    assert (Hwy : wf y) by apply M1.
    destruct (moving_at op2 w2 y p2 s2 M R e' len z W2 Hn2 Hwy Hs2 H2 R2 Hk2 F2) as [K2 M2].
    destruct (repeat_at r Hok x p3 s3 L R e len z' Hn3 Hw Hs3 H3 R3 Hk1 F3) as [K3 M3].
    assert (V1 : w1 <> Reducing) by (destruct W1 as [[_ ->]|[_ ->]]; discriminate).
    assert (V2 : w2 <> Reducing) by (destruct W2 as [[_ ->]|[_ ->]]; discriminate).
    destruct (growing_stages w1 w2 x y z p1 p2 s1 s2 L M R e e' len) as [_ M4]; auto.
    apply (moves_fun (left_groups e L) (right_groups e L R) len x); auto.
    - apply (call_gr_NoDup U p3 s3 x Repeating L R e len K3).
    - apply missing_nil. eapply no_missing; eauto. discriminate.
  Qed.

  Lemma grow_twice_total op1 op2 w1 w2 x y z p1 p2 p3 s1 s2 s3 L M R e e' len :
    op1 = s_rearrange /\ w1 = Rearranging \/ op1 = s_repeat /\ w1 = Repeating ->
    op2 = s_rearrange /\ w2 = Rearranging \/ op2 = s_repeat /\ w2 = Repeating ->
    NoDup (map fst s1) -> NoDup (map fst s2) -> wf x ->
    repeat_sizes_ok r p1 s1 -> repeat_sizes_ok r p2 s2 ->
    reduce r (One x) p1 (RStr op1) s1 = Ok y -> reduce r (One y) p2 (RStr op2) s2 = Ok z ->
    reads U p1 L M -> reads U p2 M R -> reads U p3 L R -> plain L -> plain M -> plain R ->
    rank_fits L (length (shp x)) e -> rank_fits M (length (shp y)) e' ->
    fits len (left_groups e L) (right_groups e L M) (shp x) s1 ->
    fits len (left_groups e' M) (right_groups e' M R) (shp y) s2 ->
    gives_all L R len s3 -> (forall s, In s (keys R) -> ~ In s (keys L) -> In s (map fst s3)) -> no_reserved s3 ->
    repeat_ r (One x) p3 s3 = Ok z.
  Proof.
    intros W1 W2 Hn1 Hn2 Hw Hs1 Hs2 H1 H2 R1 R2 R3 HpL HpM HpR Hk1 Hk2 F1 F2 Ha Hnew Hres.
    destruct (moving_at op1 w1 x p1 s1 L M e len y W1 Hn1 Hw Hs1 H1 R1 Hk1 F1) as [K1 M1].
    assert (Hwy : wf y) by apply M1.
    destruct (moving_at op2 w2 y p2 s2 M R e' len z W2 Hn2 Hwy Hs2 H2 R2 Hk2 F2) as [K2 M2].
    assert (V1 : w1 <> Reducing) by (destruct W1 as [[_ ->]|[_ ->]]; discriminate).
    assert (V2 : w2 <> Reducing) by (destruct W2 as [[_ ->]|[_ ->]]; discriminate).
    destruct (growing_stages w1 w2 x y z p1 p2 s1 s2 L M R e e' len) as [-> M4]; auto.
    apply (repeat_iff r Hok x p3 s3 L R e len); auto; [apply Ha|].
    apply (direct_repeat_ok w1 w2 x y p1 p2 p3 s1 s2 s3 L M R e len); auto.
  Qed.

  (** adding axes and reducing over others may be interchanged *)
  Lemma swap_reduce_repeat x y z t u p1 p2 p3 p4 s1 s2 s3 s4 op L M N R e e' len :
    NoDup (map fst s1) -> NoDup (map fst s2) -> NoDup (map fst s3) -> NoDup (map fst s4) -> wf x ->
    repeat_sizes_ok r p1 s1 -> repeat_sizes_ok r p4 s4 ->
    str_mem op reductions = true -> fit op -> symmetric (rt_red r op) ->
    repeat_ r (One x) p1 s1 = Ok y -> reduce r (One y) p2 (RStr op) s2 = Ok z ->
    reduce r (One x) p3 (RStr op) s3 = Ok t -> repeat_ r (One t) p4 s4 = Ok u ->
    reads U p1 L M -> reads U p2 M R -> reads U p3 L N -> reads U p4 N R ->
    plain L -> plain M -> plain N -> plain R -> has_numbers M = false ->
    incl (keys M) (keys L ++ keys R) -> (forall s, In s (keys L) -> In s (keys R) -> In s (keys N)) ->
    rank_fits L (length (shp x)) e -> rank_fits N (length (shp t)) e' ->
    fits len (left_groups e L) (right_groups e L M) (shp x) s1 ->
    fits len (left_groups e M) (right_groups e M R) (shp y) s2 ->
    fits len (left_groups e L) (right_groups e L N) (shp x) s3 ->
    fits len (left_groups e' N) (right_groups e' N R) (shp t) s4 -> u = z.
  Proof.
    intros Hn1 Hn2 Hn3 Hn4 Hw Hs1 Hs4 Hop Hsp Hsy H1 H2 H3 H4 R1 R2 R3 R4 HpL HpM HpN HpR NM Hnew Hkeep Hk1 Hk4 F1 F2 F3 F4.
    destruct (repeat_at r Hok x p1 s1 L M e len y Hn1 Hw Hs1 H1 R1 Hk1 F1) as [K1 M1].
    assert (Hwy : wf y) by apply M1.
    pose proof (mid_dots r _ _ _ _ _ _ _ _ K1 ltac:(discriminate) HpM) as Hd.
    destruct (co_ident _ _ _ _ _ _ _ _ _ K1) as [NL [KLM KML]].
    rewrite (right_as_left' e L M) in M1 by auto.
    assert (Es : shp y = gshape len (left_groups e M)) by apply M1.
    destruct (reduce_sound r Hok y p2 op s2 z Hn2 Hwy Hop H2) as [_ [L1 [R1' [e1 [len1 C2]]]]].
    destruct (reads_fun U HU p2 L1 R1' M R (co_reads _ _ _ _ _ _ _ _ _ C2) R2) as [-> ->].
    assert (Hk2 : rank_fits M (length (shp y)) e).
    { rewrite Es. eapply next_rank; eauto; [eapply call_flat; eauto|]. rewrite <- Hd. apply (rank_zero _ _ _ Hk1). }
    destruct (reduce_at r Hok y p2 op s2 M R e len z Hn2 Hwy Hop Hsp H2 R2 Hk2 F2) as [K2 O2].
    fold (outcome (rt_red r op) (left_groups e M) (right_groups e M R) len y z) in O2.
    destruct (reduce_at r Hok x p3 op s3 L N e len t Hn3 Hw Hop Hsp H3 R3 Hk1 F3) as [K3 O3].
    fold (outcome (rt_red r op) (left_groups e L) (right_groups e L N) len x t) in O3.
    destruct (outcome_wf _ _ _ _ _ _ O3) as [Hwt Et].
    destruct (repeat_at r Hok t p4 s4 N R e' len u Hn4 Hwt Hs4 H4 R4 Hk4 F4) as [K4 M4].
    destruct (co_ident _ _ _ _ _ _ _ _ _ K2) as [NR KRM].
    destruct (co_ident _ _ _ _ _ _ _ _ _ K3) as [NN KNL].
    destruct (co_ident _ _ _ _ _ _ _ _ _ K4) as [_ [KNR _]].
    assert (He : has_dots N = true -> e = e').
    { intros Hdn. rewrite Et in Hk4. rewrite (right_left_any e e L N HpN NN) in Hk4 by auto.
      eapply rank_unique; [|exact Hk4]. eapply next_rank; [exact R4|eapply call_flat; eauto|]. congruence. }
    assert (HdR : has_dots R = true -> has_dots N = true) by apply (co_dots _ _ _ _ _ _ _ _ _ K4).
    assert (HdN : has_dots N = true -> has_dots R = true).
    { intros X. apply plain_key; auto. apply KNR. apply has_dots_key; auto. }
    rewrite (right_left_any e e' L N HpN NN He) in O3.
    rewrite (right_groups_any e' e N M R HpR NR) in M4 by (intros X; symmetry; auto).
    assert (QL : forall a, In a (concat (left_groups e L)) <-> match a with LName s => In s (keys L) /\ s <> ell_name | LDots i => has_dots L = true /\ i < e | LNum _ _ => False end)
      by (intros a; apply in_plain_groups; auto).
    assert (QM : forall a, In a (concat (left_groups e M)) <-> match a with LName s => In s (keys M) /\ s <> ell_name | LDots i => has_dots M = true /\ i < e | LNum _ _ => False end)
      by (intros a; apply in_plain_groups; auto).
    assert (QN : forall a, In a (concat (left_groups e' N)) <-> match a with LName s => In s (keys N) /\ s <> ell_name | LDots i => has_dots N = true /\ i < e' | LNum _ _ => False end)
      by (intros a; apply in_plain_groups; auto).
    assert (QR : forall a, In a (concat (right_groups e M R)) <-> match a with LName s => In s (keys R) /\ s <> ell_name | LDots i => has_dots R = true /\ i < e | LNum _ _ => False end)
      by (intros a; apply in_plain_groups; auto).
    assert (DK : forall ex, plain ex -> (has_dots ex = true <-> In ell_name (keys ex))).
    { intros ex Hp. split; [apply has_dots_key|apply plain_key; auto]. }
    assert (Hdm : has_dots M = true -> has_dots L = true) by congruence.
    assert (Hdl : has_dots L = true -> has_dots M = true) by congruence.
    assert (J1 : incl (concat (left_groups e L)) (concat (left_groups e M))).
    { intros a. rewrite QL, QM. destruct a; intuition. }
    assert (J2 : incl (concat (right_groups e M R)) (concat (left_groups e M))).
    { intros a. rewrite QR, QM. destruct a as [s|i|]; auto; intros [X Y]; split; auto.
      apply Hdl. apply (co_dots _ _ _ _ _ _ _ _ _ K3). auto. }
    assert (J3 : incl (concat (left_groups e' N)) (concat (left_groups e L))).
    { intros a. rewrite QN, QL. destruct a as [s|i|]; auto; intros [X Y]; split; auto.
      - apply (co_dots _ _ _ _ _ _ _ _ _ K3). auto.
      - rewrite He; auto. }
    assert (J4 : incl (concat (left_groups e' N)) (concat (right_groups e M R))).
    { intros a. rewrite QN, QR. destruct a as [s|i|]; auto; intros [X Y]; split; auto. rewrite He; auto. }
    assert (J5 : incl (concat (left_groups e M)) (concat (left_groups e L) ++ concat (right_groups e M R))).
    { intros a. rewrite in_app_iff, QM, QL, QR. destruct a as [s|i|]; [|tauto|tauto]. intros [X Y].
      specialize (Hnew s X). apply in_app_or in Hnew. tauto. }
    assert (J6 : forall a, In a (concat (left_groups e L)) -> In a (concat (right_groups e M R)) -> In a (concat (left_groups e' N))).
    { intros a. rewrite QL, QR, QN. destruct a as [s|i|]; [intuition| |tauto]. intros [X Y] [X' Y']. split; auto. rewrite <- He; auto. }
    assert (Ngl : NoDup (concat (left_groups e L))) by (apply (call_gl_NoDup U p1 s1 x Repeating L M e len); auto).
    assert (Ngm : NoDup (concat (left_groups e M))) by (apply (call_gl_NoDup U p2 s2 y Reducing M R e len); auto).
    assert (Ngr : NoDup (concat (right_groups e M R))) by (apply (call_gr_NoDup U p2 s2 y Reducing M R e len); auto).
    apply (outcome_fun (rt_red r op) (left_groups e M) (right_groups e M R) len y); auto.
    destruct (empty_or (missing (left_groups e L) (left_groups e' N))) as [D|D].
    - pose proof (proj1 (missing_nil _ _) D) as J7.
      assert (J8 : incl (concat (left_groups e M)) (concat (right_groups e M R))).
      { intros a Ha. apply J5 in Ha. apply in_app_or in Ha as [Ha|Ha]; auto. }
      apply moves_outcome; [apply missing_nil; auto|].
      assert (X : moves (left_groups e L) (right_groups e M R) len x u).
      { apply (moves_trans _ (left_groups e' N) _ _ _ t); auto; try (intros a Ha; apply in_or_app; auto). apply O3; auto. }
      destruct X as [X1 [X2 X3]]. split; [|split]; auto. intros ix Hix. rewrite X3.
      + symmetry. apply M1. intros a Ha. apply Hix. apply in_or_app. left. apply in_app_or in Ha as [Ha|Ha]; auto.
      + intros a Ha. apply Hix. apply in_or_app. left. apply in_app_or in Ha as [Ha|Ha]; auto.
    - assert (E : missing (left_groups e M) (right_groups e M R) <> []).
      { intros X. apply missing_nil in X. apply D. apply missing_nil. intros a Ha. apply J6; auto. }
      split; intros Y; [contradiction|].
      apply (swap_stages (rt_red r op) (left_groups e L) (left_groups e M) (left_groups e' N) (right_groups e M R) len x y z t u); auto.
      apply O3; auto.
  Qed.

  (** *** [rearrange] and [repeat] as functions *)
  Definition moving (g : input (tensor A) -> pystr -> list (pystr * Z) -> result (tensor A)) : Prop :=
    g = rearrange r \/ g = repeat_ r.

  Lemma moving_op g : moving g -> exists op w, (op = s_rearrange /\ w = Rearranging \/ op = s_repeat /\ w = Repeating) /\
    forall (i : input (tensor A)) p s, g i p s = reduce r i p (RStr op) s.
  Proof.
    intros [->| ->].
    - exists s_rearrange, Rearranging. auto.
    - exists s_repeat, Repeating. auto.
  Qed.

  Lemma repeat_twice g1 g2 x y z z' p1 p2 p3 s1 s2 s3 L M R e e' len :
    g1 = rearrange r \/ g1 = repeat_ r -> g2 = rearrange r \/ g2 = repeat_ r ->
    NoDup (map fst s1) -> NoDup (map fst s2) -> NoDup (map fst s3) -> wf x ->
    repeat_sizes_ok r p1 s1 -> repeat_sizes_ok r p2 s2 -> repeat_sizes_ok r p3 s3 ->
    g1 (One x) p1 s1 = Ok y -> g2 (One y) p2 s2 = Ok z -> repeat_ r (One x) p3 s3 = Ok z' ->
    reads U p1 L M -> reads U p2 M R -> reads U p3 L R -> plain M ->
    rank_fits L (length (shp x)) e -> rank_fits M (length (shp y)) e' ->
    fits len (left_groups e L) (right_groups e L M) (shp x) s1 ->
    fits len (left_groups e' M) (right_groups e' M R) (shp y) s2 ->
    fits len (left_groups e L) (right_groups e L R) (shp x) s3 -> z' = z.
  Proof.
    intros G1 G2. destruct (moving_op g1 G1) as [op1 [w1 [W1 E1]]], (moving_op g2 G2) as [op2 [w2 [W2 E2]]].
    rewrite E1, E2. apply (grow_twice op1 op2 w1 w2); auto.
  Qed.

  Lemma repeat_twice_total g1 g2 x y z p1 p2 p3 s1 s2 s3 L M R e e' len :
    g1 = rearrange r \/ g1 = repeat_ r -> g2 = rearrange r \/ g2 = repeat_ r ->
    NoDup (map fst s1) -> NoDup (map fst s2) -> wf x ->
    repeat_sizes_ok r p1 s1 -> repeat_sizes_ok r p2 s2 ->
    g1 (One x) p1 s1 = Ok y -> g2 (One y) p2 s2 = Ok z ->
    reads U p1 L M -> reads U p2 M R -> reads U p3 L R -> plain L -> plain M -> plain R ->
    rank_fits L (length (shp x)) e -> rank_fits M (length (shp y)) e' ->
    fits len (left_groups e L) (right_groups e L M) (shp x) s1 ->
    fits len (left_groups e' M) (right_groups e' M R) (shp y) s2 ->
    gives_all L R len s3 -> (forall s, In s (keys R) -> ~ In s (keys L) -> In s (map fst s3)) -> no_reserved s3 ->
    repeat_ r (One x) p3 s3 = Ok z.
  Proof.
    intros G1 G2. destruct (moving_op g1 G1) as [op1 [w1 [W1 E1]]], (moving_op g2 G2) as [op2 [w2 [W2 E2]]].
    rewrite E1, E2. apply (grow_twice_total op1 op2 w1 w2); auto.
  Qed.
End Laws7.
