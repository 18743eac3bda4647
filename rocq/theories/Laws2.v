(** * Laws of the specified operations, continued: several stages *)
From Verif Require Import Py Tensor ListFacts TensorFacts SpecSem SpecGrammar SpecPattern SpecOps Parsing Recipe Ops Backends Api StepFacts FrontFacts FrontFacts3 MainFacts ReduceFacts MainFacts3 Laws.

Lemma missing_chain gl gm gr : NoDup (concat gl) -> NoDup (concat gm) -> incl (concat gm) (concat gl) -> incl (concat gr) (concat gm) ->
  Permutation (missing gl gr) (missing gm gr ++ missing gl gm).
Proof.
  intros H1 H2 I1 I2. apply NoDup_Permutation.
  - apply NoDup_filter; auto.
  - apply NoDup_app_iff. split; [apply NoDup_filter; auto|]. split; [apply NoDup_filter; auto|].
    intros a Ha Hb. apply in_missing in Ha, Hb. tauto.
  - intros a. rewrite in_app_iff, !in_missing. destruct (in_dec label_eq_dec a (concat gm)) as [D|D]; split; intros H.
    + left. tauto.
    + destruct H as [[X Y]|[X Y]]; [|tauto]. split; auto.
    + right. tauto.
    + destruct H as [[X Y]|[X Y]]; [tauto|]. split; auto.
Qed.

Section Laws2.
  Context {A : Type}.
  Implicit Types (x y z : tensor A) (gl gm gr : list (list label)) (len : label -> nat).

  Lemma elements_app x len gl m2 m1 ix : NoDup (m2 ++ m1) ->
    elements x len gl (m2 ++ m1) ix =
    flat_map (fun r => elements x len gl m1 (assign label_eqb ix m2 r)) (indices (map len m2)).
  Proof.
    intros Hn. unfold elements. rewrite map_app, indices_app. rewrite flat_map_concat_map, concat_map, map_map, flat_map_concat_map.
    f_equal. apply map_ext_in. intros r Hr. rewrite map_map. apply map_ext. intros q. f_equal. apply gindex_same. intros a _.
    apply indices_In, inb_length in Hr. rewrite map_length in Hr.
    apply (assign_app label_eqb label_eqb_eq); auto. apply NoDup_app_iff in Hn as [_ [_ Hd]]. auto.
  Qed.

  Lemma elements_perm x len gl l m ix : NoDup l -> Permutation l m ->
    Permutation (elements x len gl l ix) (elements x len gl m ix).
  Proof.
    intros Hn Hp. unfold elements. apply (reorder_map (fun i => get x (gindex len i gl))); auto.
    intros i j E. f_equal. apply gindex_same. auto.
  Qed.

  Lemma perm_map_Some (l : list (option A)) (vs : list A) : Permutation (map Some vs) l ->
    exists vs', l = map Some vs' /\ Permutation vs vs'.
  Proof.
    intros H. destruct (Permutation_map_inv _ _ (Permutation_sym H)) as [vs' [E P]]. exists vs'. split; auto.
  Qed.

  Lemma reduces_trans (red : list A -> result A) gl gm gr len x y z : splits red -> symmetric red ->
    NoDup (concat gl) -> NoDup (concat gm) -> incl (concat gm) (concat gl) -> incl (concat gr) (concat gm) ->
    reduces red gl gm len x y -> reduces red gm gr len y z -> reduces red gl gr len x z.
  Proof.
    intros Hsp Hsy N1 N2 I1 I2 [_ [_ H1]] [Hw [Hs H2]]. split; [|split]; auto. intros ix Hix.
    destruct (H2 ix Hix) as [ws [v [E [Er Eg]]]]. clear H2 Hs.
    set (m1 := missing gl gm) in *. set (m2 := missing gm gr) in *.
    assert (X : exists xss, Forall (fun xs => length xs = length (indices (map len m1))) xss /\ mapM red xss = Ok ws /\
      flat_map (fun r => elements x len gl m1 (assign label_eqb ix m2 r)) (indices (map len m2)) = map Some (concat xss)).
    { unfold elements at 1 in E.
      assert (Hin : forall r, In r (indices (map len m2)) -> inb (map len m2) r = true) by (intros r Hr; apply indices_In; auto).
      clear Er. revert ws E Hin. generalize (indices (map len m2)) as rs. intros rs. induction rs as [|r rs IH]; intros ws E Hin.
      - destruct ws; [|discriminate]. exists []. repeat split. constructor.
      - destruct ws as [|w ws]; [discriminate|]. cbn [map] in E. injection E as Eh Et.
        destruct (IH ws Et) as [xss [F [M C]]]; [intros q Hq; apply Hin; right; auto|].
        assert (Hw' : within len (assign label_eqb ix m2 r) (concat gm)).
        { intros a Ha. destruct (in_dec label_eq_dec a m2) as [D|D].
          - apply (within_assign label_eqb label_eqb_eq len ix m2 r); auto. apply NoDup_filter; auto. apply Hin; left; auto.
          - rewrite (assign_out label_eqb label_eqb_eq) by auto. apply Hix.
            destruct (in_dec label_eq_dec a (concat gr)) as [D'|D']; auto. exfalso. apply D, in_missing; auto. }
        destruct (H1 _ Hw') as [vs [w' [E1 [E2 E3]]]]. assert (w' = w) as -> by congruence.
        exists (vs :: xss). split; [|split].
        + constructor; auto. apply (f_equal (@length _)) in E1. unfold elements in E1. rewrite !map_length in E1. auto.
        + cbn [mapM]. rewrite E2. cbn [bind]. rewrite M. reflexivity.
        + cbn [flat_map concat]. rewrite map_app. f_equal; [exact E1|exact C]. }
    destruct X as [xss [F [M C]]].
    assert (Hn : NoDup (m2 ++ m1)).
    { eapply Permutation_NoDup; [apply (missing_chain gl gm gr); auto|]. apply NoDup_filter; auto. }
    rewrite <- elements_app in C by auto.
    assert (P : Permutation (map Some (concat xss)) (elements x len gl (missing gl gr) ix)).
    { rewrite <- C. apply elements_perm; auto. apply Permutation_sym, missing_chain; auto. }
    apply perm_map_Some in P as [vs' [E' P]]. exists vs', v. split; [|split]; auto.
    rewrite <- (Hsy _ _ P), (Hsp _ _ F), M. exact Er.
  Qed.

  (** moving what was reduced *)
  Lemma reduces_then_moves (red : list A -> result A) gl gm gr len x y z :
    missing gl gm = missing gl gr -> incl (concat gm) (concat gr) -> incl (concat gr) (concat gm) ->
    reduces red gl gm len x y -> moves gm gr len y z -> reduces red gl gr len x z.
  Proof.
    intros Em I1 I2 [_ [_ H1]] [Hw [Hs H2]]. split; [|split]; auto. intros ix Hix.
    destruct (H1 ix) as [vs [v [E1 [E2 E3]]]]; [intros a Ha; auto|].
    exists vs, v. rewrite <- Em. split; [|split]; auto. rewrite H2; auto.
    intros a Ha. apply in_app_or in Ha as [Ha|Ha]; auto.
  Qed.

  (** adding axes and reducing over others may be interchanged *)
  Lemma swap_stages (red : list A -> result A) gl gm gn gr len x y z t u : symmetric red ->
    NoDup (concat gl) -> NoDup (concat gm) ->
    incl (concat gl) (concat gm) -> incl (concat gr) (concat gm) -> incl (concat gn) (concat gl) -> incl (concat gn) (concat gr) ->
    incl (concat gm) (concat gl ++ concat gr) ->
    (forall a, In a (concat gl) -> In a (concat gr) -> In a (concat gn)) ->
    moves gl gm len x y -> reduces red gl gn len x t -> moves gn gr len t u -> 
    reduces red gm gr len y u.
  Proof.
    intros Hsy Nl Nm I1 I2 I3 I4 I5 I6 [Hwy [Hsy' Hmy]] [_ [_ Ht]] [Hwu [Hsu Hmu]].
    split; [|split]; auto. intros ix Hix.
    destruct (Ht ix) as [vs [v [E1 [E2 E3]]]]; [intros a Ha; auto|].
    assert (Hp : Permutation (missing gl gn) (missing gm gr)).
    { apply NoDup_Permutation; try (apply NoDup_filter; auto). intros a. rewrite !in_missing. split; intros [H1 H2]; split; auto.
      specialize (I5 a H1). apply in_app_or in I5. tauto. }
    assert (E : elements y len gm (missing gm gr) ix = elements x len gl (missing gm gr) ix).
    { unfold elements. apply map_ext_in. intros q Hq. apply indices_In in Hq. apply Hmy.
      assert (X : forall a, In a (concat gm) -> assign label_eqb ix (missing gm gr) q a < len a).
      { intros a Ha. destruct (in_dec label_eq_dec a (concat gr)) as [D|D].
        - rewrite (assign_out label_eqb label_eqb_eq); [apply Hix; auto|]. rewrite in_missing. tauto.
        - apply (within_assign label_eqb label_eqb_eq len ix (missing gm gr) q); auto; [apply NoDup_filter; auto|].
          apply in_missing; auto. }
      intros a Ha. apply X. apply in_app_or in Ha as [Ha|Ha]; auto. }
    assert (P : Permutation (map Some vs) (elements y len gm (missing gm gr) ix)).
    { rewrite <- E1, E. apply elements_perm; auto. apply NoDup_filter; auto. }
    apply perm_map_Some in P as [vs' [E' P]]. exists vs', v. split; [|split]; auto.
    - rewrite <- (Hsy _ _ P). exact E2.
    - rewrite Hmu, E3; auto. intros a Ha. apply in_app_or in Ha as [Ha|Ha]; auto.
  Qed.
End Laws2.
