(** * Laws of the specified operations: composition, inverse, relabelling, multisets *)
From Verif Require Import Py Tensor ListFacts TensorFacts SpecSem SpecGrammar SpecPattern SpecOps Parsing Recipe Ops Backends Api StepFacts FrontFacts FrontFacts3 MainFacts ReduceFacts MainFacts3.

Section Laws.
  Context {A : Type}.
  Implicit Types (x y z : tensor A) (gl gm gr : list (list label)) (len : label -> nat).

  Lemma moves_fun gl gr len x y y' : NoDup (concat gr) -> incl (concat gl) (concat gr) ->
    moves gl gr len x y -> moves gl gr len x y' -> y = y'.
  Proof. intros Hn Hi H H'. apply moves_grepr in H, H'; auto. eapply grepr_unique; eauto using label_eqb_eq. Qed.

  Lemma reduces_fun red gl gr len x y y' : NoDup (concat gr) ->
    reduces red gl gr len x y -> reduces red gl gr len x y' -> y = y'.
  Proof. intros Hn H H'. apply reduces_grepr in H, H'. eapply grepr_unique; eauto using label_eqb_eq. Qed.

  Lemma within_same len len' ix l : same_on l len len' -> within len ix l -> within len' ix l.
  Proof. intros H W a Ha. rewrite <- H by auto. apply W; auto. Qed.

  Lemma same_on_sym l len len' : same_on l len len' -> same_on l len' len.
  Proof. intros H a Ha. symmetry; auto. Qed.

  Lemma moves_len0 gl gr len len' x y : same_on (concat gl ++ concat gr) len len' ->
    moves gl gr len x y -> moves gl gr len' x y.
  Proof.
    intros H [Hw [Hs Hg]]. split; [|split]; auto.
    - rewrite Hs. apply gshape_same. intros l Hl. apply H, in_or_app; auto.
    - intros ix Hi. rewrite <- (gindex_len_same len len' ix gr), <- (gindex_len_same len len' ix gl);
        try (intros l Hl; apply H, in_or_app; auto).
      apply Hg. eapply within_same; [apply same_on_sym|]; eauto.
  Qed.
  Lemma moves_len gl gr len len' x y : same_on (concat gl ++ concat gr) len len' ->
    (moves gl gr len x y <-> moves gl gr len' x y).
  Proof. intros H. split; apply moves_len0; auto using same_on_sym. Qed.

  Lemma reduces_len0 red gl gr len len' x y : same_on (concat gl ++ concat gr) len len' ->
    reduces red gl gr len x y -> reduces red gl gr len' x y.
  Proof.
    intros H [Hw [Hs Hg]]. split; [|split]; auto.
    - rewrite Hs. apply gshape_same. intros l Hl. apply H, in_or_app; auto.
    - intros ix Hi. destruct (Hg ix) as [vs [v [E1 [E2 E3]]]].
      { eapply within_same; [|exact Hi]. intros a Ha. symmetry. apply H, in_or_app; auto. }
      exists vs, v. split; [|split]; auto.
      + rewrite <- E1. unfold elements.
        assert (Em : map len' (missing gl gr) = map len (missing gl gr)).
        { apply map_ext_in. intros a Ha. apply in_missing in Ha as [Ha _]. symmetry. apply H, in_or_app; auto. }
        rewrite Em. apply map_ext. intros r. f_equal. apply gindex_len_same. intros l Hl. symmetry. apply H, in_or_app; auto.
      + rewrite <- E3. f_equal. apply gindex_len_same. intros l Hl. symmetry. apply H, in_or_app; auto.
  Qed.
  Lemma reduces_len red gl gr len len' x y : same_on (concat gl ++ concat gr) len len' ->
    (reduces red gl gr len x y <-> reduces red gl gr len' x y).
  Proof. intros H. split; apply reduces_len0; auto using same_on_sym. Qed.

  Lemma moves_refl gl len x : wf x -> shp x = gshape len gl -> moves gl gl len x x.
  Proof. intros Hw Hs. split; [|split]; auto. Qed.

  Lemma moves_trans gl gm gr len x y z : incl (concat gm) (concat gl ++ concat gr) ->
    incl (concat gl) (concat gm ++ concat gr) -> 
    moves gl gm len x y -> moves gm gr len y z -> moves gl gr len x z.
  Proof.
    intros Hi Hi2 [Hw [Hs Hg]] [Hw' [Hs' Hg']]. split; [|split]; auto. intros ix Hx.
    rewrite Hg', Hg; auto.
    - intros a Ha. apply Hx. apply in_app_or in Ha as [Ha|Ha]; [apply in_or_app; auto|apply Hi; auto].
    - intros a Ha. apply Hx. apply in_app_or in Ha as [Ha|Ha]; [apply Hi; auto|apply in_or_app; auto].
  Qed.

  Lemma moves_sym gl gr len x y : wf x -> shp x = gshape len gl ->
    moves gl gr len x y -> moves gr gl len y x.
  Proof.
    intros Hw Hs [Hw' [Hs' Hg]]. split; [|split]; auto. intros ix Hi. symmetry. apply Hg.
    intros a Ha. apply Hi. apply in_app_or in Ha. apply in_or_app. tauto.
  Qed.

  (** ** index tuples of rearranged axes *)
  Lemma indices_reorder len ix l m : NoDup l -> Permutation l m ->
    Permutation (map (fun v => map (assign label_eqb ix l v) m) (indices (map len l))) (indices (map len m)).
  Proof.
    intros Hn Hp. assert (Hm : NoDup m) by (eapply Permutation_NoDup; eauto).
    assert (Hlen : forall k v, In v (indices (map len k)) -> length v = length k).
    { intros k v Hv. apply indices_In, inb_length in Hv. rewrite map_length in Hv. auto. }
    apply NoDup_Permutation.
    - apply NoDup_map_inj; [|apply indices_NoDup]. intros v v' Hv Hv' E.
      rewrite <- (assign_map label_eqb label_eqb_eq ix l v), <- (assign_map label_eqb label_eqb_eq ix l v') by auto.
      assert (X : forall a, In a m -> assign label_eqb ix l v a = assign label_eqb ix l v' a).
      { clear -E. induction m as [|b m IH]; intros a Ha; [destruct Ha|]. cbn [map] in E. inversion E.
        destruct Ha as [<-|Ha]; auto. }
      apply map_ext_in. intros a Ha. apply X. eapply Permutation_in; eauto.
    - apply indices_NoDup.
    - intros v. rewrite in_map_iff. split.
      + intros [u [<- Hu]]. apply indices_In. apply indices_In in Hu. apply inb_map. intros a Ha.
        apply (within_assign label_eqb label_eqb_eq len ix l u Hn Hu). eapply Permutation_in; [apply Permutation_sym|]; eauto.
      + intros Hv. exists (map (assign label_eqb ix m v) l). split.
        * rewrite <- (assign_map label_eqb label_eqb_eq ix m v) at 2 by auto. apply map_ext_in. intros a Ha.
          assert (Hal : In a l) by (eapply Permutation_in; [apply Permutation_sym|]; eauto).
          unfold assign at 1. destruct (index_of_In label_eqb label_eqb_eq a l Hal) as [k Ek]. rewrite Ek.
          apply index_of_Some in Ek; [|apply label_eqb_eq].
          assert (Hk : k < length l) by (apply nth_error_Some; congruence).
          rewrite (nth_map_lt _ l k 0 a) by auto. rewrite (nth_error_nth _ _ a Ek). reflexivity.
        * apply indices_In. apply inb_map. intros a Ha. apply indices_In in Hv.
          apply (within_assign label_eqb label_eqb_eq len ix m v Hm Hv). eapply Permutation_in; eauto.
  Qed.

  Lemma reorder_map {B} (h : (label -> nat) -> B) len ix l m : NoDup l -> Permutation l m ->
    (forall i j, (forall a, i a = j a) -> h i = h j) ->
    Permutation (map (fun v => h (assign label_eqb ix l v)) (indices (map len l)))
                (map (fun v => h (assign label_eqb ix m v)) (indices (map len m))).
  Proof.
    intros Hn Hp Hh. assert (Hm : NoDup m) by (eapply Permutation_NoDup; eauto).
    rewrite <- (indices_reorder len ix l m) by auto. rewrite map_map. apply Permutation_refl'.
    apply map_ext_in. intros v Hv. apply Hh. intros a.
    destruct (in_dec label_eq_dec a m) as [Ha|Ha].
    - unfold assign at 2. destruct (index_of_In label_eqb label_eqb_eq a m Ha) as [k Ek]. rewrite Ek.
      apply index_of_Some in Ek; [|apply label_eqb_eq].
      assert (Hk : k < length m) by (apply nth_error_Some; congruence).
      rewrite (nth_map_lt _ m k 0 a) by auto. rewrite (nth_error_nth _ _ a Ek). reflexivity.
    - rewrite !(assign_out label_eqb label_eqb_eq); auto. intros X. apply Ha. eapply Permutation_in; eauto.
  Qed.

  (** the flat data of a tensor, element by element *)
  Lemma flat_data gs len x ix : NoDup (concat gs) -> wf x -> shp x = gshape len gs ->
    map Some (dat x) = map (fun v => get x (gindex len (assign label_eqb ix (concat gs) v) gs)) (indices (map len (concat gs))).
  Proof.
    intros Hn Hw Hs. destruct x as [s d]. simpl in Hs. subst s.
    assert (H : repr (mkT (map len (concat gs)) d) (concat gs) len (fun i => getr (mkT (gshape len gs) d) (gindex len i gs))).
    { apply (grepr_repr len gs _ (gshape len gs) d). split; [|split]; auto. }
    destruct H as [Hw' [_ Hg]]. pose proof (dat_map_get _ Hw') as Hd. cbn [shp dat] in Hd |- *. rewrite <- Hd. apply map_ext_in. intros v Hv.
    apply indices_In in Hv. pose proof (inb_length _ _ Hv) as Hl. rewrite map_length in Hl.
    specialize (Hg (assign label_eqb ix (concat gs) v)).
    rewrite (assign_map label_eqb label_eqb_eq) in Hg by auto.
    specialize (Hg (within_assign label_eqb label_eqb_eq len ix (concat gs) v Hn Hv)).
    unfold getr in Hg. apply of_option_inj in Hg. exact Hg.
  Qed.

  Lemma Permutation_map_Some (l m : list A) : Permutation (map Some l) (map Some m) -> Permutation l m.
  Proof.
    intros H. apply (Permutation_map (fun o => match o with Some a => [a] | None => [] end)) in H.
    rewrite !map_map in H.
    assert (E : forall k : list A, concat (map (fun a => [a]) k) = k).
    { induction k as [|a k IH]; auto. cbn [map concat]. rewrite IH. reflexivity. }
    rewrite <- (E l), <- (E m). clear E. revert H. generalize (map (fun a : A => [a]) l) (map (fun a : A => [a]) m).
    intros a b H. induction H; simpl; auto.
    - apply Permutation_app_head; auto.
    - rewrite !app_assoc. apply Permutation_app_tail. apply Permutation_app_comm.
    - etransitivity; eauto.
  Qed.

  (** ** C02: same elements, each as often as before *)
  Lemma moves_permutes gl gr len x y : NoDup (concat gl) -> NoDup (concat gr) ->
    incl (concat gl) (concat gr) -> incl (concat gr) (concat gl) -> wf x -> shp x = gshape len gl ->
    moves gl gr len x y -> Permutation (dat x) (dat y).
  Proof.
    intros Hnl Hnr H1 H2 Hw Hs [Hw' [Hs' Hg]]. apply Permutation_map_Some.
    rewrite (flat_data gl len x (fun _ => 0)), (flat_data gr len y (fun _ => 0)) by auto.
    assert (Hp : Permutation (concat gl) (concat gr)) by (apply NoDup_Permutation; auto; intros a; split; auto).
    rewrite (reorder_map (fun i => get x (gindex len i gl)) len (fun _ => 0) (concat gl) (concat gr)); auto.
    - apply Permutation_refl'. apply map_ext_in. intros v Hv. apply indices_In in Hv. symmetry. apply Hg.
      apply (within_assign label_eqb label_eqb_eq len (fun _ => 0)) in Hv; auto.
      intros a Ha. apply Hv. apply in_app_or in Ha as [Ha|Ha]; auto.
    - intros i j E. f_equal. apply gindex_same. auto.
  Qed.

  (** ** relabelling the axes *)
  Section Relabel.
    Context (rho : label -> label) (gl gr : list (list label)) (len len' : label -> nat).
    Context (Hinj : forall a b, In a (concat gl ++ concat gr) -> In b (concat gl ++ concat gr) -> rho a = rho b -> a = b).
    Context (Hlen : forall a, In a (concat gl ++ concat gr) -> len a = len' (rho a)).

    Let unrho (ix : label -> nat) (b : label) : nat :=
      match find (fun a => label_eqb (rho a) b) (concat gl ++ concat gr) with Some a => ix a | None => 0 end.

    Lemma unrho_of ix a : In a (concat gl ++ concat gr) -> unrho ix (rho a) = ix a.
    Proof.
      intros Ha. unfold unrho. destruct (find _ _) as [b|] eqn:E.
      - apply find_some in E as [Hb E]. apply label_eqb_eq in E. f_equal. auto.
      - exfalso. apply (find_none _ _ E) in Ha. assert (X : label_eqb (rho a) (rho a) = true) by (apply label_eqb_eq; auto). congruence.
    Qed.

    Lemma gindex_rho ix gs : incl (concat gs) (concat gl ++ concat gr) ->
      gindex len' ix (map (map rho) gs) = gindex len (fun a => ix (rho a)) gs.
    Proof.
      intros Hi. unfold gindex. rewrite map_map. apply map_ext_in. intros g Hg. rewrite !map_map. f_equal.
      apply map_ext_in. intros a Ha. symmetry. apply Hlen, Hi, in_concat; eauto.
    Qed.
    Lemma gshape_rho gs : incl (concat gs) (concat gl ++ concat gr) -> gshape len' (map (map rho) gs) = gshape len gs.
    Proof.
      intros Hi. unfold gshape. rewrite map_map. apply map_ext_in. intros g Hg. rewrite !map_map. f_equal.
      apply map_ext_in. intros a Ha. symmetry. apply Hlen, Hi, in_concat; eauto.
    Qed.
    Lemma within_rho ix l : incl l (concat gl ++ concat gr) ->
      (within len' ix (map rho l) <-> within len (fun a => ix (rho a)) l).
    Proof.
      intros Hi. split; intros W a Ha.
      - rewrite Hlen by auto. apply W, in_map; auto.
      - apply in_map_iff in Ha as [b [<- Hb]]. rewrite <- Hlen by auto. apply W; auto.
    Qed.

    Let il : incl (concat gl) (concat gl ++ concat gr).
    Proof. intros a Ha; apply in_or_app; auto. Qed.
    Let ir : incl (concat gr) (concat gl ++ concat gr).
    Proof. intros a Ha; apply in_or_app; auto. Qed.

    Lemma moves_relabel x y :
      moves gl gr len x y <-> moves (map (map rho) gl) (map (map rho) gr) len' x y.
    Proof.
      unfold moves. rewrite gshape_rho by auto.
      assert (E : concat (map (map rho) gl) ++ concat (map (map rho) gr) = map rho (concat gl ++ concat gr))
        by (rewrite map_app, !concat_map; auto).
      rewrite E. split; intros [Hw [Hs Hg]]; repeat split; auto; intros ix Hi.
      - rewrite !gindex_rho by auto. apply Hg. apply within_rho; auto. apply incl_refl.
      - specialize (Hg (unrho ix)). rewrite !gindex_rho in Hg by auto.
        rewrite (gindex_same len (fun a => unrho ix (rho a)) ix gl), (gindex_same len (fun a => unrho ix (rho a)) ix gr) in Hg;
          try (intros l Hl; apply unrho_of, in_or_app; auto).
        apply Hg. apply within_rho; [apply incl_refl|]. intros a Ha. rewrite unrho_of by auto. apply Hi; auto.
    Qed.

    Lemma missing_rho : missing (map (map rho) gl) (map (map rho) gr) = map rho (missing gl gr).
    Proof.
      unfold missing. rewrite <- !concat_map. apply filter_map_in. intros a Ha. f_equal.
      destruct (existsb (label_eqb a) (concat gr)) eqn:E.
      - apply label_mem_In. apply label_mem_In in E. apply in_map; auto.
      - destruct (existsb (label_eqb (rho a)) (map rho (concat gr))) eqn:E'; auto.
        apply label_mem_In in E'. apply in_map_iff in E' as [b [Eb Hb]]. apply Hinj in Eb; auto. subst b.
        apply label_mem_In in Hb. congruence.
    Qed.

    Lemma assign_rho ix ms r a : incl ms (concat gl ++ concat gr) -> In a (concat gl ++ concat gr) ->
      assign label_eqb ix (map rho ms) r (rho a) = assign label_eqb (fun a => ix (rho a)) ms r a.
    Proof.
      intros Hi Ha. unfold assign. rewrite (index_of_map label_eqb label_eqb rho a ms); auto.
      intros b Hb. destruct (label_eqb a b) eqn:E.
      - apply label_eqb_eq in E. subst. apply label_eqb_eq; auto.
      - destruct (label_eqb (rho a) (rho b)) eqn:E'; auto. apply label_eqb_eq in E'. apply Hinj in E'; auto. subst.
        assert (X : label_eqb b b = true) by (apply label_eqb_eq; auto). congruence.
    Qed.

    Lemma elements_rho x ix :
      elements x len' (map (map rho) gl) (missing (map (map rho) gl) (map (map rho) gr)) ix
      = elements x len gl (missing gl gr) (fun a => ix (rho a)).
    Proof.
      assert (Hm : incl (missing gl gr) (concat gl ++ concat gr)).
      { intros a Ha. apply in_missing in Ha as [Ha _]. auto. }
      unfold elements. rewrite missing_rho. rewrite map_map.
      rewrite (map_ext_in (fun a => len' (rho a)) len) by (intros a Ha; symmetry; apply Hlen, Hm; auto).
      apply map_ext. intros r. f_equal. rewrite gindex_rho by auto. apply gindex_same. intros l Hl. apply assign_rho; auto.
    Qed.

    Lemma reduces_relabel red x y :
      reduces red gl gr len x y <-> reduces red (map (map rho) gl) (map (map rho) gr) len' x y.
    Proof.
      unfold reduces. rewrite gshape_rho by auto. rewrite <- (concat_map rho gr).
      split; intros [Hw [Hs Hg]]; repeat split; auto; intros ix Hi.
      - destruct (Hg (fun a => ix (rho a))) as [vs [v [E1 [E2 E3]]]]; [apply within_rho; auto|].
        exists vs, v. rewrite elements_rho, gindex_rho by auto. auto.
      - destruct (Hg (unrho ix)) as [vs [v [E1 [E2 E3]]]].
        { apply within_rho; auto. intros a Ha. rewrite unrho_of by auto. apply Hi; auto. }
        exists vs, v. rewrite elements_rho in E1. rewrite gindex_rho in E3 by auto. split; [|split]; auto.
        + rewrite <- E1. unfold elements. apply map_ext. intros r. f_equal. apply gindex_same. intros l Hl.
          apply (assign_ext label_eqb label_eqb_eq). intros _. symmetry. apply unrho_of; auto.
        + rewrite <- E3. f_equal. apply gindex_same. intros l Hl. symmetry. apply unrho_of; auto.
    Qed.
  End Relabel.

  (** ** reduction after a rearrangement, for reductions that ignore the order *)
  Lemma reduces_moved red gl gm gr len x y z : symmetric red ->
    NoDup (concat gl) -> NoDup (concat gm) -> incl (concat gl) (concat gm) -> incl (concat gm) (concat gl) ->
    incl (concat gr) (concat gl) ->
    moves gl gm len x y -> (reduces red gl gr len x z <-> reduces red gm gr len y z).
  Proof.
    intros Hred Hnl Hnm H1 H2 H3 [Hw [Hs Hg]].
    assert (Hmp : Permutation (missing gl gr) (missing gm gr)).
    { apply NoDup_Permutation; try (apply NoDup_filter; auto). intros a. rewrite !in_missing. split; intros [? ?]; split; auto. }
    assert (E : forall ix, within len ix (concat gr) ->
      Permutation (elements x len gl (missing gl gr) ix) (elements y len gm (missing gm gr) ix)).
    { intros ix Hi. unfold elements.
      rewrite (reorder_map (fun i => get x (gindex len i gl)) len ix (missing gl gr) (missing gm gr)); auto.
      - apply Permutation_refl'. apply map_ext_in. intros v Hv. symmetry. apply Hg.
        apply indices_In in Hv.
        assert (W : forall a, In a (concat gm) -> assign label_eqb ix (missing gm gr) v a < len a).
        { intros a Ha. destruct (in_dec label_eq_dec a (concat gr)) as [Hr|Hr].
          - rewrite (assign_out label_eqb label_eqb_eq); [apply Hi; auto|]. rewrite in_missing. tauto.
          - apply (within_assign label_eqb label_eqb_eq len ix (missing gm gr) v); auto; [apply NoDup_filter; auto|].
            apply in_missing; auto. }
        intros a Ha. apply W. apply in_app_or in Ha as [Ha|Ha]; auto.
      - apply NoDup_filter; auto.
      - intros i j Eij. f_equal. apply gindex_same; auto. }
    assert (P : forall (l : list (option A)) vs, Permutation l (map Some vs) -> exists vs', l = map Some vs' /\ Permutation vs' vs).
    { intros l vs Hp. apply Permutation_map_inv in Hp as [vs' [-> Hp]]. exists vs'; split; auto. apply Permutation_sym; auto. }
    unfold reduces. split; intros [Hw' [Hs' Hg']]; repeat split; auto; intros ix Hi; destruct (Hg' ix Hi) as [vs [v [E1 [E2 E3]]]].
    - specialize (E ix Hi). rewrite E1 in E. apply Permutation_sym in E. destruct (P _ _ E) as [vs' [Ev Hp]].
      exists vs', v. split; [|split]; auto. rewrite <- E2. apply Hred; auto.
    - specialize (E ix Hi). rewrite E1 in E. destruct (P _ _ E) as [vs' [Ev Hp]].
      exists vs', v. split; [|split]; auto. rewrite <- E2. apply Hred; auto.
  Qed.

  (** ** reducing copies *)
  Lemma reduce_repeat red gl gr len x y : idempotent_on_copies red ->
    NoDup (concat gl) -> NoDup (concat gr) -> incl (concat gl) (concat gr) ->
    (forall a, In a (concat gr) -> ~ In a (concat gl) -> len a <> 0) ->
    wf x -> shp x = gshape len gl ->
    moves gl gr len x y -> reduces red gr gl len y x.
  Proof.
    intros Hred Hnl Hnr H1 Hpos Hw Hs [Hw' [Hs' Hg]]. split; [|split]; auto. intros ix Hi.
    destruct (get_wf x (gindex len ix gl) Hw) as [v Hv]; [rewrite Hs; apply inb_gindex; auto|].
    assert (Hnm : NoDup (missing gr gl)) by (apply NoDup_filter; auto).
    exists (repeat v (prodn (map len (missing gr gl)))), v. split; [|split]; auto.
    - unfold elements.
      transitivity (map (fun _ : list nat => Some v) (indices (map len (missing gr gl)))).
      + apply map_ext_in. intros r Hr. apply indices_In in Hr. rewrite Hg.
        * rewrite <- Hv. f_equal. apply gindex_same. intros a Ha. apply (assign_out label_eqb label_eqb_eq).
          rewrite in_missing. tauto.
        * assert (W : forall a, In a (concat gr) -> assign label_eqb ix (missing gr gl) r a < len a).
          { intros a Ha. destruct (in_dec label_eq_dec a (concat gl)) as [Hl|Hl].
            - rewrite (assign_out label_eqb label_eqb_eq); [apply Hi; auto|]. rewrite in_missing; tauto.
            - apply (within_assign label_eqb label_eqb_eq len ix _ r); auto. apply in_missing; auto. }
          intros a Ha. apply W. apply in_app_or in Ha as [Ha|Ha]; auto.
      + rewrite <- indices_length. induction (indices (map len (missing gr gl))) as [|i l IH]; cbn [map length repeat]; f_equal; auto.
    - apply Hred. intros E. apply (f_equal (fun n => n)) in E.
      assert (Z : forall l, (forall a, In a l -> len a <> 0) -> prodn (map len l) <> 0).
      { induction l as [|a l IH]; intros Hl; cbn [map]; [discriminate|]. rewrite prodn_cons. apply Nat.neq_mul_0. split; [apply Hl; left; auto|apply IH; intros; apply Hl; right; auto]. }
      apply Z in E; auto. intros a Ha. apply in_missing in Ha as [? ?]. auto.
  Qed.
End Laws.
