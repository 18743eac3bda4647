(** * One axis at a time or all at once; tensors are determined by their elements *)
From Verif Require Import Py Tensor ListFacts TensorFacts SpecSem Parsing Recipe Ops Backends Api StepFacts.

Lemma mapM_flat_map {A B C} (f : B -> result C) (g : A -> list B) l xss :
  mapM (fun a => mapM f (g a)) l = Ok xss -> mapM f (flat_map g l) = Ok (concat xss).
Proof.
  revert xss; induction l as [|a l IH]; intros xss H; simpl in H.
  - inversion H; subst. reflexivity.
  - apply bind_Ok in H as [xs [H1 H]]. apply bind_Ok in H as [ys [H2 H]]. inversion H; subst.
    cbn [flat_map concat]. rewrite mapM_app, H1. cbn [bind]. rewrite (IH _ H2). reflexivity.
Qed.

Lemma mapM_bind {A B C} (h : A -> result B) (g : B -> result C) l bs :
  mapM h l = Ok bs -> mapM (fun a => let* b := h a in g b) l = mapM g bs.
Proof.
  revert bs; induction l as [|a l IH]; intros bs H; simpl in H.
  - inversion H; subst. reflexivity.
  - apply bind_Ok in H as [b [H1 H]]. apply bind_Ok in H as [ys [H2 H]]. inversion H; subst.
    cbn [mapM]. rewrite H1. cbn [bind]. rewrite (IH _ H2). reflexivity.
Qed.

Lemma indices_app s1 s2 : indices (s1 ++ s2) = flat_map (fun i => map (app i) (indices s2)) (indices s1).
Proof.
  induction s1 as [|d s1 IH]; simpl.
  - rewrite app_nil_r. symmetry. apply map_id.
  - rewrite IH. generalize (seq 0 d) as l. induction l as [|i l IHl]; [reflexivity|]. cbn [flat_map].
    rewrite flat_map_app, <- IHl. f_equal. clear.
    induction (indices s1) as [|j js IHj]; [reflexivity|]. cbn [flat_map map]. rewrite map_app, IHj. f_equal.
    rewrite map_map. reflexivity.
Qed.

Lemma insert_desc_max k l : (forall x, In x l -> x < k) -> insert_desc k l = k :: l.
Proof.
  destruct l as [|x l]; intros H; [reflexivity|]. simpl.
  specialize (H x (or_introl eq_refl)). rewrite (proj2 (Nat.leb_le x k)) by lia. reflexivity.
Qed.
Lemma insert_desc_last k l : (forall x, In x l -> k < x) -> insert_desc k l = l ++ [k].
Proof.
  induction l as [|x l IH]; intros H; [reflexivity|]. simpl.
  rewrite (proj2 (Nat.leb_gt x k)) by (apply H; left; auto). rewrite IH by (intros; apply H; right; auto). reflexivity.
Qed.
Lemma sort_desc_seq k m : sort_desc (seq k m) = rev (seq k m).
Proof.
  revert k; induction m as [|m IH]; intros k; [reflexivity|]. cbn [seq rev].
  change (sort_desc (k :: seq (S k) m)) with (insert_desc k (sort_desc (seq (S k) m))). rewrite IH.
  apply insert_desc_last. intros x Hx. apply in_rev in Hx. apply in_seq in Hx. lia.
Qed.

Section Reduce.
  Context {X A : Type} (eqb : X -> X -> bool) (eqb_spec : forall a b, eqb a b = true <-> a = b).
  Implicit Types (t : tensor A) (len ix : X -> nat) (ns : list X).

  Lemma repr_unique t t' ns len f : NoDup ns -> repr t ns len f -> repr t' ns len f -> t = t'.
  Proof.
    intros Hnd [Hw [Hs Hg]] [Hw' [Hs' Hg']]. apply tensor_ext; auto; [congruence|].
    intros idx Hi. rewrite Hs in Hi.
    assert (Hl : length idx = length ns) by (apply inb_length in Hi; rewrite map_length in Hi; auto).
    pose proof (within_assign eqb eqb_spec len (fun _ => 0) ns idx Hnd Hi) as Hwi.
    specialize (Hg _ Hwi). specialize (Hg' _ Hwi). rewrite (assign_map eqb eqb_spec) in Hg, Hg' by auto.
    destruct (get t idx) as [a|] eqn:E; unfold getr in *; rewrite E in Hg; simpl in Hg.
    - rewrite <- Hg in Hg'. destruct (get t' idx) eqn:E'; simpl in Hg'; [congruence|discriminate].
    - rewrite <- Hg in Hg'. destruct (get t' idx) eqn:E'; simpl in Hg'; [discriminate|reflexivity].
  Qed.

  Lemma grepr_unique t t' gs len f : NoDup (concat gs) -> grepr t gs len f -> grepr t' gs len f -> t = t'.
  Proof.
    intros Hnd H H'. destruct t as [s d], t' as [s' d']. pose proof H as [_ [E _]]. pose proof H' as [_ [E' _]]. simpl in E, E'.
    apply grepr_repr in H. apply grepr_repr in H'. pose proof (repr_unique _ _ _ _ _ Hnd H H') as Eq.
    inversion Eq; subst. reflexivity.
  Qed.

  Lemma repr_total t ns len f ix : repr t ns len f -> within len ix ns -> exists a, f ix = Ok a.
  Proof. intros [Hw [Hs Hg]] Hi. rewrite <- Hg by auto. apply getr_wf; auto. rewrite Hs. apply inb_map; auto. Qed.

  Lemma repr_cong t ns len f ix ix' : repr t ns len f -> within len ix ns -> (forall a, In a ns -> ix a = ix' a) -> f ix = f ix'.
  Proof.
    intros [Hw [Hs Hg]] Hi E. rewrite <- Hg by auto. rewrite <- Hg.
    - f_equal. apply map_ext_in; auto.
    - intros a Ha. rewrite <- E by auto. auto.
  Qed.

  Lemma assign_in ix axs vals a : In a axs -> exists k, nth_error axs k = Some a /\ assign eqb ix axs vals a = nth k vals 0.
  Proof.
    intros Ha. unfold assign. destruct (index_of eqb a axs) as [k|] eqn:E.
    - exists k; split; auto. apply (index_of_Some eqb eqb_spec) in E. auto.
    - exfalso. apply (index_of_None eqb eqb_spec) in E. auto.
  Qed.

  Lemma index_of_app_l a l1 l2 k : index_of eqb a l1 = Some k -> index_of eqb a (l1 ++ l2) = Some k.
  Proof.
    revert k; induction l1 as [|b l1 IH]; intros k H; simpl in *; [discriminate|].
    destruct (eqb a b); auto. destruct (index_of eqb a l1) as [j|]; [|discriminate]. simpl in H. inversion H; subst.
    rewrite (IH j); auto.
  Qed.
  Lemma index_of_app_r a l1 l2 : index_of eqb a l1 = None ->
    index_of eqb a (l1 ++ l2) = option_map (fun k => length l1 + k) (index_of eqb a l2).
  Proof.
    induction l1 as [|b l1 IH]; intros H; simpl in *; [destruct (index_of eqb a l2); reflexivity|].
    destruct (eqb a b); [discriminate|]. destruct (index_of eqb a l1); [discriminate|]. rewrite IH by auto.
    destruct (index_of eqb a l2); reflexivity.
  Qed.

  Lemma assign_app ix l1 l2 v1 v2 a : length v1 = length l1 -> (In a l1 -> ~ In a l2) ->
    assign eqb ix (l1 ++ l2) (v1 ++ v2) a = assign eqb (assign eqb ix l1 v1) l2 v2 a.
  Proof.
    intros Hl Hd. unfold assign at 1 2. destruct (index_of eqb a l2) as [k2|] eqn:E2.
    - assert (H1 : index_of eqb a l1 = None).
      { apply (index_of_None eqb eqb_spec). intros X1. apply Hd in X1. apply (index_of_None eqb eqb_spec) in X1. congruence. }
      rewrite (index_of_app_r _ _ _ H1), E2. simpl. rewrite app_nth2 by lia. f_equal. lia.
    - unfold assign. destruct (index_of eqb a l1) as [k1|] eqn:E1.
      + rewrite (index_of_app_l _ _ _ _ E1). apply (index_of_Some eqb eqb_spec) in E1.
        assert (k1 < length l1) by (apply nth_error_Some; rewrite E1; discriminate).
        apply app_nth1. lia.
      + rewrite (index_of_app_r _ _ _ E1), E2. reflexivity.
  Qed.

  (** the value of a two-step reduction *)
  Lemma reduced_twice red t ks rs r len f ix :
    splits red -> NoDup (ks ++ rs ++ [r]) -> repr t (ks ++ rs ++ [r]) len f -> within len ix ks ->
    reduced_value eqb red (reduced_value eqb red f len [r]) len rs ix = reduced_value eqb red f len (rs ++ [r]) ix.
  Proof.
    intros Hs Hnd Hr Hi.
    apply NoDup_app_iff in Hnd as [Hk [Hnd Hd]]. apply NoDup_app_iff in Hnd as [Hrs [Hr1 Hd2]].
    set (h := fun q => mapM (fun p => f (assign eqb ix (rs ++ [r]) (q ++ p))) (indices [len r])).
    assert (Hwi : forall q p, inb (map len rs) q = true -> inb [len r] p = true ->
              within len (assign eqb ix (rs ++ [r]) (q ++ p)) (ks ++ rs ++ [r])).
    { intros q p Hq Hp. apply within_app; split.
      - intros a Ha. rewrite (assign_out eqb eqb_spec) by auto. auto.
      - apply (within_assign eqb eqb_spec).
        + apply NoDup_app_iff; auto.
        + rewrite map_app, inb_app; [|apply inb_length in Hq; auto]. rewrite Hq. exact Hp. }
    assert (Hex : exists xss, mapM h (indices (map len rs)) = Ok xss).
    { apply mapM_exists. intros q Hq. apply indices_In in Hq. apply mapM_exists. intros p Hp. apply indices_In in Hp.
      eapply repr_total; eauto. }
    destruct Hex as [xss Hxss].
    assert (Hflat : mapM (fun p => f (assign eqb ix (rs ++ [r]) p)) (indices (map len (rs ++ [r]))) = Ok (concat xss)).
    { rewrite map_app, indices_app. apply mapM_flat_map.
      rewrite <- Hxss. apply mapM_ext_in. intros q _. rewrite mapM_map. reflexivity. }
    unfold reduced_value at 1 3. rewrite Hflat. cbn [bind].
    rewrite (mapM_ext_in _ (fun q => let* xs := h q in red xs)).
    - rewrite (mapM_bind h red _ xss Hxss). symmetry. apply (Hs (len r)).
      apply Forall_forall. intros xs Hxs. apply mapM_Ok_Forall2 in Hxss. clear -Hxss Hxs.
      assert (E : length (indices [len r]) = len r) by (rewrite indices_length; unfold prodn; simpl; lia).
      induction Hxss as [|q ys l m Hq _ IH]; [destruct Hxs|]. destruct Hxs as [->|Hxs]; auto.
      apply mapM_length in Hq. congruence.
    - intros q Hq. apply indices_In in Hq. unfold reduced_value, h. f_equal. apply mapM_ext_in. intros p Hp. apply indices_In in Hp.
      assert (Hl : length q = length rs) by (apply inb_length in Hq; rewrite map_length in Hq; auto).
      symmetry. eapply (repr_cong t); [exact Hr|apply Hwi; auto|]. intros a Ha. apply assign_app; auto.
  Qed.

  Definition step1 (red : list A -> result A) := fun t (i : nat) => t_reduce red t [i].

  Lemma rev_seq_S k m : rev (seq k (S m)) = (k + m) :: rev (seq k m).
  Proof. rewrite seq_S, rev_app_distr. reflexivity. Qed.

  Lemma sequential_repr red ks rs : splits red -> rs <> [] ->
    forall t len f t', NoDup (ks ++ rs) -> repr t (ks ++ rs) len f ->
    foldM (step1 red) (rev (seq (length ks) (length rs))) t = Ok t' ->
    repr t' ks len (reduced_value eqb red f len rs).
  Proof.
    intros Hs. induction rs as [|r rs IH] using rev_ind; intros Hne; [congruence|]. intros t len f t' Hnd Hr H.
    rewrite app_length, Nat.add_1_r, rev_seq_S in H. cbn [foldM] in H. apply bind_Ok in H as [t1 [H1 H]].
    unfold step1 in H1. rewrite app_assoc in Hnd, Hr.
    assert (H1' : t_reduce red t (seq (length (ks ++ rs)) (length [r])) = Ok t1) by (rewrite app_length; exact H1).
    pose proof (reduce_repr eqb eqb_spec red t (ks ++ rs) [r] len f t1 Hnd Hr H1') as R1.
    destruct rs as [|r0 rs0] eqn:E.
    - simpl in H. inversion H; subst. rewrite app_nil_r in R1. exact R1.
    - rewrite <- E in *. assert (Hne' : rs <> []) by (rewrite E; discriminate).
      apply (repr_ext t' ks len (reduced_value eqb red (reduced_value eqb red f len [r]) len rs)).
      + intros ix Hi. rewrite <- app_assoc in Hnd, Hr. eapply reduced_twice; eauto.
      + eapply IH; eauto. apply NoDup_app_iff in Hnd; tauto.
  Qed.

  Lemma sequential_total red ks rs : splits red -> rs <> [] ->
    forall t len f, NoDup (ks ++ rs) -> repr t (ks ++ rs) len f ->
    (forall ix, within len ix ks -> exists a, reduced_value eqb red f len rs ix = Ok a) ->
    exists t', foldM (step1 red) (rev (seq (length ks) (length rs))) t = Ok t'.
  Proof.
    intros Hs. induction rs as [|r rs IH] using rev_ind; intros Hne; [congruence|]. intros t len f Hnd Hr Ht.
    rewrite app_length, Nat.add_1_r, rev_seq_S. cbn [foldM].
    assert (Hex : exists t1, t_reduce red t (seq (length (ks ++ rs)) (length [r])) = Ok t1).
    { rewrite app_assoc in Hnd, Hr. apply (reduce_total eqb eqb_spec red t (ks ++ rs) [r] len f Hnd Hr). intros ix Hi.
      apply within_app in Hi as [Hi1 Hi2]. destruct (Ht ix Hi1) as [a Ha].
      rewrite <- app_assoc in Hnd, Hr. rewrite <- (reduced_twice red t ks rs r len f ix) in Ha by auto.
      unfold reduced_value at 1 in Ha. apply bind_Ok in Ha as [xs [Ha _]].
      assert (Hin : In (map ix rs) (indices (map len rs))) by (apply indices_In, inb_map; auto).
      pose proof (mapM_Ok_in _ _ _ _ Ha Hin) as [b [Hb _]]. exists b. rewrite <- Hb.
      apply NoDup_app_iff in Hnd as [Hk [Hnd Hd]]. apply NoDup_app_iff in Hnd as [Hrs [Hr1 Hd2]].
      assert (Eix : forall a, assign eqb ix rs (map ix rs) a = ix a).
      { intros c. destruct (index_of eqb c rs) eqn:Ec.
        - apply (index_of_Some eqb eqb_spec) in Ec. unfold assign. destruct (index_of eqb c rs) as [j|] eqn:Ej; auto.
          apply (index_of_Some eqb eqb_spec) in Ej. erewrite nth_indep; [rewrite (map_nth ix rs c j)|].
          + f_equal. apply nth_error_nth with (d := c) in Ej. auto.
          + rewrite map_length. apply nth_error_Some. congruence.
        - unfold assign. rewrite Ec. reflexivity. }
      unfold reduced_value. f_equal. apply mapM_ext_in. intros p Hp. apply indices_In in Hp.
      eapply (repr_cong t); [exact Hr| |].
      - apply within_app; split; [|apply within_app; split].
        + intros c Hc. rewrite (assign_out eqb eqb_spec); auto. intros [->|[]]. apply (Hd c); auto. apply in_or_app; right; left; auto.
        + intros c Hc. rewrite (assign_out eqb eqb_spec); auto.
        + apply (within_assign eqb eqb_spec); auto.
      - intros c _. apply (assign_ext eqb eqb_spec). intros _. symmetry. apply Eix. }
    destruct Hex as [t1 H1]. rewrite app_length in H1. cbn [length seq] in H1. change (step1 red t (length ks + length rs)) with (t_reduce red t [length ks + length rs]). rewrite H1. cbn [bind].
    destruct rs as [|r0 rs0] eqn:E; [exists t1; reflexivity|]. rewrite <- E in *.
    assert (Hne' : rs <> []) by (rewrite E; discriminate).
    assert (H1' : t_reduce red t (seq (length (ks ++ rs)) (length [r])) = Ok t1) by (rewrite app_length; exact H1).
    pose proof Hnd as Hnd0. pose proof Hr as Hr0. rewrite app_assoc in Hnd, Hr.
    pose proof (reduce_repr eqb eqb_spec red t (ks ++ rs) [r] len f t1 Hnd Hr H1') as R1.
    eapply IH; eauto.
    - apply NoDup_app_iff in Hnd; tauto.
    - intros ix Hi. destruct (Ht ix Hi) as [a Ha]. exists a. rewrite <- Ha. eapply reduced_twice; eauto.
  Qed.

  Lemma sequential_joint0 red ks rs : splits red -> rs <> [] ->
    forall t len f t', NoDup (ks ++ rs) -> repr t (ks ++ rs) len f ->
    (foldM (step1 red) (rev (seq (length ks) (length rs))) t = Ok t' <->
     t_reduce red t (seq (length ks) (length rs)) = Ok t').
  Proof.
    intros Hs Hne t len f t' Hnd Hr. assert (Hk : NoDup ks) by (apply NoDup_app_iff in Hnd; tauto). split; intros H.
    - pose proof (sequential_repr red ks rs Hs Hne t len f t' Hnd Hr H) as R.
      destruct (reduce_total eqb eqb_spec red t ks rs len f Hnd Hr) as [t2 H2].
      { intros ix Hi. eapply repr_total; eauto. }
      pose proof (reduce_repr eqb eqb_spec red t ks rs len f t2 Hnd Hr H2) as R2. rewrite H2. f_equal.
      eapply (repr_unique t2 t'); eauto.
    - pose proof (reduce_repr eqb eqb_spec red t ks rs len f t' Hnd Hr H) as R.
      destruct (sequential_total red ks rs Hs Hne t len f Hnd Hr) as [t2 H2].
      { intros ix Hi. eapply repr_total; eauto. }
      pose proof (sequential_repr red ks rs Hs Hne t len f t2 Hnd Hr H2) as R2. rewrite H2. f_equal.
      eapply (repr_unique t2 t'); eauto.
  Qed.
End Reduce.

Lemma repr_positions {A} (t : tensor A) : wf t ->
  repr t (seq 0 (length (shp t))) (fun i => nth i (shp t) 0) (fun ix => getr t (map ix (seq 0 (length (shp t))))).
Proof.
  intros Hw. repeat split; auto. apply list_ext. intros i. destruct (nth_error (shp t) i) as [a|] eqn:E.
  - assert (Hi : i < length (shp t)) by (apply nth_error_Some; congruence).
    erewrite map_nth_error by (rewrite nth_error_seq by auto; reflexivity). simpl. f_equal. symmetry. apply nth_error_nth; auto.
  - symmetry. apply nth_error_None. rewrite map_length, seq_length. apply nth_error_None; auto.
Qed.

Lemma sequential_joint {A} (red : list A -> result A) (t t' : tensor A) k m :
  splits red -> wf t -> length (shp t) = k + m -> m <> 0 ->
  (foldM (step1 red) (rev (seq k m)) t = Ok t' <-> t_reduce red t (seq k m) = Ok t').
Proof.
  intros Hs Hw Hl Hm. pose proof (repr_positions t Hw) as R. rewrite Hl, seq_app in R. simpl in R.
  pose proof (sequential_joint0 Nat.eqb Nat.eqb_eq red (seq 0 k) (seq k m) Hs) as H.
  rewrite !seq_length in H. eapply H; eauto.
  - intros E. apply (f_equal (@length _)) in E. rewrite seq_length in E. simpl in E. lia.
  - change (seq k m) with (seq (0 + k) m). rewrite <- seq_app. apply seq_NoDup.
Qed.

(** ** what each framework's reduction computes *)
Section Frameworks.
  Context {A : Type} (lib : bool) (red : pystr -> list A -> result A)
          (isf : tensor A -> bool) (num : nat -> A).

  Lemma framework_reduce f s t t' k m :
    str_mem s reductions = true -> (one_by_one f s = true -> splits (red s)) ->
    wf t -> length (shp t) = k + m -> m <> 0 ->
    (b_reduce (backend_of lib red isf num f) t s (seq k m) = Ok t' <->
     has_reduction f s = true /\ t_reduce (red s) t (seq k m) = Ok t').
  Proof.
    intros Hs Hsp Hw Hl Hm.
    assert (Hcases : In s reductions) by (apply str_mem_In; auto).
    destruct f; cbn [backend_of b_reduce make_backend has_reduction one_by_one] in *; try (unfold joint_reduce; tauto).
    - unfold torch_reduce, sequential_reduce, joint_reduce. rewrite sort_desc_seq.
      repeat (destruct Hcases as [<-|Hcases]; [simpl; try tauto; rewrite <- (sequential_joint (red _)) by auto; unfold step1; tauto|]).
      destruct Hcases.
    - unfold oneflow_reduce. rewrite sort_desc_seq. rewrite Hs. rewrite <- (sequential_joint (red s)) by auto. unfold step1. tauto.
    - unfold paddle_reduce, paddle_own_reduce, joint_reduce. rewrite seq_length.
      destruct (m =? length (shp t)) eqn:E; [|destruct (t_reduce (red s) t (seq k m)); simpl; tauto].
      apply Nat.eqb_eq in E. assert (k = 0) by lia. subst k.
      destruct (t_reduce (red s) t (seq 0 m)) as [t1|] eqn:E1; [|simpl; split; [discriminate|intros [_ X]; discriminate]].
      cbn [bind]. unfold squeeze0. cbn [shp dat].
      assert (Hs1 : shp t1 = []).
      { pose proof (repr_positions t Hw) as R.
        assert (Hnd : NoDup ([] ++ seq 0 (length (shp t)))) by apply seq_NoDup.
        assert (E2 : t_reduce (red s) t (seq (length (@nil nat)) (length (seq 0 (length (shp t))))) = Ok t1)
          by (rewrite seq_length; simpl length; rewrite <- E; exact E1).
        pose proof (reduce_repr Nat.eqb Nat.eqb_eq (red s) t [] (seq 0 (length (shp t))) _ _ t1 Hnd R E2) as [_ [Hs1 _]].
        exact Hs1. }
      destruct t1 as [s1 d1]. simpl in *. subst s1. tauto.
    - unfold sequential_reduce. rewrite sort_desc_seq. rewrite <- (sequential_joint (red s)) by auto. unfold step1. tauto.
    - unfold torch_jit_reduce, sequential_reduce, joint_reduce. rewrite sort_desc_seq.
      repeat (destruct Hcases as [<-|Hcases]; [simpl; try tauto; try (rewrite <- (sequential_joint (red _)) by auto; unfold step1; tauto);
        (split; [discriminate|intros [X _]; discriminate])|]).
      destruct Hcases.
  Qed.
End Frameworks.
