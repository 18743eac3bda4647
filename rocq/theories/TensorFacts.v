(** * Lemmas about reference tensors *)
From Verif Require Import Py Tensor ListFacts.

(** ** shapes and C order *)
Lemma prodn_cons d s : prodn (d :: s) = d * prodn s.
Proof. reflexivity. Qed.
Lemma prodn_nil : prodn [] = 1.
Proof. reflexivity. Qed.

Lemma prodn_app s1 s2 : prodn (s1 ++ s2) = prodn s1 * prodn s2.
Proof.
  induction s1 as [|d s1 IH]; [rewrite prodn_nil; simpl; lia|].
  rewrite <- app_comm_cons, !prodn_cons, IH. lia.
Qed.

Lemma prodn_concat gs : prodn (concat gs) = prodn (map prodn gs).
Proof.
  induction gs as [|g gs IH]; [reflexivity|]. cbn [concat map]. rewrite prodn_app, prodn_cons, IH. reflexivity.
Qed.

Lemma prodn_perm s1 s2 : Permutation s1 s2 -> prodn s1 = prodn s2.
Proof. induction 1; rewrite ?prodn_cons; try lia. Qed.

Lemma inb_length s idx : inb s idx = true -> length idx = length s.
Proof.
  revert idx; induction s as [|d s IH]; intros [|i idx]; simpl; try discriminate; auto.
  intros H; apply andb_true_iff in H as [_ H]; auto.
Qed.

Lemma inb_cons d s i idx : inb (d :: s) (i :: idx) = true <-> i < d /\ inb s idx = true.
Proof. cbn [inb]. rewrite andb_true_iff, Nat.ltb_lt. tauto. Qed.

Lemma inb_app s1 s2 i1 i2 :
  length i1 = length s1 -> inb (s1 ++ s2) (i1 ++ i2) = inb s1 i1 && inb s2 i2.
Proof.
  revert i1; induction s1 as [|d s1 IH]; intros [|i i1]; simpl; try discriminate; auto.
  intros H; rewrite IH by lia. apply andb_assoc.
Qed.

Lemma inb_map {X} (len ix : X -> nat) l :
  inb (map len l) (map ix l) = true <-> (forall x, In x l -> ix x < len x).
Proof.
  induction l as [|x l IH]; cbn [map].
  - simpl; split; auto. intros _ x [].
  - rewrite inb_cons, IH. simpl; split.
    + intros [H1 H2] y [->|Hy]; auto.
    + intros H; split; auto.
Qed.

Lemma ravel_lt s idx : inb s idx = true -> ravel s idx < prodn s.
Proof.
  revert idx; induction s as [|d s IH]; intros [|i idx] H; try discriminate; [cbn; lia|].
  apply inb_cons in H as [H1 H2]. apply IH in H2. cbn [ravel]. rewrite prodn_cons. nia.
Qed.

Lemma ravel_app s1 s2 i1 i2 :
  length i1 = length s1 -> ravel (s1 ++ s2) (i1 ++ i2) = ravel s1 i1 * prodn s2 + ravel s2 i2.
Proof.
  revert i1; induction s1 as [|d s1 IH]; intros [|i i1]; try discriminate; [reflexivity|].
  intros H; cbn [app ravel]. rewrite IH by (simpl in H; lia). rewrite prodn_app. lia.
Qed.

Lemma ravel_concat gs ids :
  Forall2 (fun s i => length i = length s) gs ids ->
  ravel (concat gs) (concat ids) = ravel (map prodn gs) (map2 ravel gs ids).
Proof.
  induction 1 as [|s i gs ids H _ IH]; [reflexivity|].
  cbn [concat map map2 ravel]. rewrite ravel_app by auto. rewrite IH, prodn_concat. reflexivity.
Qed.

Lemma ravel_inj s i1 i2 : inb s i1 = true -> inb s i2 = true -> ravel s i1 = ravel s i2 -> i1 = i2.
Proof.
  revert i1 i2; induction s as [|d s IH]; intros [|a i1] [|b i2] H1 H2 E; try discriminate; auto.
  apply inb_cons in H1 as [Ha H1]; apply inb_cons in H2 as [Hb H2]. cbn [ravel] in E.
  pose proof (ravel_lt _ _ H1); pose proof (ravel_lt _ _ H2).
  assert (a = b) by nia. subst. f_equal. apply IH; auto. lia.
Qed.

Lemma indices_length s : length (indices s) = prodn s.
Proof.
  induction s as [|d s IH]; cbn [indices]; [reflexivity|]. rewrite prodn_cons, <- IH.
  generalize 0 as k. induction d as [|d IHd]; intros k; simpl; [reflexivity|].
  rewrite app_length, map_length, IHd. reflexivity.
Qed.

Lemma indices_cons_nth d s i idx k :
  i < d -> nth_error (indices s) k = Some idx ->
  nth_error (indices (d :: s)) (i * prodn s + k) = Some (i :: idx).
Proof.
  intros Hi Hk. cbn [indices].
  assert (Hlt : k < prodn s) by (rewrite <- indices_length; apply nth_error_Some; congruence).
  assert (G : forall b n, n < d -> nth_error (flat_map (fun i => map (cons i) (indices s)) (seq b d)) (n * prodn s + k) = Some ((b + n) :: idx)).
  { clear Hi. induction d as [|d IHd]; intros b n Hn; [lia|]. cbn [seq flat_map].
    destruct n as [|n].
    - rewrite nth_error_app1 by (rewrite map_length, indices_length; lia).
      simpl. rewrite Nat.add_0_r. erewrite map_nth_error by eauto. reflexivity.
    - rewrite nth_error_app2 by (rewrite map_length, indices_length; nia).
      rewrite map_length, indices_length.
      replace (S n * prodn s + k - prodn s) with (n * prodn s + k) by nia.
      rewrite IHd by lia. do 2 f_equal. lia. }
  apply (G 0 i Hi).
Qed.

Lemma indices_nth s idx : inb s idx = true -> nth_error (indices s) (ravel s idx) = Some idx.
Proof.
  revert idx; induction s as [|d s IH]; intros [|i idx] H; try discriminate; [reflexivity|].
  apply inb_cons in H as [H1 H2]. cbn [ravel]. apply indices_cons_nth; auto.
Qed.

Lemma indices_In s idx : In idx (indices s) <-> inb s idx = true.
Proof.
  split; [|intros H; eapply nth_error_In; apply indices_nth; auto].
  revert idx; induction s as [|d s IH]; cbn [indices]; intros idx H.
  - destruct H as [<-|[]]; reflexivity.
  - apply in_flat_map in H as [i [Hi H]]. apply in_map_iff in H as [j [<- Hj]].
    apply inb_cons; split; [apply in_seq in Hi; lia|auto].
Qed.

Lemma indices_nth_inv s k idx : nth_error (indices s) k = Some idx -> ravel s idx = k.
Proof.
  revert k idx; induction s as [|d s IH]; intros k idx H.
  - cbn in H. destruct k as [|[|k]]; inversion H; reflexivity.
  - assert (Hlt : k < d * prodn s) by (rewrite <- prodn_cons, <- indices_length; apply nth_error_Some; congruence).
    assert (prodn s <> 0) by nia.
    pose proof (Nat.mod_upper_bound k (prodn s) H0) as Hm.
    assert (Hq : k / prodn s < d) by (apply Nat.div_lt_upper_bound; lia).
    destruct (nth_error (indices s) (k mod prodn s)) as [j|] eqn:E.
    2:{ apply nth_error_None in E. rewrite indices_length in E. lia. }
    pose proof (indices_cons_nth d s (k / prodn s) j _ Hq E) as E'.
    replace (k / prodn s * prodn s + k mod prodn s) with k in E' by (rewrite (Nat.div_mod k (prodn s)) at 1; lia).
    rewrite H in E'. inversion E'; subst. cbn [ravel]. rewrite (IH _ _ E).
    rewrite (Nat.div_mod k (prodn s)) at 3; lia.
Qed.

Lemma indices_NoDup s : NoDup (indices s).
Proof.
  apply NoDup_nth_error. intros i j Hi E.
  destruct (nth_error (indices s) i) as [x|] eqn:Ei; [|apply nth_error_Some in Hi; congruence].
  rewrite <- (indices_nth_inv _ _ _ Ei). apply indices_nth_inv; auto.
Qed.

Lemma indices_ravel s : map (ravel s) (indices s) = seq 0 (prodn s).
Proof.
  apply list_ext. intros i. destruct (Nat.lt_ge_cases i (prodn s)) as [H|H].
  - destruct (nth_error (indices s) i) as [x|] eqn:E.
    + erewrite map_nth_error by eauto. rewrite (indices_nth_inv _ _ _ E).
      rewrite nth_error_seq by auto. reflexivity.
    + apply nth_error_None in E. rewrite indices_length in E; lia.
  - transitivity (@None nat); [|symmetry]; apply nth_error_None; rewrite ?map_length, ?indices_length, ?seq_length; auto.
Qed.

(** ** elements *)
Section Elements.
  Context {A : Type}.
  Implicit Types t : tensor A.

  Lemma get_wf t idx : wf t -> inb (shp t) idx = true -> exists a, get t idx = Some a.
  Proof.
    intros Hw Hi. unfold get. rewrite Hi.
    destruct (nth_error (dat t) (ravel (shp t) idx)) as [a|] eqn:E; [eauto|].
    apply nth_error_None in E. pose proof (ravel_lt _ _ Hi). unfold wf in Hw. lia.
  Qed.

  Lemma getr_get t idx a : getr t idx = Ok a <-> get t idx = Some a.
  Proof. unfold getr. apply of_option_Ok. Qed.

  Lemma getr_wf t idx : wf t -> inb (shp t) idx = true -> exists a, getr t idx = Ok a.
  Proof. intros Hw Hi. destruct (get_wf t idx Hw Hi) as [a Ha]. exists a. apply getr_get; auto. Qed.

  Lemma getr_inb t idx a : getr t idx = Ok a -> inb (shp t) idx = true.
  Proof. unfold getr, get. destruct (inb (shp t) idx); [auto|discriminate]. Qed.

  Lemma tensor_ext t1 t2 :
    wf t1 -> wf t2 -> shp t1 = shp t2 ->
    (forall idx, inb (shp t1) idx = true -> get t1 idx = get t2 idx) -> t1 = t2.
  Proof.
    destruct t1 as [s d1], t2 as [s2 d2]; unfold wf, get; simpl. intros H1 H2 <- H.
    f_equal. apply list_ext. intros i.
    destruct (Nat.lt_ge_cases i (prodn s)) as [Hi|Hi].
    - destruct (nth_error (indices s) i) as [x|] eqn:E.
      + assert (Hx : inb s x = true) by (apply indices_In; eapply nth_error_In; eauto).
        specialize (H x Hx). rewrite Hx in H. rewrite (indices_nth_inv _ _ _ E) in H. auto.
      + apply nth_error_None in E. rewrite indices_length in E; lia.
    - transitivity (@None A); [|symmetry]; apply nth_error_None; lia.
  Qed.

  Lemma dat_map_get t : wf t -> map (get t) (indices (shp t)) = map Some (dat t).
  Proof.
    destruct t as [s d]; unfold wf; simpl. intros Hw. apply list_ext. intros i.
    destruct (nth_error (indices s) i) as [x|] eqn:E.
    - assert (Hx : inb s x = true) by (apply indices_In; eapply nth_error_In; eauto).
      erewrite map_nth_error by eauto. unfold get; simpl. rewrite Hx, (indices_nth_inv _ _ _ E).
      assert (i < length d) by (rewrite Hw, <- indices_length; apply nth_error_Some; congruence).
      destruct (nth_error d i) eqn:Ed; [|apply nth_error_None in Ed; lia].
      erewrite map_nth_error by eauto. reflexivity.
    - apply nth_error_None in E. rewrite indices_length in E.
      transitivity (@None (option A)); [|symmetry]; apply nth_error_None; rewrite map_length; [rewrite indices_length|]; lia.
  Qed.

  Lemma dat_mapM_getr t : wf t -> mapM (getr t) (indices (shp t)) = Ok (dat t).
  Proof.
    intros Hw. apply mapM_Ok_Forall2. pose proof (dat_map_get t Hw) as E.
    revert E. generalize (indices (shp t)) (dat t). induction l as [|x l IH]; intros [|y m] E; simpl in E; inversion E; constructor; auto.
    apply getr_get; auto.
  Qed.

  (** ** tabulate *)
  Lemma tabulate_Ok s (f : list nat -> result A) t :
    tabulate s f = Ok t ->
    wf t /\ shp t = s /\ forall idx, inb s idx = true -> getr t idx = f idx.
  Proof.
    unfold tabulate. intros H. inv_bind H. inversion H; subst; clear H. unfold wf; simpl.
    split; [|split; [reflexivity|]].
    - rewrite (mapM_length _ _ _ E). apply indices_length.
    - intros idx Hi. pose proof (indices_nth _ _ Hi) as Hn.
      destruct (mapM_nth _ _ _ _ _ E Hn) as [y [Hy Ey]].
      unfold getr, get; simpl. rewrite Hi, Hy. auto.
  Qed.

  Lemma tabulate_total s (f : list nat -> result A) :
    (forall idx, inb s idx = true -> exists a, f idx = Ok a) -> exists t, tabulate s f = Ok t.
  Proof.
    intros H. unfold tabulate. destruct (mapM_exists f (indices s)) as [ys Hy].
    - intros x Hx. apply H. apply indices_In; auto.
    - rewrite Hy. simpl; eauto.
  Qed.

  Lemma tabulate_Ok_inv s (f : list nat -> result A) t idx :
    tabulate s f = Ok t -> inb s idx = true -> exists a, f idx = Ok a.
  Proof.
    intros H Hi. apply tabulate_Ok in H as [Hw [Hs Hg]]. rewrite <- Hg by auto.
    apply getr_wf; auto. rewrite Hs; auto.
  Qed.

  (** a tensor is determined by its shape and elements *)
  Lemma tabulate_unique s f t :
    wf t -> shp t = s -> (forall idx, inb s idx = true -> getr t idx = f idx) -> tabulate s f = Ok t.
  Proof.
    intros Hw Hs Hg. unfold tabulate.
    rewrite (mapM_ext_in _ (getr t)).
    - rewrite <- Hs, (dat_mapM_getr t Hw). simpl. destruct t; reflexivity.
    - intros x Hx. symmetry; apply Hg. apply indices_In; auto.
  Qed.
End Elements.

(** ** merge / select for a block of trailing axes *)
Lemma mask_trailing n k : k <= n ->
  map (fun i => nat_mem i (seq k (n - k))) (seq 0 n) = repeat false k ++ repeat true (n - k).
Proof.
  intros H. replace (seq 0 n) with (seq 0 k ++ seq k (n - k)) by (rewrite <- seq_app; f_equal; lia).
  rewrite map_app. f_equal.
  - apply list_ext. intros i. destruct (Nat.lt_ge_cases i k).
    + erewrite map_nth_error by (apply nth_error_seq; auto).
      rewrite nth_error_repeat by auto. f_equal.
      destruct (nat_mem (0 + i) (seq k (n - k))) eqn:E; auto. apply nat_mem_In, in_seq in E; lia.
    + transitivity (@None bool); [|symmetry]; apply nth_error_None; rewrite ?map_length, ?repeat_length, ?seq_length; auto.
  - apply list_ext. intros i. simpl. destruct (Nat.lt_ge_cases i (n - k)).
    + erewrite map_nth_error by (apply nth_error_seq; auto).
      rewrite nth_error_repeat by auto. f_equal. apply nat_mem_In, in_seq; lia.
    + transitivity (@None bool); [|symmetry]; apply nth_error_None; rewrite ?map_length, ?repeat_length, ?seq_length; auto.
Qed.

Lemma select_trailing {A} b (l1 l2 : list A) :
  select b (repeat false (length l1) ++ repeat true (length l2)) (l1 ++ l2) = if b then l2 else l1.
Proof.
  induction l1 as [|x l1 IH]; simpl.
  - induction l2 as [|y l2 IH]; simpl; [destruct b; auto|]. destruct b; simpl in *; [f_equal; auto|auto].
  - destruct b; simpl; [auto|f_equal; auto].
Qed.

Lemma merge_trailing {A} (l1 l2 : list A) :
  merge (repeat false (length l1) ++ repeat true (length l2)) l1 l2 = l1 ++ l2.
Proof.
  induction l1 as [|x l1 IH]; simpl; [|f_equal; auto].
  induction l2 as [|y l2 IH]; simpl; [auto|f_equal; auto].
Qed.
