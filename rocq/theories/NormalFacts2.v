(** * Joined axes are a normal form: one plan *)
From Coq Require Import Permutation Sorted.
From Verif Require Import Py Tensor ListFacts TensorFacts SpecSem StepFacts ReduceFacts SpecOptimize SpecDistinct Optimize OptFacts OptFacts2 NormalFacts.

Lemma prodn_perm' l m : Permutation l m -> prodn l = prodn m.
Proof. unfold prodn. induction 1; cbn; [reflexivity|rewrite IHPermutation; reflexivity|rewrite !Nat.mul_assoc, (Nat.mul_comm y x); reflexivity|congruence]. Qed.
Lemma prodn_skipn s : Forall (fun d => 2 <= d) s -> forall i j, i < j -> j <= length s -> prodn (skipn j s) < prodn (skipn i s).
Proof.
  intros F. assert (P : forall l, Forall (fun d => 2 <= d) l -> 1 <= prodn l) by (induction 1 as [|d l H _ IH]; cbn; [lia|fold (prodn l); nia]).
  induction F as [|d s H F IH]; intros i j Hij Hj; cbn in Hj; [lia|]. destruct j as [|j]; [lia|]. cbn [skipn]. destruct i as [|i].
  - cbn [skipn]. change (prodn (d :: s)) with (d * prodn s). pose proof (P s F).
    destruct j as [|j]; [cbn [skipn]; nia|]. assert (prodn (skipn (S j) s) < prodn (skipn 0 s)) by (apply IH; lia). cbn [skipn] in *. nia.
  - apply IH; lia.
Qed.

Section Plan.
  Context (s r o : list nat) (Hs : sensible s r o) (H2 : Forall (fun d => 2 <= d) s).
  Notation n := (length s).
  Definition len k := nth k s 0.
  Definition st k := prodn (skipn (S k) s).
  Definition K := filter (fun k => negb (nat_mem k r)) (seq 0 n).
  Definition D := filter (fun k => nat_mem k r) (seq 0 n).
  Definition KO := map (fun p => nth p K 0) o.

  Lemma KD_perm : Permutation (K ++ D) (seq 0 n).
  Proof.
    unfold K, D. induction (seq 0 n) as [|k l IH]; [constructor|]. cbn. destruct (nat_mem k r); cbn; [|constructor; exact IH].
    apply Permutation_sym, Permutation_cons_app, Permutation_sym, IH.
  Qed.
  Lemma K_NoDup : NoDup K. Proof. apply NoDup_filter, seq_NoDup. Qed.
  Lemma D_NoDup : NoDup D. Proof. apply NoDup_filter, seq_NoDup. Qed.
  Lemma D_perm : Permutation D r.
  Proof.
    destruct Hs as (_ & Hr & Hlt & _). apply NoDup_Permutation; [apply D_NoDup|exact Hr|]. intros a. unfold D. rewrite filter_In, nat_mem_In, in_seq. split; [tauto|]. intros H. split; [|exact H]. specialize (Hlt a H). lia.
  Qed.
  Lemma K_length : length K = length o.
  Proof. destruct Hs as (Hl & _). pose proof (Permutation_length KD_perm) as E. rewrite app_length, seq_length, (Permutation_length D_perm) in E. lia. Qed.
  Lemma o_perm : Permutation o (seq 0 (length K)).
  Proof. rewrite K_length. apply Hs. Qed.
  Lemma KO_perm : Permutation KO K.
  Proof.
    unfold KO. transitivity (map (fun p => nth p K 0) (seq 0 (length K))); [apply Permutation_map, o_perm|].
    replace (map (fun p => nth p K 0) (seq 0 (length K))) with K; [reflexivity|]. apply list_ext. intros i. destruct (Nat.lt_ge_cases i (length K)) as [H|H].
    - erewrite map_nth_error by (apply nth_error_seq; exact H). cbn. apply nth_error_nth'. exact H.
    - transitivity (@None nat); [|symmetry]; apply nth_error_None; rewrite ?map_length, ?seq_length; exact H.
  Qed.
  Lemma KO_NoDup : NoDup KO. Proof. eapply Permutation_NoDup; [apply Permutation_sym, KO_perm|apply K_NoDup]. Qed.
  Lemma KO_In k : In k KO <-> k < n /\ ~ In k r.
  Proof.
    transitivity (In k K); [split; apply Permutation_in; [apply KO_perm|apply Permutation_sym, KO_perm]|]. unfold K. rewrite filter_In, in_seq, negb_true_iff.
    split; intros [H H']; (split; [lia|]); [intros X; apply nat_mem_In in X; congruence|]. destruct (nat_mem k r) eqn:E; [apply nat_mem_In in E; contradiction|reflexivity].
  Qed.
  Lemma len_ge k : k < n -> 2 <= len k.
  Proof. intros H. unfold len. rewrite Forall_forall in H2. apply H2, nth_In, H. Qed.
  Lemma st_next k : k < n -> prodn (skipn k s) = len k * st k.
  Proof.
    intros H. unfold st, len. clear -H. revert k H. induction s as [|d l IH]; intros k H; cbn in H; [lia|]. destruct k as [|k]; [reflexivity|]. cbn [skipn nth]. apply IH. lia.
  Qed.
  Lemma st_inj i j : i < n -> j < n -> st i = st j -> i = j.
  Proof.
    intros Hi Hj E. unfold st in E. destruct (Nat.lt_trichotomy i j) as [H|[H|H]]; [|exact H|].
    - pose proof (prodn_skipn s H2 (S i) (S j) ltac:(lia) ltac:(lia)). lia.
    - pose proof (prodn_skipn s H2 (S j) (S i) ltac:(lia) ltac:(lia)). lia.
  Qed.
  Lemma len_seq : map len (seq 0 n) = s.
  Proof.
    apply list_ext. intros i. destruct (Nat.lt_ge_cases i n) as [H|H].
    - erewrite map_nth_error by (apply nth_error_seq; exact H). cbn. symmetry. apply nth_error_nth'. exact H.
    - transitivity (@None nat); [|symmetry]; apply nth_error_None; rewrite ?map_length, ?seq_length; exact H.
  Qed.

  (** ** positions *)
  Fixpoint enc (L : list nat) (ix : nat -> nat) : nat := match L with [] => 0 | k :: L' => ix k + len k * enc L' ix end.
  Definition sumst (L : list nat) (ix : nat -> nat) : nat := fold_right (fun k acc => ix k * st k + acc) 0 L.
  Definition axes_of (L : list nat) : list (nat * nat) := map (fun k => (len k, st k)) L.

  Lemma enc_ravel ix l : enc (rev l) ix = ravel (map len l) (map ix l).
  Proof.
    induction l as [|a l IH] using rev_ind; [reflexivity|]. rewrite rev_app_distr, !map_app, ravel_app by (rewrite !map_length; reflexivity). cbn [rev app enc map]. rewrite IH. cbn. lia.
  Qed.
  Lemma posn_enc ix L : within len ix L -> posn (axes_of L) (enc L ix) = sumst L ix.
  Proof.
    unfold axes_of. induction L as [|k L IH]; intros W; [reflexivity|]. assert (Hk : ix k < len k) by (apply W; left; reflexivity).
    cbn [map enc sumst fold_right posn]. replace (ix k + len k * enc L ix) with (ix k + enc L ix * len k) by lia. rewrite Nat.mod_add, Nat.div_add, Nat.mod_small, (Nat.div_small _ _ Hk) by lia.
    cbn [Nat.add]. rewrite IH; [reflexivity|]. intros a Ha. apply W. right. exact Ha.
  Qed.
  Lemma sumst_perm ix L L' : Permutation L L' -> sumst L ix = sumst L' ix.
  Proof. unfold sumst. induction 1 as [|k l l' _ IH|k k' l|l l' l'' _ IH1 _ IH2]; cbn [fold_right]; [reflexivity|rewrite IH; reflexivity|lia|congruence]. Qed.
  Lemma sumst_app ix L L' : sumst (L ++ L') ix = sumst L ix + sumst L' ix.
  Proof. induction L as [|k L IH]; [reflexivity|]. cbn [app]. unfold sumst in *. cbn [fold_right]. rewrite IH. lia. Qed.
  Lemma ravel_sum ix : ravel s (map ix (seq 0 n)) = sumst (seq 0 n) ix.
  Proof.
    assert (G : forall suf pre, s = pre ++ suf -> ravel suf (map ix (seq (length pre) (length suf))) = sumst (seq (length pre) (length suf)) ix).
    { induction suf as [|d suf IH]; intros pre E; [reflexivity|]. cbn [length seq map ravel]. unfold sumst. cbn [fold_right]. fold (sumst (seq (S (length pre)) (length suf)) ix).
      specialize (IH (pre ++ [d])). rewrite app_length in IH. cbn in IH. rewrite Nat.add_1_r in IH. rewrite IH by (rewrite <- app_assoc; exact E).
      replace (st (length pre)) with (prodn suf); [lia|]. unfold st. rewrite E. clear. induction pre as [|x pre IH]; [reflexivity|]. cbn [length app skipn] in *. exact IH. }
    apply (G s []). reflexivity.
  Qed.
  Definition jout ix := enc (rev KO) ix.
  Definition Lp := axes_of (rev KO).
  Lemma Lp_total : total Lp = prodn (map len KO).
  Proof. unfold total, Lp, axes_of. rewrite map_map. cbn. apply prodn_perm', Permutation_map, Permutation_sym, Permutation_rev. Qed.
  Lemma KO_incl : incl KO (seq 0 n).
  Proof. intros k H. apply KO_In in H. apply in_seq. lia. Qed.
  Lemma all_perm : Permutation (seq 0 n) (KO ++ D).
  Proof. transitivity (K ++ D); [apply Permutation_sym, KD_perm|apply Permutation_app_tail, Permutation_sym, KO_perm]. Qed.
  Lemma posn_jout ix : within len ix (seq 0 n) -> posn Lp (jout ix) <= ravel s (map ix (seq 0 n)).
  Proof.
    intros W. unfold Lp, jout. rewrite posn_enc.
    - rewrite ravel_sum, (sumst_perm ix _ _ all_perm), sumst_app, (sumst_perm ix _ _ (Permutation_sym (Permutation_rev KO))). lia.
    - intros k Hk. apply W, KO_incl, in_rev, Hk.
  Qed.
  Lemma posn_hit j : j < total Lp -> exists ix, within len ix (seq 0 n) /\ jout ix = j /\ ravel s (map ix (seq 0 n)) = posn Lp j.
  Proof.
    rewrite Lp_total. intros Hj. destruct (nth_error (indices (map len KO)) j) as [idx|] eqn:E; [|apply nth_error_None in E; rewrite indices_length in E; lia].
    assert (Hi : inb (map len KO) idx = true) by (apply indices_In; eapply nth_error_In, E). apply indices_nth_inv in E.
    assert (Hl : length idx = length KO) by (apply inb_length in Hi; rewrite map_length in Hi; exact Hi).
    set (ix := assign Nat.eqb (fun _ => 0) KO idx). assert (Em : map ix KO = idx) by (apply (assign_map Nat.eqb Nat.eqb_eq); [apply KO_NoDup|exact Hl]).
    assert (W : within len ix (seq 0 n)).
    { intros k Hk. destruct (in_dec Nat.eq_dec k KO) as [H|H]; [apply (within_assign Nat.eqb Nat.eqb_eq len _ KO); [apply KO_NoDup|exact Hi|exact H]|].
      unfold ix. rewrite (assign_out Nat.eqb Nat.eqb_eq) by exact H. apply in_seq in Hk. pose proof (len_ge k). lia. }
    assert (Ej : jout ix = j) by (unfold jout; rewrite enc_ravel, Em; exact E).
    exists ix. split; [exact W|]. split; [exact Ej|]. rewrite <- Ej. unfold Lp, jout. rewrite posn_enc by (intros k Hk; apply W, KO_incl, in_rev, Hk).
    rewrite ravel_sum, (sumst_perm ix _ _ all_perm), sumst_app, <- (sumst_perm ix _ _ (Permutation_rev KO)).
    assert (Z : forall l, (forall k, In k l -> ix k = 0) -> sumst l ix = 0) by (unfold sumst; induction l as [|k l IH]; intros H; [reflexivity|]; cbn [fold_right]; rewrite (H k (or_introl eq_refl)), IH; [reflexivity|intros; apply H; right; assumption]).
    rewrite (Z D); [lia|]. intros k Hk. unfold ix. apply (assign_out Nat.eqb Nat.eqb_eq). intros Hk'. apply KO_In in Hk' as [_ Hk']. apply Hk', (Permutation_in k D_perm), Hk.
  Qed.

  (** ** what is joined *)
  Lemma Lp_two : Forall (fun p => 2 <= fst p) Lp.
  Proof. unfold Lp, axes_of. apply Forall_map, Forall_forall. intros k Hk. apply in_rev in Hk. apply KO_In in Hk. apply len_ge, Hk. Qed.
  Definition marks : list (bool * nat) := rev (map (fun k => (nat_mem k r, len k)) (seq 0 n)).
  Lemma marks_two : Forall (fun p => 2 <= snd p) marks.
  Proof. apply Forall_rev, Forall_map, Forall_forall. intros k Hk. apply in_seq in Hk. apply len_ge. lia. Qed.
  Lemma marks_size : size_of marks = prodn s.
  Proof.
    unfold size_of, marks. rewrite map_rev, map_map. cbn. rewrite <- len_seq at 2. apply prodn_perm', Permutation_sym, Permutation_rev.
  Qed.
  Lemma kept_of_app X Y : forall cur, kept_of cur (X ++ Y) = kept_of cur X ++ kept_of (size_of X * cur) Y.
  Proof.
    induction X as [|[f d] X IH]; intros cur; [cbn; rewrite Nat.add_0_r; reflexivity|]. cbn [app kept_of]. rewrite IH, <- app_assoc. do 3 f_equal. change (size_of ((f, d) :: X)) with (d * size_of X). lia.
  Qed.
  Lemma marks_kept p : In p (kept_of 1 marks) <-> exists k, k < n /\ ~ In k r /\ p = (len k, st k).
  Proof.
    assert (G : forall suf pre, s = pre ++ suf -> let l := map (fun k => (nat_mem k r, len k)) (seq (length pre) (length suf)) in
       size_of (rev l) = prodn suf /\ (In p (kept_of 1 (rev l)) <-> exists k, length pre <= k < n /\ ~ In k r /\ p = (len k, st k))).
    { induction suf as [|d suf IH]; intros pre E; cbv zeta.
      - split; [reflexivity|]. cbn. split; [contradiction|]. intros (k & H & _). rewrite E, app_nil_r in H. lia.
      - cbn [length seq map rev]. specialize (IH (pre ++ [d])). rewrite app_length in IH. cbn [length] in IH. rewrite Nat.add_1_r in IH. cbv zeta in IH.
        destruct IH as [IH1 IH2]; [rewrite <- app_assoc; exact E|]. set (l := rev (map _ (seq (S (length pre)) (length suf)))) in *.
        assert (El : len (length pre) = d) by (unfold len; rewrite E, app_nth2, Nat.sub_diag by lia; reflexivity).
        assert (Es : st (length pre) = prodn suf) by (unfold st; rewrite E; clear; induction pre as [|x pre IH]; [reflexivity|]; cbn [length app skipn] in *; exact IH).
        assert (Ln : length pre < n) by (rewrite E, app_length; cbn; lia).
        split.
        + unfold size_of in *. rewrite map_app. cbn [map snd]. rewrite (prodn_perm' _ (len (length pre) :: map snd l)) by (apply Permutation_sym, Permutation_cons_append).
          change (prodn (len (length pre) :: map snd l)) with (len (length pre) * prodn (map snd l)). rewrite IH1, El. reflexivity.
        + rewrite kept_of_app, IH1, in_app_iff, IH2. cbn [kept_of]. rewrite app_nil_r, Nat.mul_1_r, <- Es. split.
          * intros [(k & H & Hr & Hp)|H]; [exists k; split; [lia|auto]|]. destruct (nat_mem (length pre) r) eqn:Em; [contradiction|]. destruct H as [H|[]]. exists (length pre). split; [lia|]. split; [|symmetry; exact H].
            intros X. apply nat_mem_In in X. congruence.
          * intros (k & H & Hr & Hp). destruct (Nat.eq_dec k (length pre)) as [->|Hk]; [right|left; exists k; split; [lia|auto]].
            destruct (nat_mem (length pre) r) eqn:Em; [apply nat_mem_In in Em; contradiction|]. left. symmetry. exact Hp. }
    destruct (G s [] eq_refl) as [_ H]. cbn in H. unfold marks. rewrite H. split; intros (k & H1 & H3); exists k; (split; [lia|exact H3]).
  Qed.
  Lemma marks_Lp p : In p (kept_of 1 marks) <-> In p Lp.
  Proof.
    rewrite marks_kept. unfold Lp, axes_of. rewrite in_map_iff. split.
    - intros (k & H1 & H3 & ->). exists k. split; [reflexivity|]. rewrite <- in_rev. apply KO_In. auto.
    - intros (k & <- & H). rewrite <- in_rev in H. apply KO_In in H. exists k. tauto.
  Qed.

  Hypothesis (Hj : fully_joined s r o).
  Lemma apart_snoc X y x : apart (X ++ [y]) -> fst y && fst x = false -> apart ((X ++ [y]) ++ [x]).
  Proof.
    induction X as [|[f d] X IH]; intros H E; [destruct y, x; cbn in *; auto|]. destruct X as [|[f' d'] X].
    - destruct y, x. cbn in *. tauto.
    - cbn [app] in *. destruct H as [H H']. split; [exact H|]. apply IH; assumption.
  Qed.
  Lemma marks_apart : apart marks.
  Proof.
    destruct Hj as [J _]. unfold marks. assert (G : forall c m, apart (rev (map (fun k => (nat_mem k r, len k)) (seq m c)))); [|apply G].
    induction c as [|c IH]; intros m; [exact I|]. cbn [seq map rev]. destruct c as [|c]; [exact I|].
    specialize (IH (S m)). cbn [seq map rev] in *. apply apart_snoc; [exact IH|]. cbn. destruct (nat_mem (S m) r) eqn:E1; [|reflexivity]. destruct (nat_mem m r) eqn:E2; [|reflexivity].
    apply nat_mem_In in E1. apply nat_mem_In in E2. destruct (J m E2 E1).
  Qed.
  Lemma unmerged_snoc X y x : unmerged (X ++ [y]) -> snd x <> fst y * snd y -> unmerged ((X ++ [y]) ++ [x]).
  Proof.
    induction X as [|[f d] X IH]; intros H E; [destruct y, x; cbn in *; auto|]. destruct X as [|[f' d'] X].
    - destruct y, x. cbn in *. tauto.
    - cbn [app] in *. destruct H as [H H']. split; [exact H|]. apply IH; assumption.
  Qed.
  Lemma K_at a : a < n -> ~ In a r -> nth_error K (length (filter (fun b => negb (nat_mem b r)) (seq 0 a))) = Some a.
  Proof.
    intros Ha Hr. unfold K. replace n with (a + S (n - S a)) by lia. rewrite seq_app, filter_app. cbn [Nat.add seq filter].
    destruct (nat_mem a r) eqn:E; [apply nat_mem_In in E; contradiction|]. cbn [negb]. rewrite nth_error_app2, Nat.sub_diag by lia. reflexivity.
  Qed.
  Lemma KO_apart l1 k1 k2 l2 : KO = l1 ++ k1 :: k2 :: l2 -> st k1 <> len k2 * st k2.
  Proof.
    intros E X. assert (I1 : In k1 KO) by (rewrite E; apply in_or_app; right; left; reflexivity). assert (I2 : In k2 KO) by (rewrite E; apply in_or_app; right; right; left; reflexivity).
    apply KO_In in I1 as [L1 R1]. apply KO_In in I2 as [L2 R2]. rewrite <- st_next in X by exact L2. unfold st in X.
    assert (Ek : k2 = S k1).
    { destruct (Nat.lt_trichotomy (S k1) k2) as [H|[H|H]]; [|symmetry; exact H|].
      - pose proof (prodn_skipn s H2 (S k1) k2 H ltac:(lia)). lia.
      - pose proof (prodn_skipn s H2 k2 (S k1) H ltac:(lia)). lia. }
    subst k2. destruct Hj as [_ J]. unfold KO in E. apply map_eq_app in E as (o1 & o2 & Eo & _ & E). apply map_eq_cons in E as (i & o3 & -> & Ei & E). apply map_eq_cons in E as (j & o4 & -> & Ej & _).
    refine (J k1 o1 o4 L2 R1 R2 _). rewrite Eo. pose proof (K_at k1 L1 R1) as N1. pose proof (K_at (S k1) L2 R2) as N2.
    assert (In_o : forall p, In p o -> p < length K) by (intros p Hp; apply (Permutation_in p o_perm), in_seq in Hp; lia).
    assert (Li : i < length K) by (apply In_o; rewrite Eo; apply in_or_app; right; left; reflexivity). assert (Lj : j < length K) by (apply In_o; rewrite Eo; apply in_or_app; right; right; left; reflexivity).
    assert (Uq : forall p q a, p < length K -> nth p K 0 = a -> nth_error K q = Some a -> p = q).
    { intros p q a Hp E1 E2. apply (proj1 (NoDup_nth_error K) K_NoDup); [exact Hp|]. rewrite E2, <- E1. apply nth_error_nth'. exact Hp. }
    rewrite (Uq _ _ _ Li Ei N1), (Uq _ _ _ Lj Ej N2). rewrite seq_S, filter_app, app_length. cbn. destruct (nat_mem k1 r) eqn:Em; [apply nat_mem_In in Em; contradiction|]. cbn. rewrite Nat.add_1_r. reflexivity.
  Qed.
  Lemma Lp_unmerged : unmerged Lp.
  Proof.
    assert (G : forall l1 l2, KO = l1 ++ l2 -> unmerged (axes_of (rev l2))).
    { intros l1 l2. revert l1. induction l2 as [|k1 l2 IH]; intros l1 E; [exact I|]. destruct l2 as [|k2 l2]; [exact I|].
      specialize (IH (l1 ++ [k1])). rewrite <- app_assoc in IH. specialize (IH E). unfold axes_of in *. cbn [rev] in *. rewrite !map_app in *. cbn [map] in *.
      apply unmerged_snoc; [exact IH|]. cbn. apply (KO_apart l1 k1 k2 l2 E). }
    apply (G [] KO). reflexivity.
  Qed.
End Plan.
