(** * Facts about packing: patterns, split positions, slices *)
From Verif Require Import Py Tensor Parsing Recipe Ops Backends ListFacts TensorFacts SpecGrammar SpecPattern Api Packing SpecPacking.

(** ** words *)
Section Words.
  Context (U : unicode).

  Lemma words_aux_nil cur : str_words_aux U (Some cur) [] = [cur].
  Proof. reflexivity. Qed.

  (** a run of non-space characters is collected *)
  Lemma words_aux_run w cur s :
    (forall c, In c w -> u_space U c = false) ->
    w <> [] ->
    str_words_aux U cur (w ++ s) =
    str_words_aux U (Some (match cur with Some v => v | None => [] end ++ w)) s.
  Proof.
    revert cur. induction w as [|c w IH]; intros cur H Hn; [congruence|].
    cbn [app str_words_aux]. rewrite (H c (or_introl eq_refl)).
    destruct w as [|c' w'].
    - reflexivity.
    - rewrite IH by (try (intros; apply H; right; auto); discriminate).
      rewrite <- app_assoc. reflexivity.
  Qed.

  Lemma words_sound s ws : words U s ws -> str_words U s = ws.
  Proof.
    unfold str_words. induction 1 as [|c s ws Hc _ IH|w s ws Hn Hw Hs _ IH]; [reflexivity| |].
    - cbn. rewrite Hc. auto.
    - rewrite words_aux_run by auto. cbn [app].
      destruct Hs as [->|[c [s' [-> Hc]]]].
      + cbn in IH. subst ws. reflexivity.
      + cbn. rewrite Hc. cbn in IH. rewrite Hc in IH. rewrite IH. reflexivity.
  Qed.

  Lemma words_aux_spec s cur :
    (forall v, cur = Some v -> v <> [] /\ forall c, In c v -> u_space U c = false) ->
    words U (match cur with Some v => v | None => [] end ++ s) (str_words_aux U cur s).
  Proof.
    revert cur. induction s as [|c s IH]; intros cur Hc; cbn [str_words_aux].
    - destruct cur as [v|]; [|constructor].
      destruct (Hc v eq_refl). apply wd_word; auto. constructor.
    - destruct (u_space U c) eqn:E.
      + assert (W : words U s (str_words_aux U None s)) by (apply (IH None); discriminate).
        destruct cur as [v|]; [|apply wd_space; auto].
        destruct (Hc v eq_refl). apply wd_word; auto; [right; eauto|]. apply wd_space; auto.
      + set (v := match cur with Some v => v | None => [] end).
        replace (v ++ c :: s) with ((v ++ [c]) ++ s) by (rewrite <- app_assoc; reflexivity).
        apply (IH (Some (v ++ [c]))). intros ? [= <-]. split; [destruct v; discriminate|].
        intros c' [H|[<-|[]]]%in_app_or; auto.
        subst v. destruct cur as [w|]; [apply (Hc w eq_refl); auto|destruct H].
  Qed.

  Lemma words_complete s : words U s (str_words U s).
  Proof. apply (words_aux_spec s None). discriminate. Qed.
End Words.

Lemma nodup_length_NoDup (l : list pystr) : length (nodup str_eq_dec l) = length l <-> NoDup l.
Proof.
  split.
  - induction l as [|x l IH]; intros H; [constructor|]. cbn in H.
    destruct (in_dec str_eq_dec x l) as [Hi|Hi].
    + exfalso. assert (L : length (nodup str_eq_dec l) <= length l).
      { clear. induction l as [|y l IH]; cbn; [lia|]. destruct (in_dec str_eq_dec y l); cbn; lia. }
      lia.
    + constructor; [exact Hi|]. apply IH. cbn in H. lia.
  - intros H. rewrite nodup_fixed_point; auto.
Qed.

Lemma index_of_app_first (x : pystr) l1 l2 :
  ~ In x l1 -> index_of str_eqb x (l1 ++ x :: l2) = Some (length l1).
Proof.
  induction l1 as [|y l1 IH]; intros H; cbn.
  - rewrite str_eqb_refl. reflexivity.
  - destruct (str_eqb x y) eqn:E; [apply str_eqb_eq in E; subst; exfalso; apply H; left; auto|].
    rewrite IH; [reflexivity|]. intros Hi; apply H; right; auto.
Qed.

Lemma check_axis_name_iff U w : check_axis_name U false w = true <-> axis_name U w.
Proof.
  unfold check_axis_name, axis_name. destruct (isidentifier U w); cbn [negb].
  - destruct (N.eqb_spec (hd 0%N w) c_under) as [E|E];
    destruct (N.eqb_spec (last w 0%N) c_under) as [E'|E']; cbn [orb];
    rewrite ?andb_false_r; intuition congruence.
  - split; [discriminate|]. intros [H _]; discriminate.
Qed.

Lemma star_not_name U : unicode_ok U -> ~ axis_name U star.
Proof.
  intros HU [H _]. unfold star, isidentifier in H. cbn [forallb] in H. rewrite andb_true_r in H.
  rewrite (uo_idstart U HU) in H by reflexivity. discriminate.
Qed.

Lemma analyze_ok U pattern before after : unicode_ok U ->
  pack_pattern U pattern before after ->
  analyze_pattern U pattern = Ok (length before, length after, length before + length after).
Proof.
  intros HU [Hw [Hn Hf]]. apply words_sound in Hw. unfold analyze_pattern. rewrite Hw.
  change (lit "*") with star in *.
  assert (Hs : forall l, Forall (axis_name U) l -> ~ In star l).
  { intros l Hl Hi. rewrite Forall_forall in Hl. apply (star_not_name U HU). auto. }
  apply Forall_app in Hf as [Hb Ha].
  assert (N : NoDup (before ++ [star] ++ after)).
  { apply NoDup_app_iff in Hn as [N1 [N2 N3]]. apply NoDup_app_iff. repeat split; auto.
    - constructor; auto. 
    - intros y Hy [<-|Hy']; [apply (Hs before); auto|apply (N3 y); auto]. }
  apply nodup_length_NoDup in N. rewrite N, Nat.eqb_refl. cbn [negb raise_if bind].
  assert (M : str_mem star (nodup str_eq_dec (before ++ [star] ++ after)) = true).
  { apply str_mem_In. apply nodup_In. apply in_or_app. right. left. auto. }
  rewrite M. cbn [negb raise_if bind].
  assert (E : existsb (fun axis => negb (str_eqb axis star) && negb (check_axis_name U false axis))
               (before ++ [star] ++ after) = false).
  { apply not_true_iff_false. intros H. apply existsb_exists in H as [y [Hy H]].
    apply andb_true_iff in H as [H1 H2]. apply negb_true_iff in H1, H2.
    assert (Y : axis_name U y).
    { rewrite Forall_forall in Hb, Ha. apply in_app_or in Hy as [Hy|[Hy|Hy]]; auto.
      subst y. rewrite str_eqb_refl in H1. discriminate. }
    apply check_axis_name_iff in Y. congruence. }
  rewrite E. cbn [raise_if bind].
  cbn [app]. rewrite index_of_app_first by (apply Hs; auto). cbn [of_option bind].
  rewrite !app_length. cbn [length]. repeat f_equal; lia.
Qed.

Lemma analyze_inv U pattern r : unicode_ok U -> analyze_pattern U pattern = Ok r ->
  exists before after, pack_pattern U pattern before after.
Proof.
  intros HU H. unfold analyze_pattern in H. pose proof (words_complete U pattern) as W.
  set (axes := str_words U pattern) in *.
  apply bind_Ok in H as [u1 [H1 H]]. apply raise_if_Ok, negb_false_iff, Nat.eqb_eq in H1.
  symmetry in H1. apply nodup_length_NoDup in H1.
  apply bind_Ok in H as [u2 [H2 H]]. apply raise_if_Ok, negb_false_iff in H2.
  apply str_mem_In, nodup_In in H2.
  apply bind_Ok in H as [u3 [H3 _]]. apply raise_if_Ok in H3.
  apply in_split in H2 as [before [after E]]. exists before, after.
  rewrite E in *. change (star :: after) with ([star] ++ after) in *.
  split; [exact W|].
  assert (Hs : ~ In star (before ++ after)) by (apply NoDup_remove_2; exact H1).
  split; [exact (NoDup_remove_1 _ _ _ H1)|].
  apply Forall_forall. intros y Hy. apply check_axis_name_iff.
  destruct (check_axis_name U false y) eqn:C; auto. exfalso.
  apply not_true_iff_false in H3. apply H3. apply existsb_exists. exists y. split.
  - apply in_or_app. apply in_app_or in Hy as [Hy|Hy]; auto. right; right; auto.
  - rewrite C. cbn. rewrite andb_true_r. apply negb_true_iff. apply not_true_iff_false. intros F.
    apply str_eqb_eq in F. subst y. auto.
Qed.

Lemma analyze_err U pattern e : analyze_pattern U pattern = Err e -> e = EinopsError.
Proof.
  unfold analyze_pattern. set (axes := str_words U pattern). intros H.
  apply bind_Err in H as [H|[u1 [_ H]]]; [apply raise_if_Err in H as [_ <-]; auto|].
  apply bind_Err in H as [H|[u2 [H2 H]]]; [apply raise_if_Err in H as [_ <-]; auto|].
  apply bind_Err in H as [H|[u3 [_ H]]]; [apply raise_if_Err in H as [_ <-]; auto|].
  exfalso. apply raise_if_Ok, negb_false_iff in H2. apply str_mem_In, nodup_In in H2.
  destruct (index_of str_eqb star axes) eqn:E; [discriminate|].
  clear H. revert H2 E. generalize axes. intros l. induction l as [|y l IH]; cbn; [tauto|].
  destruct (str_eqb star y) eqn:Ey; [discriminate|].
  intros [->|H] E; [rewrite str_eqb_refl in Ey; discriminate|].
  destruct (index_of str_eqb star l); [discriminate|]. auto.
Qed.

(** ** the two loops that compute split positions *)
Section Splits.
  Definition zsum (f : nat -> Z) (i n : nat) : Z := fold_right Z.add 0%Z (map f (seq i n)).

  Lemma zsum_S f i n : zsum f i (S n) = (f i + zsum f (S i) n)%Z.
  Proof. reflexivity. Qed.
  Lemma zsum_snoc f i n : zsum f i (S n) = (zsum f i n + f (i + n)%nat)%Z.
  Proof.
    revert i. induction n as [|n IH]; intros i; [cbn; rewrite Nat.add_0_r; lia|].
    rewrite zsum_S, IH, zsum_S. replace (S i + n) with (i + S n) by lia. lia.
  Qed.
  Lemma zsum_nonneg f i n : (forall j, i <= j < i + n -> (0 <= f j)%Z) -> (0 <= zsum f i n)%Z.
  Proof.
    revert i. induction n as [|n IH]; intros i H; [cbn; lia|]. rewrite zsum_S.
    pose proof (H i ltac:(lia)). assert (0 <= zsum f (S i) n)%Z by (apply IH; intros; apply H; lia). lia.
  Qed.

  Context (f : nat -> Z).

  Lemma forward_loop n k sp :
    k + n < length sp ->
    exists sp', foldM (fun sp i => let* a := list_get sp i in list_upd sp (i + 1) (a + f i)%Z) (seq k n) sp = Ok sp' /\
      length sp' = length sp /\
      forall i, nth_error sp' i = if (k <? i) && (i <=? k + n)
                                  then Some (nth k sp 0 + zsum f k (i - k))%Z else nth_error sp i.
  Proof.
    revert k sp. induction n as [|n IH]; intros k sp H.
    - exists sp. split; [reflexivity|]. split; [reflexivity|]. intros i.
      destruct (Nat.ltb_spec k i); destruct (Nat.leb_spec i (k + 0)); cbn [andb]; auto; lia.
    - cbn [seq foldM]. unfold list_get at 1.
      destruct (nth_error sp k) as [a|] eqn:Ea; [|apply nth_error_None in Ea; lia]. cbn [of_option bind].
      destruct (list_upd_exists sp (k + 1) (a + f k)%Z ltac:(lia)) as [sp1 E1]. rewrite E1. cbn [bind].
      pose proof (list_upd_length _ _ _ _ E1) as L1.
      destruct (IH (S k) sp1 ltac:(lia)) as [sp' [E' [L' N']]]. exists sp'. split; [exact E'|].
      split; [lia|]. intros i. rewrite N'. rewrite (list_upd_nth _ _ _ _ i E1).
      assert (A1 : nth (S k) sp1 0%Z = (a + f k)%Z).
      { apply nth_error_nth. rewrite (list_upd_nth _ _ _ _ (S k) E1). replace (S k =? k + 1) with true; auto.
        symmetry; apply Nat.eqb_eq; lia. }
      assert (A0 : nth k sp 0%Z = a) by (apply nth_error_nth; auto).
      rewrite A1, A0.
      destruct (Nat.ltb_spec k i) as [Hki|Hki].
      + destruct (Nat.leb_spec i (k + S n)) as [H2|H2]; cbn [andb].
        * destruct (Nat.ltb_spec (S k) i) as [H3|H3]; cbn [andb].
          -- replace (i <=? S k + n) with true by (symmetry; apply Nat.leb_le; lia).
             replace (i - k) with (S (i - S k)) by lia. rewrite zsum_S. f_equal. lia.
          -- assert (i = k + 1) by lia. subst i. rewrite Nat.eqb_refl.
             replace (k + 1 - k) with 1 by lia. f_equal. cbn. lia.
        * replace (i <=? S k + n) with false by (symmetry; apply Nat.leb_gt; lia). rewrite andb_false_r.
          replace (i =? k + 1) with false by (symmetry; apply Nat.eqb_neq; lia). auto.
      + cbn [andb]. replace (S k <? i) with false by (symmetry; apply Nat.ltb_ge; lia). cbn [andb].
        replace (i =? k + 1) with false by (symmetry; apply Nat.eqb_neq; lia). auto.
  Qed.

  Lemma backward_loop n k sp :
    k + n < length sp ->
    exists sp', foldM (fun sp j => let* b := list_get sp (j + 1) in list_upd sp j (b - f j)%Z) (rev (seq k n)) sp = Ok sp' /\
      length sp' = length sp /\
      forall i, nth_error sp' i = if (k <=? i) && (i <? k + n)
                                  then Some (nth (k + n) sp 0 - zsum f i (k + n - i))%Z else nth_error sp i.
  Proof.
    revert sp. induction n as [|n IH]; intros sp H.
    - exists sp. split; [reflexivity|]. split; [reflexivity|]. intros i.
      destruct (Nat.leb_spec k i); destruct (Nat.ltb_spec i (k + 0)); cbn [andb]; auto; lia.
    - rewrite seq_S, rev_app_distr. cbn [rev app foldM]. unfold list_get at 1.
      destruct (nth_error sp (k + n + 1)) as [b|] eqn:Eb; [|apply nth_error_None in Eb; lia]. cbn [of_option bind].
      destruct (list_upd_exists sp (k + n) (b - f (k + n)%nat)%Z ltac:(lia)) as [sp1 E1]. rewrite E1. cbn [bind].
      pose proof (list_upd_length _ _ _ _ E1) as L1.
      destruct (IH sp1 ltac:(lia)) as [sp' [E' [L' N']]]. exists sp'. split; [exact E'|].
      split; [lia|]. intros i. rewrite N'. rewrite (list_upd_nth _ _ _ _ i E1).
      assert (A1 : nth (k + n) sp1 0%Z = (b - f (k + n)%nat)%Z).
      { apply nth_error_nth. rewrite (list_upd_nth _ _ _ _ (k + n) E1). rewrite Nat.eqb_refl. auto. }
      assert (A0 : nth (k + S n) sp 0%Z = b) by (apply nth_error_nth; replace (k + S n) with (k + n + 1) by lia; auto).
      rewrite A1, A0.
      destruct (Nat.leb_spec k i) as [Hki|Hki]; cbn [andb].
      + destruct (Nat.ltb_spec i (k + S n)) as [H2|H2].
        * destruct (Nat.ltb_spec i (k + n)) as [H3|H3].
          -- replace (k + S n - i) with (S (k + n - i)) by lia. rewrite zsum_snoc.
             replace (i + (k + n - i)) with (k + n) by lia. f_equal. lia.
          -- assert (i = k + n) by lia. subst i. rewrite Nat.eqb_refl.
             replace (k + S n - (k + n)) with 1 by lia. f_equal. cbn. lia.
        * replace (i <? k + n) with false by (symmetry; apply Nat.ltb_ge; lia).
          replace (i =? k + n) with false by (symmetry; apply Nat.eqb_neq; lia). auto.
      + replace (i =? k + n) with false by (symmetry; apply Nat.eqb_neq; lia). auto.
  Qed.
End Splits.

Lemma enumerate_from_seq {A} (d : A) k l : enumerate_from k l = map (fun i => (i, nth (i - k) l d)) (seq k (length l)).
Proof.
  revert k. induction l as [|x l IH]; intros k; cbn [enumerate_from length seq map]; [reflexivity|].
  f_equal; [rewrite Nat.sub_diag; reflexivity|]. rewrite IH. apply map_ext_in. intros i Hi.
  apply in_seq in Hi. replace (i - k) with (S (i - S k)) by lia. reflexivity.
Qed.

Lemma foldM_map {A B C} (g : A -> B -> result A) (h : C -> B) l a :
  foldM g (map h l) a = foldM (fun a c => g a (h c)) l a.
Proof. revert a. induction l as [|c l IH]; intros a; cbn; [reflexivity|]. destruct (g a (h c)); cbn; auto. Qed.

Lemma nth_removelast {A} (l : list A) i d : i < length l - 1 -> nth i (removelast l) d = nth i l d.
Proof.
  revert i. induction l as [|x l IH]; intros i H; [reflexivity|].
  destruct l as [|y l]; [cbn in H; lia|]. destruct i as [|i]; [reflexivity|].
  cbn [removelast]. cbn [nth]. apply IH. cbn in *. lia.
Qed.
Lemma removelast_len {A} (l : list A) : length (removelast l) = length l - 1.
Proof. induction l as [|x [|y l] IH]; [reflexivity|reflexivity|]. cbn [removelast length] in *. rewrite IH. lia. Qed.

(** the split positions, position by position *)
Lemma splits_known n ls :
  (forall x, In x ls -> x <> (-1)%Z) -> ls <> [] ->
  exists sp, split_positions n ls = Ok sp /\ length sp = S (length ls) /\
    nth_error sp (length ls) = Some n /\
    forall i, i < length ls -> nth_error sp i = Some (zsum (fun j => nth j ls 0%Z) 0 i).
Proof.
  intros H Hne. unfold split_positions.
  assert (F : filter (fun x => (x =? -1)%Z) ls = []).
  { clear Hne. induction ls as [|x ls IH]; [reflexivity|]. cbn.
    destruct (Z.eqb_spec x (-1)) as [E|E]; [exfalso; apply (H x); [left|]; auto|]. apply IH. intros; apply H; right; auto. }
  rewrite F. cbn [length Nat.eqb].
  unfold enumerate. rewrite (enumerate_from_seq 0%Z), foldM_map. rewrite removelast_len.
  set (f := fun j => nth j ls 0%Z). set (init := repeat 0%Z (length ls) ++ [n]).
  assert (LI : length init = S (length ls)) by (unfold init; rewrite app_length, repeat_length; cbn; lia).
  rewrite (foldM_ext_in _ (fun sp i => let* a := list_get sp i in list_upd sp (i + 1) (a + f i)%Z)).
  2: { intros i sp Hi. apply in_seq in Hi. rewrite Nat.sub_0_r. unfold f. rewrite nth_removelast by lia. reflexivity. }
  assert (Hl : length ls <> 0) by (destruct ls; cbn; congruence).
  destruct (forward_loop f (length ls - 1) 0 init ltac:(lia)) as [sp [E [L N]]].
  exists sp. split; [exact E|]. split; [lia|]. split.
  - rewrite N. replace (0 <? length ls) with true by (symmetry; apply Nat.ltb_lt; lia).
    replace (length ls <=? 0 + (length ls - 1)) with false by (symmetry; apply Nat.leb_gt; lia). cbn [andb].
    unfold init. rewrite nth_error_app2 by (rewrite repeat_length; lia). rewrite repeat_length, Nat.sub_diag. reflexivity.
  - intros i Hi. rewrite N. destruct i as [|i].
    + cbn [Nat.ltb Nat.leb andb]. unfold init. destruct ls; [congruence|]. reflexivity.
    + replace (S i <=? 0 + (length ls - 1)) with true by (symmetry; apply Nat.leb_le; lia). cbn [Nat.ltb Nat.leb andb].
      rewrite Nat.sub_0_r. f_equal. unfold init. destruct ls; [congruence|]. reflexivity.
Qed.

Lemma index_of_Z_app x l1 l2 : ~ In x l1 -> index_of Z.eqb x (l1 ++ x :: l2) = Some (length l1).
Proof.
  induction l1 as [|y l1 IH]; intros H; cbn.
  - rewrite Z.eqb_refl. reflexivity.
  - destruct (Z.eqb_spec x y) as [E|E]; [subst; exfalso; apply H; left; auto|].
    rewrite IH; [reflexivity|]. intros Hi; apply H; right; auto.
Qed.

Lemma splits_unknown n l1 l2 :
  ~ In (-1)%Z l1 ->
  let ls := l1 ++ (-1)%Z :: l2 in let f := fun j => nth j ls 0%Z in
  exists sp, split_positions n ls = Ok sp /\ length sp = S (length ls) /\
    (forall i, i <= length l1 -> nth_error sp i = Some (zsum f 0 i)) /\
    (forall i, length l1 < i <= length ls -> nth_error sp i = Some (n - zsum f i (length ls - i))%Z).
Proof.
  intros H ls f. unfold split_positions.
  assert (F : length (filter (fun x => (x =? -1)%Z) ls) =? 0 = false).
  { apply Nat.eqb_neq. unfold ls. rewrite filter_app, app_length. cbn. lia. }
  rewrite F. unfold ls at 1. rewrite index_of_Z_app by auto. cbn [of_option bind].
  set (u := length l1). assert (Lu : length ls = u + S (length l2)) by (unfold ls; rewrite app_length; reflexivity).
  set (init := repeat 0%Z (length ls) ++ [n]).
  assert (LI : length init = S (length ls)) by (unfold init; rewrite app_length, repeat_length; cbn; lia).
  assert (G : forall j, j < length ls -> list_get ls j = Ok (f j)).
  { intros j Hj. apply list_get_Ok. unfold f. apply nth_error_nth'; auto. }
  rewrite (foldM_ext_in _ (fun sp i => let* a := list_get sp i in list_upd sp (i + 1) (a + f i)%Z)).
  2: { intros i sp Hi. apply in_seq in Hi. destruct (list_get sp i); cbn [bind]; auto. rewrite G by lia. reflexivity. }
  destruct (forward_loop f u 0 init ltac:(lia)) as [sp1 [E1 [L1 N1]]]. rewrite E1. cbn [bind].
  rewrite (foldM_ext_in _ (fun sp j => let* b := list_get sp (j + 1) in list_upd sp j (b - f j)%Z)).
  2: { intros i sp Hi. apply in_rev, in_seq in Hi. destruct (list_get sp (i + 1)); cbn [bind]; auto. rewrite G by lia. reflexivity. }
  destruct (backward_loop f (length ls - (u + 1)) (u + 1) sp1 ltac:(lia)) as [sp [E [L N]]].
  exists sp. split; [exact E|]. split; [lia|].
  assert (I0 : forall i, i < length ls -> nth_error init i = Some 0%Z).
  { intros i Hi. unfold init. rewrite nth_error_app1 by (rewrite repeat_length; lia). apply nth_error_repeat; auto. }
  assert (In_ : nth_error init (length ls) = Some n).
  { unfold init. rewrite nth_error_app2 by (rewrite repeat_length; lia). rewrite repeat_length, Nat.sub_diag. reflexivity. }
  assert (Z0 : nth 0 init 0%Z = 0%Z) by (apply nth_error_nth; apply I0; lia).
  split.
  - intros i Hi. rewrite N. replace (u + 1 <=? i) with false by (symmetry; apply Nat.leb_gt; lia). cbn [andb].
    rewrite N1. rewrite Z0, Nat.sub_0_r. destruct i as [|i].
    + cbn [Nat.ltb Nat.leb andb]. rewrite I0 by lia. reflexivity.
    + replace (S i <=? 0 + u) with true by (symmetry; apply Nat.leb_le; lia). cbn [Nat.ltb Nat.leb andb]. f_equal.
  - intros i Hi. rewrite N.
    replace (u + 1 + (length ls - (u + 1))) with (length ls) by lia.
    assert (Q : nth_error sp1 (length ls) = Some n).
    { rewrite N1. replace (length ls <=? 0 + u) with false by (symmetry; apply Nat.leb_gt; lia). rewrite andb_false_r. auto. }
    replace (u + 1 <=? i) with true by (symmetry; apply Nat.leb_le; lia). cbn [andb].
    destruct (Nat.ltb_spec i (length ls)).
    + rewrite (nth_error_nth _ _ _ Q). reflexivity.
    + assert (i = length ls) by lia. subst i. rewrite Q, Nat.sub_diag. cbn. f_equal. lia.
Qed.
