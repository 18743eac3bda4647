(** * _optimize_transformation: the two loops *)
From Coq Require Import Permutation Sorted.
From Verif Require Import Py Tensor ListFacts TensorFacts SpecSem StepFacts ReduceFacts SpecOptimize Optimize OptFacts.

(** ** Positions of the reduced blocks *)
Fixpoint pos (k : nat) (B : list block) : list nat :=
  match B with [] => [] | (b, _) :: B' => if b then k :: pos (S k) B' else pos (S k) B' end.
Definition cnt (B : list block) : nat := length (gkept B).

Lemma pos_app k B1 B2 : pos k (B1 ++ B2) = pos k B1 ++ pos (k + length B1) B2.
Proof.
  revert k. induction B1 as [|[b g] B1 IH]; intros k; cbn; [rewrite Nat.add_0_r; reflexivity|].
  rewrite IH. replace (S k + length B1) with (k + S (length B1)) by lia. destruct b; reflexivity.
Qed.
Lemma pos_ge k B a : In a (pos k B) -> k <= a < k + length B.
Proof.
  revert k. induction B as [|[b g] B IH]; intros k; cbn; [intros []|]. destruct b; cbn; intros H.
  - destruct H as [<-|H]; [lia|]. apply IH in H. lia.
  - apply IH in H. lia.
Qed.
Lemma pos_shift k B : map (fun a => a - 1) (pos (S k) B) = pos k B.
Proof. revert k. induction B as [|[b g] B IH]; intros k; cbn; [reflexivity|]. destruct b; cbn; rewrite IH; [f_equal; lia|reflexivity]. Qed.
Lemma pos_len k j B : length (pos k B) = length (pos j B).
Proof. revert k j. induction B as [|[b g] B IH]; intros k j; [reflexivity|]. cbn. destruct b; cbn; rewrite (IH (S k) (S j)); reflexivity. Qed.
Lemma pos_sorted k B : StronglySorted lt (pos k B).
Proof.
  revert k. induction B as [|[b g] B IH]; intros k; cbn; [constructor|]. destruct b; [|apply IH]. constructor; [apply IH|].
  apply Forall_forall. intros a Ha. apply pos_ge in Ha. lia.
Qed.
Lemma pos_NoDup k B : NoDup (pos k B).
Proof.
  revert k. induction B as [|[b g] B IH]; intros k; cbn; [constructor|]. destruct b; [|apply IH]. constructor; [|apply IH].
  intros H. apply pos_ge in H. lia.
Qed.
Lemma pos_mask k B : map (fun a => nat_mem a (pos k B)) (seq k (length B)) = map fst B.
Proof.
  revert k. induction B as [|[b g] B IH]; intros k; [reflexivity|]. cbn [length seq map fst pos]. f_equal.
  - destruct b; [apply nat_mem_In; left; reflexivity|]. destruct (nat_mem k (pos (S k) B)) eqn:E; [|reflexivity].
    apply nat_mem_In, pos_ge in E. lia.
  - rewrite <- (IH (S k)). apply map_ext_in. intros a Ha. apply in_seq in Ha. destruct b; [|reflexivity].
    cbn. destruct (Nat.eqb_spec a k); [lia|reflexivity].
Qed.
Lemma pos_count B : length (pos 0 B) + cnt B = length B.
Proof.
  generalize 0. unfold cnt, gkept. induction B as [|[b g] B IH]; intros k; [reflexivity|]. cbn. specialize (IH (S k)). destruct b; cbn; lia.
Qed.
Lemma pos_nth k B i a : nth_error (pos k B) i = Some a -> exists B1 g B2, B = B1 ++ (true, g) :: B2 /\ a = k + length B1 /\ length (pos k B1) = i.
Proof.
  revert k i. induction B as [|[b g] B IH]; intros k i H; [destruct i; discriminate|]. cbn in H. destruct b.
  - destruct i as [|i]; cbn in H.
    + injection H as <-. exists [], g, B. split; [reflexivity|]. cbn. split; [lia|reflexivity].
    + apply IH in H as (B1 & g' & B2 & -> & -> & E). exists ((true, g) :: B1), g', B2. split; [reflexivity|]. cbn. split; [lia|]. rewrite E. reflexivity.
  - apply IH in H as (B1 & g' & B2 & -> & -> & E). exists ((false, g) :: B1), g', B2. split; [reflexivity|]. cbn. split; [lia|exact E].
Qed.

(** ** sorting *)
Lemma insert_asc_perm x l : Permutation (insert_asc x l) (x :: l).
Proof.
  induction l as [|y l IH]; cbn; [apply Permutation_refl|]. destruct (x <=? y); [apply Permutation_refl|].
  transitivity (y :: x :: l); [apply perm_skip, IH|apply perm_swap].
Qed.
Lemma sort_asc_perm l : Permutation (sort_asc l) l.
Proof. induction l as [|x l IH]; cbn; [constructor|]. transitivity (x :: sort_asc l); [apply insert_asc_perm|apply perm_skip, IH]. Qed.
Lemma insert_asc_sorted x l : StronglySorted le l -> StronglySorted le (insert_asc x l).
Proof.
  induction 1 as [|y l H IH F]; cbn; [repeat constructor|]. destruct (x <=? y) eqn:E.
  - apply Nat.leb_le in E. constructor; [constructor; assumption|]. constructor; [exact E|].
    eapply Forall_impl; [|exact F]. cbn. intros; lia.
  - apply Nat.leb_gt in E. constructor; [exact IH|]. apply Forall_forall. intros a Ha.
    apply (Permutation_in a (insert_asc_perm x l)) in Ha. destruct Ha as [<-|Ha]; [lia|]. rewrite Forall_forall in F. apply F, Ha.
Qed.
Lemma sort_asc_sorted l : StronglySorted le (sort_asc l).
Proof. induction l as [|x l IH]; cbn; [constructor|]. apply insert_asc_sorted, IH. Qed.
Lemma sorted_unique l : forall m, StronglySorted le l -> StronglySorted lt m -> Permutation l m -> l = m.
Proof.
  induction l as [|x l IH]; intros m Hl Hm Hp; [apply Permutation_nil in Hp; congruence|].
  destruct m as [|y m]; [apply Permutation_sym, Permutation_nil in Hp; congruence|].
  inversion Hl as [|? ? Hl' Fl]; inversion Hm as [|? ? Hm' Fm]; subst. rewrite Forall_forall in Fl, Fm.
  assert (E : x = y).
  { assert (Hx : In x (y :: m)) by (eapply Permutation_in; [exact Hp|left; reflexivity]).
    assert (Hy : In y (x :: l)) by (eapply Permutation_in; [apply Permutation_sym; exact Hp|left; reflexivity]).
    destruct Hx as [Hx|Hx]; [congruence|]. destruct Hy as [Hy|Hy]; [congruence|]. apply Fm in Hx. apply Fl in Hy. lia. }
  subst y. f_equal. apply IH; [assumption|assumption|]. eapply Permutation_cons_inv; eauto.
Qed.
Lemma sort_pos r B : Permutation r (pos 0 B) -> sort_asc r = pos 0 B.
Proof. intros H. apply sorted_unique; [apply sort_asc_sorted|apply pos_sorted|]. transitivity r; [apply sort_asc_perm|exact H]. Qed.

(** ** the same labels in the same order *)
Definition alike (B : list block) (o : list nat) (B' : list block) (o' : list nat) : Prop :=
  concat (gall B) = concat (gall B') /\ concat (gkept B) = concat (gkept B') /\ concat (gred B) = concat (gred B') /\
  concat (garrange (gkept B) o) = concat (garrange (gkept B') o').
Lemma alike_refl B o : alike B o B o.
Proof. repeat split. Qed.
Lemma alike_trans B o B' o' B'' o'' : alike B o B' o' -> alike B' o' B'' o'' -> alike B o B'' o''.
Proof. intros (A1 & A2 & A3 & A4) (C1 & C2 & C3 & C4). unfold alike. rewrite A1, A2, A3, A4. auto. Qed.

Lemma gall_app B1 B2 : gall (B1 ++ B2) = gall B1 ++ gall B2.
Proof. apply map_app. Qed.
Lemma gkept_app B1 B2 : gkept (B1 ++ B2) = gkept B1 ++ gkept B2.
Proof. unfold gkept. rewrite filter_app, map_app. reflexivity. Qed.
Lemma gred_app B1 B2 : gred (B1 ++ B2) = gred B1 ++ gred B2.
Proof. unfold gred. rewrite filter_app, map_app. reflexivity. Qed.
Lemma cnt_app B1 B2 : cnt (B1 ++ B2) = cnt B1 + cnt B2.
Proof. unfold cnt. rewrite gkept_app, app_length. reflexivity. Qed.

Lemma cnt_false g B : cnt ((false, g) :: B) = S (cnt B).
Proof. reflexivity. Qed.

Lemma split3 {X} (B1 C1 : list X) x y B2 C2 : B1 ++ x :: B2 = C1 ++ y :: C2 ->
  (B1 = C1 /\ x = y /\ B2 = C2) \/ (exists M, C1 = B1 ++ x :: M /\ B2 = M ++ y :: C2) \/ (exists M, B1 = C1 ++ y :: M /\ C2 = M ++ x :: B2).
Proof.
  revert C1. induction B1 as [|b B1 IH]; intros [|c C1] H; cbn in H.
  - injection H as -> ->. auto.
  - injection H as -> ->. right. left. exists C1. auto.
  - injection H as -> <-. right. right. exists B1. auto.
  - injection H as -> H. apply IH in H as [(-> & -> & ->)|[(M & -> & ->)|(M & -> & ->)]]; [auto|right; left; exists M; auto|right; right; exists M; auto].
Qed.

Lemma rev_seq_S m : rev (seq 0 (S m)) = m :: rev (seq 0 m).
Proof. rewrite seq_S, rev_app_distr. reflexivity. Qed.
Lemma list_upd_mid {X} (s1 : list X) x s2 v : list_upd (s1 ++ x :: s2) (length s1) v = Ok (s1 ++ v :: s2).
Proof. induction s1 as [|y s1 IH]; cbn; [reflexivity|]. rewrite IH. reflexivity. Qed.

Section Loops.
  Context (len : nat -> nat).

  Lemma join_axis_blocks B1 b1 g1 b2 g2 B2 b : 
    join_axis (gshape len (gall (B1 ++ (b1, g1) :: (b2, g2) :: B2))) (S (length B1)) = Ok (gshape len (gall (B1 ++ (b, g1 ++ g2) :: B2))).
  Proof.
    unfold join_axis, list_get. rewrite !gall_app. cbn [gall map snd]. fold (gall B2). unfold gshape. rewrite !map_app. cbn [map].
    set (s1 := map _ (gall B1)). set (s2 := map _ (gall B2)). assert (L : length s1 = length B1) by (unfold s1, gall; rewrite !map_length; reflexivity).
    rewrite <- L. rewrite nth_error_app2 by lia. replace (S (length s1) - length s1) with 1 by lia. cbn [nth_error of_option bind].
    replace (firstn (S (length s1)) (s1 ++ prodn (map len g1) :: prodn (map len g2) :: s2)) with (s1 ++ [prodn (map len g1)]).
    2:{ replace (S (length s1)) with (length s1 + 1) by lia. rewrite firstn_app_2. reflexivity. }
    replace (skipn (S (length s1) + 1) (s1 ++ prodn (map len g1) :: prodn (map len g2) :: s2)) with s2.
    2:{ rewrite skipn_app. rewrite skipn_all2 by lia. replace (S (length s1) + 1 - length s1) with 2 by lia. reflexivity. }
    replace (S (length s1) - 1) with (length s1) by lia. rewrite <- app_assoc. cbn [app].
    rewrite nth_error_app2 by lia. rewrite Nat.sub_diag. cbn [nth_error of_option bind].
    rewrite (list_upd_mid s1). rewrite (map_app len g1 g2), prodn_app. reflexivity.
  Qed.

  (** *** first loop *)
  Definition adjacent_below (i : nat) (B : list block) : Prop :=
    forall B1 g1 g2 B2, B = B1 ++ (true, g1) :: (true, g2) :: B2 -> length (pos 0 B1) < i.

  Lemma find_adjacent B i a : nth_error (pos 0 B) i = Some a -> nth_error (pos 0 B) (i + 1) = Some (a + 1) ->
    exists B1 g1 g2 B2, B = B1 ++ (true, g1) :: (true, g2) :: B2 /\ a = length B1 /\ length (pos 0 B1) = i.
  Proof.
    intros H1 H2. apply pos_nth in H1 as (B1 & g1 & B2 & -> & -> & E). cbn [Nat.add] in H2.
    rewrite pos_app in H2. cbn [pos] in H2. rewrite nth_error_app2 in H2 by lia. replace (i + 1 - length (pos 0 B1)) with 1 in H2 by lia.
    change (nth_error (pos (S (0 + length B1)) B2) 0 = Some (length B1 + 1)) in H2.
    destruct B2 as [|[b g2] B2]; [discriminate|]. cbn [pos] in H2. destruct b.
    - exists B1, g1, g2, B2. cbn. auto.
    - apply nth_error_In, pos_ge in H2. lia.
  Qed.

  Lemma adjacent_positions B1 g1 g2 B2 : let B := B1 ++ (true, g1) :: (true, g2) :: B2 in
    nth_error (pos 0 B) (length (pos 0 B1)) = Some (length B1) /\ nth_error (pos 0 B) (length (pos 0 B1) + 1) = Some (S (length B1)).
  Proof.
    cbn zeta. rewrite pos_app. cbn [pos Nat.add]. split; rewrite nth_error_app2 by lia.
    - rewrite Nat.sub_diag. reflexivity.
    - replace (length (pos 0 B1) + 1 - length (pos 0 B1)) with 1 by lia. reflexivity.
  Qed.

  Lemma join_reduced_step B i o : S i < length (pos 0 B) -> adjacent_below (S i) B ->
    exists B', join_reduced (gshape len (gall B), pos 0 B) i = Ok (gshape len (gall B'), pos 0 B') /\
      alike B o B' o /\ adjacent_below i B' /\ gkept B' = gkept B /\ (i = 0 \/ i < length (pos 0 B')).
  Proof.
    intros Hi Ha. unfold join_reduced, list_get.
    destruct (nth_error (pos 0 B) i) as [a|] eqn:E1; [|apply nth_error_None in E1; lia].
    destruct (nth_error (pos 0 B) (i + 1)) as [b|] eqn:E2; [|apply nth_error_None in E2; lia]. cbn [of_option bind].
    destruct (Nat.eqb_spec (a + 1) b) as [E|E].
    - subst b. destruct (find_adjacent B i a E1 E2) as (B1 & g1 & g2 & B2 & -> & -> & Ei).
      exists (B1 ++ (true, g1 ++ g2) :: B2). replace (length B1 + 1) with (S (length B1)) by lia. rewrite (join_axis_blocks _ _ _ _ _ _ true). cbn [bind].
      split; [|split; [|split; [|split]]].
      + do 2 f_equal. rewrite !pos_app. cbn [pos Nat.add]. rewrite <- Ei, firstn_app_2. cbn [firstn].
        rewrite skipn_app, skipn_all2 by lia. replace (length (pos 0 B1) + 2 - length (pos 0 B1)) with 2 by lia. cbn [skipn app].
        rewrite pos_shift, <- app_assoc. reflexivity.
      + unfold alike. rewrite !gall_app, !gkept_app, !gred_app. cbn. rewrite !concat_app. cbn. rewrite <- !app_assoc. repeat split.
      + intros C1 h1 h2 C2 EC. apply split3 in EC as [(<- & Ex & ->)|[(M & -> & ->)|(M & -> & EM)]].
        * specialize (Ha (B1 ++ [(true, g1)]) g2 h2 C2). rewrite <- app_assoc in Ha. specialize (Ha eq_refl). rewrite pos_app, app_length in Ha. cbn in Ha. lia.
        * specialize (Ha (B1 ++ (true, g1) :: (true, g2) :: M) h1 h2 C2). rewrite <- app_assoc in Ha. specialize (Ha eq_refl).
          rewrite pos_app, app_length in Ha. rewrite pos_app, app_length. cbn in *. rewrite (pos_len _ 0 M) in Ha. rewrite (pos_len _ 0 M). lia.
        * rewrite pos_app, app_length in Ei. cbn in Ei. lia.
      + rewrite !gkept_app. reflexivity.
      + right. rewrite pos_app, app_length in Hi. rewrite pos_app, app_length. cbn in *. rewrite (pos_len _ 0 B2) in Hi. rewrite (pos_len _ 0 B2). lia.
    - exists B. split; [reflexivity|]. split; [apply alike_refl|]. split; [|split; [reflexivity|right; lia]].
      intros B1 g1 g2 B2 ->. assert (X := Ha _ _ _ _ eq_refl). destruct (Nat.eq_dec (length (pos 0 B1)) i) as [Ei|]; [|lia].
      destruct (adjacent_positions B1 g1 g2 B2) as [Y1 Y2]. rewrite Ei in Y1, Y2. rewrite E1 in Y1. rewrite E2 in Y2. injection Y1 as ->. injection Y2 as ->. lia.
  Qed.

  Lemma first_loop o : forall m B, (m = 0 \/ m < length (pos 0 B)) -> adjacent_below m B ->
    exists B', foldM join_reduced (rev (seq 0 m)) (gshape len (gall B), pos 0 B) = Ok (gshape len (gall B'), pos 0 B') /\
      alike B o B' o /\ adjacent_below 0 B' /\ gkept B' = gkept B.
  Proof.
    induction m as [|m IH]; intros B Hm Ha.
    - exists B. split; [reflexivity|]. split; [apply alike_refl|]. auto.
    - rewrite rev_seq_S. cbn [Nat.add foldM].
      destruct (join_reduced_step B m o ltac:(lia) Ha) as (B1 & E1 & S1 & A1 & K1 & L1). rewrite E1. cbn [bind].
      destruct (IH B1 L1 A1) as (B2 & E2 & S2 & A2 & K2). exists B2. split; [exact E2|]. split; [eapply alike_trans; eauto|]. split; [exact A2|congruence].
  Qed.

  Lemma first_loop_idle B : adjacent_below 0 B -> forall l, (forall i, In i l -> S i < length (pos 0 B)) ->
    foldM join_reduced l (gshape len (gall B), pos 0 B) = Ok (gshape len (gall B), pos 0 B).
  Proof.
    intros Ha. induction l as [|i l IH]; intros Hl; [reflexivity|]. cbn [foldM].
    assert (Hi := Hl i (or_introl eq_refl)). unfold join_reduced at 1, list_get.
    destruct (nth_error (pos 0 B) i) as [a|] eqn:E1; [|apply nth_error_None in E1; lia].
    destruct (nth_error (pos 0 B) (i + 1)) as [b|] eqn:E2; [|apply nth_error_None in E2; lia]. cbn [of_option bind].
    destruct (Nat.eqb_spec (a + 1) b) as [E|E].
    - subst b. destruct (find_adjacent B i a E1 E2) as (B1 & g1 & g2 & B2 & -> & _). assert (X := Ha _ _ _ _ eq_refl). lia.
    - cbn [bind]. apply IH. intros j Hj. apply Hl. right. exact Hj.
  Qed.

  (** *** second loop *)
  Fixpoint mp (c : nat) (B : list block) (o : list nat) : list (option nat) :=
    match B with
    | [] => []
    | (true, _) :: B' => None :: mp c B' o
    | (false, _) :: B' => index_of Nat.eqb c o :: mp (S c) B' o
    end.
  Notation is_some := (fun x : option nat => match x with Some _ => true | None => false end).

  Lemma build_mapping_gen r o : forall B k acc c, (forall a, k <= a < k + length B -> nat_mem a r = nth (a - k) (map fst B) false) ->
    length (filter is_some acc) = c -> (forall a, c <= a < c + cnt B -> In a o) ->
    foldM (fun init_to_final axis =>
           if nat_mem axis r then Ok (init_to_final ++ [None])
           else let after_reduction := length (filter is_some init_to_final) in
                let* k := of_option ValueError (index_of Nat.eqb after_reduction o) in
                Ok (init_to_final ++ [Some k])) (seq k (length B)) acc = Ok (acc ++ mp c B o).
  Proof.
    induction B as [|[b g] B IH]; intros k acc c Hr Hc Ho; [cbn; rewrite app_nil_r; reflexivity|].
    cbn [length seq foldM mp].
    assert (Hk : nat_mem k r = b) by (rewrite Hr by (cbn; lia); rewrite Nat.sub_diag; reflexivity). rewrite Hk.
    assert (Hr' : forall a, S k <= a < S k + length B -> nat_mem a r = nth (a - S k) (map fst B) false).
    { intros a Ha. rewrite Hr by (cbn; lia). replace (a - k) with (S (a - S k)) by lia. reflexivity. }
    destruct b; cbn [bind].
    - rewrite (IH (S k) _ c Hr'); [rewrite <- app_assoc; reflexivity| |].
      + rewrite filter_app, app_length, Hc. cbn. lia.
      + intros a Ha. apply Ho. exact Ha.
    - cbv zeta. rewrite Hc. destruct (index_of_In Nat.eqb Nat.eqb_eq c o) as [j Ej]; [apply Ho; unfold cnt; cbn; lia|]. rewrite Ej. cbn [of_option bind].
      rewrite (IH (S k) _ (S c) Hr'); [rewrite <- app_assoc; reflexivity| |].
      + rewrite filter_app, app_length, Hc. cbn. lia.
      + intros a Ha. apply Ho. change (cnt ((false, g) :: B)) with (S (cnt B)). lia.
  Qed.

  Lemma build_mapping_blocks B o : Permutation o (seq 0 (cnt B)) -> build_mapping (length B) (pos 0 B) o = Ok (mp 0 B o).
  Proof.
    intros Ho. unfold build_mapping. apply (build_mapping_gen (pos 0 B) o B 0 [] 0); [|reflexivity|].
    - intros a Ha. rewrite Nat.sub_0_r. rewrite <- (pos_mask 0 B). rewrite (nth_map_lt _ _ a false 0) by (rewrite seq_length; exact (proj2 Ha)).
      rewrite seq_nth by exact (proj2 Ha). reflexivity.
    - intros a Ha. apply (Permutation_in a (Permutation_sym Ho)). apply in_seq. lia.
  Qed.

  Lemma mp_nth o : forall B1 c b g B2, nth_error (mp c (B1 ++ (b, g) :: B2) o) (length B1) = Some (if b then None else index_of Nat.eqb (c + cnt B1) o).
  Proof.
    induction B1 as [|[b1 g1] B1 IH]; intros c b g B2.
    - cbn. destruct b; cbn; [reflexivity|]. unfold cnt. cbn. rewrite Nat.add_0_r. reflexivity.
    - cbn [app mp length nth_error]. destruct b1.
      + apply IH.
      + cbn [nth_error]. rewrite IH. unfold cnt. cbn. rewrite Nat.add_succ_r. reflexivity.
  Qed.

  Definition dec (c x : nat) : nat := if x <? c then x else x - 1.
  Lemma drop_dec c o : ~ In c o -> drop_from_order o c = map (dec c) o.
  Proof.
    induction o as [|x o IH]; intros H; [reflexivity|].
    assert (E : drop_from_order (x :: o) c = (if x =? c then [] else if x <? c then [x] else [x - 1]) ++ drop_from_order o c) by reflexivity.
    rewrite E, IH by (intros Hi; apply H; right; exact Hi). destruct (Nat.eqb_spec x c) as [->|Hx]; [exfalso; apply H; left; reflexivity|].
    cbn [map]. unfold dec at 2. destruct (x <? c); reflexivity.
  Qed.
  Lemma drop_app c o1 o2 : drop_from_order (o1 ++ o2) c = drop_from_order o1 c ++ drop_from_order o2 c.
  Proof. apply flat_map_app. Qed.
  Lemma drop_pair c o1 o2 : NoDup (o1 ++ c :: S c :: o2) -> drop_from_order (o1 ++ c :: S c :: o2) (S c) = map (dec (S c)) o1 ++ c :: map (dec (S c)) o2.
  Proof.
    intros H. apply NoDup_app_iff in H as (H1 & H2 & H3). inversion H2 as [|? ? H4 H5]; subst. inversion H5 as [|? ? H6 H7]; subst.
    rewrite drop_app, drop_dec by (intros Hi; apply (H3 (S c) Hi); right; left; reflexivity). f_equal.
    change (c :: S c :: o2) with ([c] ++ [S c] ++ o2). rewrite !drop_app, (drop_dec (S c) [c]) by (cbn; lia). rewrite (drop_dec (S c) o2 H6).
    cbn. rewrite Nat.eqb_refl. unfold dec. rewrite (proj2 (Nat.ltb_lt c (S c))) by lia. reflexivity.
  Qed.

  Definition mergeable (B : list block) (o : list nat) (p : nat) : Prop :=
    exists B1 g1 g2 B2 o1 o2, B = B1 ++ (false, g1) :: (false, g2) :: B2 /\ length B1 = p /\ o = o1 ++ cnt B1 :: S (cnt B1) :: o2.

  Lemma order_split (o : list nat) c k : index_of Nat.eqb c o = Some k -> index_of Nat.eqb (S c) o = Some (k + 1) -> exists o1 o2, o = o1 ++ c :: S c :: o2.
  Proof.
    intros H1 H2. apply (index_of_Some Nat.eqb Nat.eqb_eq) in H1, H2. apply nth_error_split in H1 as (o1 & o2 & -> & <-).
    rewrite nth_error_app2 in H2 by lia. replace (length o1 + 1 - length o1) with 1 in H2 by lia. cbn in H2.
    destruct o2 as [|x o2]; [discriminate|]. cbn in H2. injection H2 as ->. eauto.
  Qed.

  (** the new order *)
  Lemma dec_perm B1 g1 g2 B2 g o1 o2 : Permutation (o1 ++ cnt B1 :: S (cnt B1) :: o2) (seq 0 (cnt (B1 ++ (false, g1) :: (false, g2) :: B2))) ->
    Permutation (map (dec (S (cnt B1))) o1 ++ cnt B1 :: map (dec (S (cnt B1))) o2) (seq 0 (cnt (B1 ++ (false, g) :: B2))).
  Proof.
    intros H. set (c := cnt B1) in *. rewrite cnt_app in *. fold c in H |- *.
    replace (cnt ((false, g1) :: (false, g2) :: B2)) with (S (S (cnt B2))) in H by reflexivity.
    replace (cnt ((false, g) :: B2)) with (S (cnt B2)) by reflexivity.
    assert (Hn : NoDup (o1 ++ c :: S c :: o2)) by (eapply Permutation_NoDup; [apply Permutation_sym; exact H|apply seq_NoDup]).
    assert (P : Permutation (o1 ++ c :: S c :: o2) (c :: S c :: o1 ++ o2)).
    { apply Permutation_sym. transitivity (c :: o1 ++ S c :: o2); [apply perm_skip, Permutation_middle|apply Permutation_middle]. }
    assert (Hn' := Permutation_NoDup P Hn). inversion Hn' as [|? ? N1 N2]; subst. inversion N2 as [|? ? N3 N4]; subst.
    assert (Hin : forall x, In x (o1 ++ o2) <-> x < c + S (S (cnt B2)) /\ x <> c /\ x <> S c).
    { intros x. split.
      - intros Hx. split; [|split; [intros ->; apply N1; right; exact Hx|intros ->; apply N3; exact Hx]].
        assert (X : In x (seq 0 (c + S (S (cnt B2))))) by (eapply Permutation_in; [exact H|]; eapply Permutation_in; [apply Permutation_sym; exact P|]; right; right; exact Hx).
        apply in_seq in X. lia.
      - intros (H1 & H2 & H3). assert (X : In x (c :: S c :: o1 ++ o2)).
        { eapply Permutation_in; [exact P|]. eapply Permutation_in; [apply Permutation_sym; exact H|]. apply in_seq. lia. }
        destruct X as [X|[X|X]]; [congruence|congruence|exact X]. }
    transitivity (c :: map (dec (S c)) (o1 ++ o2)); [rewrite map_app; apply Permutation_sym, Permutation_middle|].
    apply NoDup_Permutation; [|apply seq_NoDup|].
    - constructor.
      + intros Hi. apply in_map_iff in Hi as (x & E & Hx). apply Hin in Hx. unfold dec in E. destruct (Nat.ltb_spec x (S c)); lia.
      + clear -N4 Hin. assert (G : forall l, NoDup l -> (forall x, In x l -> x <> S c /\ x <> c) -> NoDup (map (dec (S c)) l)).
        { induction l as [|x l IH]; intros Hn Hx; [constructor|]. inversion Hn; subst. cbn. constructor.
          - intros Hi. apply in_map_iff in Hi as (y & E & Hy). assert (Y := Hx y (or_intror Hy)). assert (X := Hx x (or_introl eq_refl)).
            assert (x = y); [|congruence]. unfold dec in E. destruct (Nat.ltb_spec x (S c)), (Nat.ltb_spec y (S c)); lia.
          - apply IH; [assumption|]. intros y Hy. apply Hx. right. exact Hy. }
        apply G; [exact N4|]. intros x Hx. apply Hin in Hx. lia.
    - intros y. rewrite in_seq. split.
      + intros [<-|Hy]; [lia|]. apply in_map_iff in Hy as (x & <- & Hx). apply Hin in Hx. unfold dec. destruct (Nat.ltb_spec x (S c)); lia.
      + intros Hy. destruct (Nat.eq_dec y c) as [->|Hyc]; [left; reflexivity|]. right. apply in_map_iff. destruct (Nat.lt_ge_cases y c).
        * exists y. split; [unfold dec; destruct (Nat.ltb_spec y (S c)); lia|apply Hin; lia].
        * exists (S y). split; [unfold dec; destruct (Nat.ltb_spec (S y) (S c)); lia|apply Hin; lia].
  Qed.

  Lemma arrange_dec G1 (g1 g2 : list nat) G2 l : (forall x, In x l -> x <> length G1 /\ x <> S (length G1)) ->
    garrange (G1 ++ (g1 ++ g2) :: G2) (map (dec (S (length G1))) l) = garrange (G1 ++ g1 :: g2 :: G2) l.
  Proof.
    intros H. unfold garrange. rewrite map_map. apply map_ext_in. intros x Hx. apply H in Hx as [H1 H2]. unfold dec.
    destruct (Nat.ltb_spec x (S (length G1))).
    - rewrite !app_nth1 by lia. reflexivity.
    - destruct (Nat.le_exists_sub (length G1 + 2) x ltac:(lia)) as (k & -> & _). rewrite !app_nth2 by lia.
      replace (k + (length G1 + 2) - 1 - length G1) with (S k) by lia. replace (k + (length G1 + 2) - length G1) with (S (S k)) by lia. reflexivity.
  Qed.

  Lemma kept_before B1 B2 : length (filter (fun x => negb (nat_mem x (pos 0 (B1 ++ B2)))) (seq 0 (length B1))) = cnt B1.
  Proof.
    assert (E : filter (fun x => negb (nat_mem x (pos 0 (B1 ++ B2)))) (seq 0 (length B1)) = filter (fun x => negb (nat_mem x (pos 0 B1))) (seq 0 (length B1))).
    { apply filter_ext_in. intros a Ha. apply in_seq in Ha. f_equal. rewrite pos_app.
      destruct (nat_mem a (pos 0 B1)) eqn:E; [apply nat_mem_In; apply in_or_app; left; apply nat_mem_In; exact E|].
      destruct (nat_mem a (pos 0 B1 ++ pos (0 + length B1) B2)) eqn:E2; [|reflexivity]. apply nat_mem_In, in_app_or in E2 as [E2|E2].
      - apply nat_mem_In in E2. congruence.
      - apply pos_ge in E2. lia. }
    rewrite E. clear. 
    assert (G : forall (f : nat -> bool) l, length (filter (fun x => negb (f x)) l) = length (filter negb (map f l))).
    { intros f l. induction l as [|x l IH]; [reflexivity|]. cbn. destruct (f x); cbn; rewrite ?IH; reflexivity. }
    rewrite (G (fun x => nat_mem x (pos 0 B1))). rewrite pos_mask. unfold cnt, gkept. rewrite map_length.
    induction B1 as [|[b g] B1 IH]; [reflexivity|]. cbn. destruct b; cbn; rewrite ?IH; reflexivity.
  Qed.

  Lemma at_position (B : list block) p : p < length B -> exists B1 b g B2, B = B1 ++ (b, g) :: B2 /\ length B1 = p.
  Proof.
    intros H. destruct (nth_error B p) as [[b g]|] eqn:E; [|apply nth_error_None in E; lia].
    apply nth_error_split in E as (B1 & B2 & -> & <-). exists B1, b, g, B2. split; reflexivity.
  Qed.

  Lemma join_kept_idle B o p : S p < length B -> ~ mergeable B o p ->
    join_kept (gshape len (gall B), pos 0 B, o, mp 0 B o) p = Ok (gshape len (gall B), pos 0 B, o, mp 0 B o).
  Proof.
    intros Hp Hm. unfold join_kept. destruct (at_position B p ltac:(lia)) as (B1 & b1 & g1 & B2 & EB & L1).
    destruct B2 as [|[b2 g2] B2]; [subst; rewrite app_length in Hp; cbn in Hp; lia|].
    assert (N1 := mp_nth o B1 0 b1 g1 ((b2, g2) :: B2)). assert (N2 := mp_nth o (B1 ++ [(b1, g1)]) 0 b2 g2 B2).
    rewrite <- app_assoc in N2. cbn [app] in N2. rewrite app_length in N2. cbn [length] in N2. rewrite <- EB, L1 in N1, N2.
    rewrite N1. cbn [of_option bind]. destruct b1; [reflexivity|]. destruct (index_of Nat.eqb (0 + cnt B1) o) as [fa|] eqn:E1; [|reflexivity].
    rewrite N2. cbn [of_option bind]. destruct b2; [reflexivity|]. rewrite cnt_app in N2 |- *. replace (0 + (cnt B1 + cnt [(false, g1)])) with (S (cnt B1)) in * by (unfold cnt; cbn; lia).
    destruct (index_of Nat.eqb (S (cnt B1)) o) as [fb|] eqn:E2; [|reflexivity].
    destruct (Nat.eqb_spec (fa + 1) fb) as [<-|]; [|reflexivity]. exfalso. apply Hm.
    destruct (order_split _ _ _ E1 E2) as (o1 & o2 & Eo). exists B1, g1, g2, B2, o1, o2. auto.
  Qed.

  Lemma mergeable_dec B o p : mergeable B o p \/ ~ mergeable B o p.
  Proof.
    destruct (Nat.lt_ge_cases (S p) (length B)) as [Hp|Hp].
    2:{ right. intros (B1 & g1 & g2 & B2 & o1 & o2 & -> & <- & _). rewrite app_length in Hp. cbn in Hp. lia. }
    destruct (at_position B p ltac:(lia)) as (B1 & b1 & g1 & B2 & -> & L1).
    destruct B2 as [|[b2 g2] B2]; [rewrite app_length in Hp; cbn in Hp; lia|].
    assert (U : forall C1 h1 h2 C2, B1 ++ (b1, g1) :: (b2, g2) :: B2 = C1 ++ (false, h1) :: (false, h2) :: C2 -> length C1 = p -> C1 = B1 /\ b1 = false /\ b2 = false).
    { intros C1 h1 h2 C2 E L. apply split3 in E as [(-> & Ex & E2)|[(M & -> & _)|(M & -> & _)]].
      - injection Ex as -> _. injection E2 as -> _. auto.
      - rewrite app_length in L. cbn in L. lia.
      - rewrite app_length in L1. cbn in L1. lia. }
    destruct b1; [right; intros (C1 & h1 & h2 & C2 & o1 & o2 & E & L & _); destruct (U _ _ _ _ E L) as (_ & ? & _); discriminate|].
    destruct b2; [right; intros (C1 & h1 & h2 & C2 & o1 & o2 & E & L & _); destruct (U _ _ _ _ E L) as (_ & _ & ?); discriminate|].
    destruct (existsb (fun k => match skipn k o with a :: b :: _ => (a =? cnt B1) && (b =? S (cnt B1)) | _ => false end) (seq 0 (length o))) eqn:E.
    - left. apply existsb_exists in E as (k & _ & E). destruct (skipn k o) as [|a [|b o2]] eqn:Es; try discriminate.
      apply andb_true_iff in E as [Ea Eb]. apply Nat.eqb_eq in Ea, Eb. subst. exists B1, g1, g2, B2, (firstn k o), o2.
      split; [reflexivity|]. split; [reflexivity|]. rewrite <- Es. symmetry. apply firstn_skipn.
    - right. intros (C1 & h1 & h2 & C2 & o1 & o2 & Ex & L & Eo). destruct (U _ _ _ _ Ex L) as (-> & _ & _).
      assert (X : existsb (fun k => match skipn k o with a :: b :: _ => (a =? cnt B1) && (b =? S (cnt B1)) | _ => false end) (seq 0 (length o)) = true); [|congruence].
      apply existsb_exists. exists (length o1). split; [apply in_seq; rewrite Eo, app_length; cbn; lia|].
      rewrite Eo, skipn_app, skipn_all, Nat.sub_diag. cbn [skipn app]. rewrite !Nat.eqb_refl. reflexivity.
  Qed.

  Definition no_merge_from (p : nat) (B : list block) (o : list nat) : Prop := forall q, p <= q -> ~ mergeable B o q.

  (** joining two kept blocks *)
  Section Join.
    Context (B1 B2 : list block) (g1 g2 : list nat) (o1 o2 : list nat).
    Let B := B1 ++ (false, g1) :: (false, g2) :: B2.
    Let B' := B1 ++ (false, g1 ++ g2) :: B2.
    Let c := cnt B1.
    Let o := o1 ++ c :: S c :: o2.
    Let o' := map (dec (S c)) o1 ++ c :: map (dec (S c)) o2.
    Context (Ho : Permutation o (seq 0 (cnt B))).

    Lemma join_NoDup : NoDup o.
    Proof. eapply Permutation_NoDup; [apply Permutation_sym; exact Ho|apply seq_NoDup]. Qed.
    Lemma join_other x : In x o1 \/ In x o2 -> x <> c /\ x <> S c.
    Proof.
      assert (H := join_NoDup). unfold o in H. apply NoDup_app_iff in H as (_ & H2 & H3). inversion H2 as [|? ? H4 H5]; subst. inversion H5 as [|? ? H6 H7]; subst.
      intros [Hx|Hx].
      - split; intros ->; apply (H3 _ Hx); [left; reflexivity|right; left; reflexivity].
      - split; intros ->; [apply H4; right; exact Hx|apply H6; exact Hx].
    Qed.

    Lemma join_alike : alike B o B' o'.
    Proof.
      assert (Lc : length (gkept B1) = c) by reflexivity.
      assert (Ek : gkept B = gkept B1 ++ g1 :: g2 :: gkept B2) by (unfold B; rewrite gkept_app; reflexivity).
      assert (Ek' : gkept B' = gkept B1 ++ (g1 ++ g2) :: gkept B2) by (unfold B'; rewrite gkept_app; reflexivity).
      split; [|split; [|split]].
      - unfold B, B'. rewrite !gall_app. cbn. rewrite !concat_app. cbn. rewrite <- !app_assoc. reflexivity.
      - rewrite Ek, Ek', !concat_app. cbn. rewrite <- !app_assoc. reflexivity.
      - unfold B, B'. rewrite !gred_app. reflexivity.
      - rewrite Ek, Ek'. unfold o, o'. unfold garrange at 1 2. rewrite !map_app. cbn [map].
        change (map (fun p => nth p ?g []) ?l) with (garrange g l).
        rewrite <- Lc. rewrite !arrange_dec by (intros x Hx; rewrite Lc; apply join_other; auto).
        rewrite !app_nth2 by lia. replace (S (length (gkept B1)) - length (gkept B1)) with 1 by lia. rewrite Nat.sub_diag. cbn [nth].
        rewrite !concat_app. cbn. rewrite <- !app_assoc. reflexivity.
    Qed.

    Lemma join_kept_join m : index_of Nat.eqb c o = Some m ->
      join_kept (gshape len (gall B), pos 0 B, o, mp 0 B o) (length B1) = Ok (gshape len (gall B'), pos 0 B', o', mp 0 B' o').
    Proof.
      intros Em. unfold join_kept.
      assert (N1 : nth_error (mp 0 B o) (length B1) = Some (index_of Nat.eqb c o)) by exact (mp_nth o B1 0 false g1 ((false, g2) :: B2)).
      assert (EB : B = (B1 ++ [(false, g1)]) ++ (false, g2) :: B2) by (unfold B; rewrite <- app_assoc; reflexivity).
      assert (C1 : cnt (B1 ++ [(false, g1)]) = S c) by (rewrite cnt_app; apply Nat.add_1_r).
      assert (L1 : length (B1 ++ [(false, g1)]) = length B1 + 1) by apply app_length.
      assert (N2 : nth_error (mp 0 B o) (length B1 + 1) = Some (index_of Nat.eqb (S c) o)).
      { rewrite EB, <- L1, <- C1. exact (mp_nth o (B1 ++ [(false, g1)]) 0 false g2 B2). }
      rewrite N1, Em. cbn [of_option bind]. rewrite N2. cbn [of_option bind].
      assert (Em' : index_of Nat.eqb (S c) o = Some (m + 1)).
      { apply (index_of_nth Nat.eqb Nat.eqb_eq); [apply join_NoDup|]. assert (X : m = length o1).
        { assert (Y : index_of Nat.eqb c o = Some (length o1)).
          { apply (index_of_nth Nat.eqb Nat.eqb_eq); [apply join_NoDup|]. unfold o. rewrite nth_error_app2 by lia. rewrite Nat.sub_diag. reflexivity. }
          congruence. }
        subst m. unfold o. rewrite nth_error_app2 by lia. replace (length o1 + 1 - length o1) with 1 by lia. reflexivity. }
      rewrite Em', Nat.eqb_refl. cbv zeta.
      replace (length B1 + 1) with (S (length B1)) by lia. assert (Ej : join_axis (gshape len (gall B)) (S (length B1)) = Ok (gshape len (gall B'))) by exact (join_axis_blocks B1 false g1 false g2 B2 false).
      rewrite Ej. cbn [bind].
      assert (Ec : length (filter (fun x => negb (nat_mem x (pos 0 B))) (seq 0 (S (length B1)))) = S c).
      { rewrite Nat.add_1_r in L1. rewrite EB, <- L1, kept_before. exact C1. }
      rewrite Ec. assert (Ed : drop_from_order o (S c) = o') by (apply drop_pair, join_NoDup). rewrite Ed.
      assert (Er : map (fun axis => if axis <? S (length B1) then axis else axis - 1) (pos 0 B) = pos 0 B').
      { unfold B, B'. rewrite !pos_app. cbn [pos Nat.add]. rewrite map_app. f_equal.
        - rewrite <- (map_id (pos 0 B1)) at 2. apply map_ext_in. intros a Ha. apply pos_ge in Ha. destruct (Nat.ltb_spec a (S (length B1))); lia.
        - rewrite <- (pos_shift (S (length B1)) B2). apply map_ext_in. intros a Ha. apply pos_ge in Ha. destruct (Nat.ltb_spec a (S (length B1))); lia. }
      rewrite Er. assert (El : length (gshape len (gall B')) = length B') by (unfold gshape, gall; rewrite !map_length; reflexivity).
      rewrite El, build_mapping_blocks; [reflexivity|]. apply (dec_perm B1 g1 g2 B2 (g1 ++ g2) o1 o2 Ho).
    Qed.

    Lemma dec_inv x y : x <> c -> x <> S c -> dec (S c) x = y -> c < y -> x = S y.
    Proof. unfold dec. destruct (Nat.ltb_spec x (S c)); lia. Qed.

    (** nothing new can be joined further on *)
    Lemma join_no_merge : no_merge_from (S (length B1)) B o -> no_merge_from (length B1) B' o'.
    Proof.
      intros H q Hq (C1 & h1 & h2 & C2 & p1 & p2 & EB & Lq & Eo).
      assert (No' : NoDup o').
      { eapply Permutation_NoDup; [apply Permutation_sym; apply (dec_perm B1 g1 g2 B2 (g1 ++ g2) o1 o2 Ho)|apply seq_NoDup]. }
      unfold B' in EB. apply split3 in EB as [(<- & Ex & E2)|[(M & -> & E2)|(M & E1 & _)]].
      - (* the joined block and the next one *)
        fold c in Eo. unfold o' in Eo. assert (Ep : p1 = map (dec (S c)) o1 /\ S c :: p2 = map (dec (S c)) o2).
        { apply split3 in Eo as [(E1 & _ & E3)|[(M & E1 & E3)|(M & E1 & E3)]]; [split; congruence| |].
          - exfalso. unfold o' in No'. rewrite E3 in No'. apply NoDup_app_iff in No' as (_ & No' & _). inversion No' as [|? ? N _]; subst. apply N. apply in_or_app. right. left. reflexivity.
          - exfalso. unfold o' in No'. rewrite E1 in No'. rewrite <- app_assoc in No'. apply NoDup_app_iff in No' as (_ & No' & _). inversion No' as [|? ? N _]; subst. apply N. apply in_or_app. right. left. reflexivity. }
        destruct Ep as [_ Ep]. assert (Ho2 : exists y o3, o2 = y :: o3 /\ dec (S c) y = S c) by (destruct o2 as [|y o3]; [discriminate|]; cbn in Ep; injection Ep as E _; exists y, o3; split; congruence).
        destruct Ho2 as (y & o3 & Eo2 & Ey).
        assert (Y := join_other y ltac:(right; rewrite Eo2; left; reflexivity)). apply dec_inv in Ey; [|apply Y|apply Y|lia]. subst y.
        apply (H (S (length B1))); [lia|]. exists (B1 ++ [(false, g1)]), g2, h2, C2, (o1 ++ [c]), o3. split; [|split].
        + unfold B. rewrite E2, <- app_assoc. reflexivity.
        + rewrite app_length. cbn. lia.
        + rewrite cnt_app. replace (cnt B1 + cnt [(false, g1)]) with (S c) by (symmetry; apply Nat.add_1_r). unfold o. rewrite Eo2, <- app_assoc. reflexivity.
      - (* two blocks after the joined one *)
        set (c' := cnt (B1 ++ (false, g1 ++ g2) :: M)) in *. assert (Ec' : c' = S (c + cnt M)) by (unfold c'; rewrite cnt_app, cnt_false; apply Nat.add_succ_r).
        assert (Ho' : exists q1 q2, o = q1 ++ S c' :: S (S c') :: q2).
        { assert (G : forall l l1 l2, (forall x, In x l -> x <> c /\ x <> S c) -> map (dec (S c)) l = l1 ++ c' :: S c' :: l2 -> exists m1 m2, l = m1 ++ S c' :: S (S c') :: m2).
          { clear - Ec'. assert (Lc : c < c') by lia. assert (Lc' : c < S c') by lia. clear Ec'. clearbody c'. intros l l1 l2 Hl E. revert l1 E. induction l as [|x l IH]; intros l1 E; [destruct l1; discriminate|]. destruct l1 as [|z l1].
            - cbn in E. injection E as Ex E. destruct l as [|y l]; [discriminate|]. cbn in E. injection E as Ey E.
              assert (X := Hl x (or_introl eq_refl)). assert (Y := Hl y (or_intror (or_introl eq_refl))).
              apply dec_inv in Ex; [|apply X|apply X|exact Lc]. apply dec_inv in Ey; [|apply Y|apply Y|exact Lc']. subst. exists [], l. reflexivity.
            - cbn in E. injection E as _ E. apply IH in E as (m1 & m2 & ->); [exists (x :: m1), m2; reflexivity|]. intros a Ha. apply Hl. right. exact Ha. }
          unfold o' in Eo. apply split3 in Eo as [(E1 & E3 & _)|[(N & -> & E3)|(N & E1 & E3)]]; [change (c = c') in E3; lia| |].
          - destruct (G o2 N p2) as (m1 & m2 & Em); [intros x Hx; apply join_other; auto|exact E3|]. exists (o1 ++ c :: S c :: m1), m2. unfold o. rewrite Em, <- app_assoc. reflexivity.
          - destruct N as [|n N].
            + cbn in E3. injection E3 as E3 _. change (S c' = c) in E3. lia.
            + cbn in E3. injection E3 as <- E3. destruct (G o1 p1 N) as (m1 & m2 & Em); [intros x Hx; apply join_other; auto|exact E1|].
              exists m1, (m2 ++ c :: S c :: o2). unfold o. rewrite Em, <- app_assoc. reflexivity. }
        destruct Ho' as (q1 & q2 & Eq). apply (H (S q)); [lia|].
        exists (B1 ++ (false, g1) :: (false, g2) :: M), h1, h2, C2, q1, q2. split; [|split].
        + unfold B. rewrite E2, <- app_assoc. reflexivity.
        + rewrite app_length in *. cbn in *. lia.
        + rewrite cnt_app. replace (cnt B1 + cnt ((false, g1) :: (false, g2) :: M)) with (S c') by (rewrite Ec', !cnt_false; unfold c; lia). exact Eq.
      - assert (X : length B1 = length C1 + S (length M)) by (rewrite E1; apply app_length). change (length C1 = q) in Lq. lia.
    Qed.

    Lemma join_adjacent : adjacent_below 0 B -> adjacent_below 0 B'.
    Proof.
      intros H C1 h1 h2 C2 E. exfalso. unfold B' in E. apply split3 in E as [(_ & Ex & _)|[(M & -> & E2)|(M & E1 & E2)]].
      - discriminate.
      - assert (X := H (B1 ++ (false, g1) :: (false, g2) :: M) h1 h2 C2). unfold B in X. rewrite E2, <- app_assoc in X. specialize (X eq_refl). lia.
      - destruct M as [|b M]; [cbn in E2; discriminate|]. cbn in E2. injection E2 as <- E2.
        assert (X := H C1 h1 h2 (M ++ (false, g1) :: (false, g2) :: B2)). unfold B in X. rewrite E1, <- app_assoc in X. specialize (X eq_refl). lia.
    Qed.
  End Join.

  Lemma second_loop : forall m B o, (m = 0 \/ m < length B) -> Permutation o (seq 0 (cnt B)) -> adjacent_below 0 B -> no_merge_from m B o ->
    exists B' o', foldM join_kept (rev (seq 0 m)) (gshape len (gall B), pos 0 B, o, mp 0 B o) = Ok (gshape len (gall B'), pos 0 B', o', mp 0 B' o') /\
      alike B o B' o' /\ Permutation o' (seq 0 (cnt B')) /\ adjacent_below 0 B' /\ no_merge_from 0 B' o'.
  Proof.
    induction m as [|m IH]; intros B o Hm Ho Ha Hn.
    - exists B, o. split; [reflexivity|]. split; [apply alike_refl|]. auto.
    - rewrite rev_seq_S. cbn [Nat.add foldM]. destruct (mergeable_dec B o m) as [(B1 & g1 & g2 & B2 & o1 & o2 & -> & L & ->)|Hd].
      + assert (Hnd := join_NoDup B1 B2 g1 g2 o1 o2 Ho).
        assert (Em : index_of Nat.eqb (cnt B1) (o1 ++ cnt B1 :: S (cnt B1) :: o2) = Some (length o1)).
        { apply (index_of_nth Nat.eqb Nat.eqb_eq); [exact Hnd|]. rewrite nth_error_app2 by lia. rewrite Nat.sub_diag. reflexivity. }
        rewrite <- L. rewrite (join_kept_join B1 B2 g1 g2 o1 o2 Ho _ Em). cbn [bind]. rewrite L.
        destruct (IH (B1 ++ (false, g1 ++ g2) :: B2) (map (dec (S (cnt B1))) o1 ++ cnt B1 :: map (dec (S (cnt B1))) o2)) as (B' & o' & E & S1 & P & A1 & N1).
        * rewrite app_length. cbn. lia.
        * apply (dec_perm B1 g1 g2 B2 (g1 ++ g2) o1 o2 Ho).
        * eapply join_adjacent; eauto.
        * rewrite <- L. apply join_no_merge; [exact Ho|]. rewrite L. exact Hn.
        * exists B', o'. split; [exact E|]. split; [eapply alike_trans; [apply join_alike; exact Ho|exact S1]|]. auto.
      + rewrite join_kept_idle; [|lia|exact Hd]. cbn [bind]. apply IH; [lia|exact Ho|exact Ha|].
        intros q Hq. destruct (Nat.eq_dec q m) as [->|]; [exact Hd|]. apply Hn. lia.
  Qed.

  Lemma second_loop_idle B o : no_merge_from 0 B o -> forall l, (forall p, In p l -> S p < length B) ->
    foldM join_kept l (gshape len (gall B), pos 0 B, o, mp 0 B o) = Ok (gshape len (gall B), pos 0 B, o, mp 0 B o).
  Proof.
    intros Hn. induction l as [|p l IH]; intros Hl; [reflexivity|]. cbn [foldM]. rewrite join_kept_idle; [|apply Hl; left; reflexivity|apply Hn; lia].
    cbn [bind]. apply IH. intros q Hq. apply Hl. right. exact Hq.
  Qed.

  (** *** the whole function *)
  Lemma optimize_blocks {F} B r o (f : F) : Permutation r (pos 0 B) -> Permutation o (seq 0 (cnt B)) ->
    exists B' o', optimize_transformation (gshape len (gall B)) r o f = Ok (gshape len (gall B'), pos 0 B', o', f) /\
      alike B o B' o' /\ Permutation o' (seq 0 (cnt B')) /\ adjacent_below 0 B' /\ no_merge_from 0 B' o'.
  Proof.
    intros Hr Ho. unfold optimize_transformation.
    assert (Hl : length o + length r = length B).
    { rewrite (Permutation_length Hr), (Permutation_length Ho), seq_length. assert (X := pos_count B). lia. }
    assert (Hs : length (gshape len (gall B)) = length B) by (unfold gshape, gall; rewrite !map_length; reflexivity).
    rewrite Hs, Hl, Nat.eqb_refl. cbn [negb raise_if bind]. rewrite (sort_pos r B Hr).
    destruct (first_loop o (length (pos 0 B) - 1) B) as (B1 & E1 & S1 & A1 & K1).
    - lia.
    - intros C1 g1 g2 C2 ->. rewrite pos_app, app_length. cbn. lia.
    - rewrite E1. cbn [bind]. assert (Hs1 : length (gshape len (gall B1)) = length B1) by (unfold gshape, gall; rewrite !map_length; reflexivity). rewrite Hs1.
      assert (Ho1 : Permutation o (seq 0 (cnt B1))) by (unfold cnt; rewrite K1; exact Ho). rewrite (build_mapping_blocks B1 o Ho1). cbn [bind].
      destruct (second_loop (length B1 - 1) B1 o) as (B2 & o2 & E2 & S2 & P2 & A2 & N2).
      + lia.
      + exact Ho1.
      + exact A1.
      + intros q Hq (C1 & g1 & g2 & C2 & p1 & p2 & -> & L & _). rewrite app_length in Hq. cbn in Hq. lia.
      + rewrite E2. cbn [bind]. exists B2, o2. split; [reflexivity|]. split; [eapply alike_trans; eauto|]. auto.
  Qed.

  Lemma optimize_idle {F} B o (f : F) : Permutation o (seq 0 (cnt B)) -> adjacent_below 0 B -> no_merge_from 0 B o ->
    optimize_transformation (gshape len (gall B)) (pos 0 B) o f = Ok (gshape len (gall B), pos 0 B, o, f).
  Proof.
    intros Ho Ha Hn. unfold optimize_transformation.
    assert (Hs : length (gshape len (gall B)) = length B) by (unfold gshape, gall; rewrite !map_length; reflexivity).
    assert (Hl : length o + length (pos 0 B) = length B).
    { rewrite (Permutation_length Ho), seq_length. assert (X := pos_count B). lia. }
    rewrite Hs, Hl, Nat.eqb_refl. cbn [negb raise_if bind]. rewrite (sort_pos (pos 0 B) B (Permutation_refl _)).
    rewrite (first_loop_idle B Ha) by (intros i Hi; apply in_rev, in_seq in Hi; lia). cbn [bind].
    rewrite Hs, (build_mapping_blocks B o Ho). cbn [bind].
    rewrite (second_loop_idle B o Hn) by (intros i Hi; apply in_rev, in_seq in Hi; lia). reflexivity.
  Qed.
End Loops.

(** ** any sensible input *)
Definition first_blocks (n : nat) (r : list nat) : list block := map (fun k => (nat_mem k r, [k])) (seq 0 n).
Lemma first_gall n r : gall (first_blocks n r) = map (fun k => [k]) (seq 0 n).
Proof. unfold gall, first_blocks. rewrite map_map. reflexivity. Qed.
Lemma concat_singles (l : list nat) : concat (map (fun k => [k]) l) = l.
Proof. induction l as [|x l IH]; [reflexivity|]. cbn. rewrite IH. reflexivity. Qed.
Lemma first_shape s r : gshape (fun k => nth k s 0) (gall (first_blocks (length s) r)) = s.
Proof.
  rewrite first_gall. unfold gshape. rewrite map_map. apply list_ext. intros i. destruct (Nat.lt_ge_cases i (length s)) as [H|H].
  - erewrite map_nth_error by (apply nth_error_seq; exact H). cbn. rewrite Nat.mul_1_r. symmetry. apply nth_error_nth'. exact H.
  - transitivity (@None nat); [|symmetry]; apply nth_error_None; rewrite ?map_length, ?seq_length; exact H.
Qed.
Lemma first_pos n r a : In a (pos 0 (first_blocks n r)) <-> a < n /\ In a r.
Proof.
  unfold first_blocks. assert (G : forall m k, In a (pos k (map (fun k => (nat_mem k r, [k])) (seq k m))) <-> k <= a < k + m /\ In a r).
  { induction m as [|m IH]; intros k; [cbn; lia|]. cbn [seq map pos]. destruct (nat_mem k r) eqn:E; cbn [In]; rewrite IH.
    - apply nat_mem_In in E. split; [intros [<-|H]; [split; [lia|exact E]|split; [lia|tauto]]|].
      intros [H1 H2]. destruct (Nat.eq_dec k a); [left; assumption|right; split; [lia|exact H2]].
    - split; [intros [H1 H2]; split; [lia|exact H2]|]. intros [H1 H2]. split; [|exact H2].
      destruct (Nat.eq_dec k a) as [->|]; [|lia]. apply nat_mem_In in H2. congruence. }
  rewrite G. split; intros [H1 H2]; (split; [lia|exact H2]).
Qed.

Lemma marked_of {len : nat -> nat} B o : NoDup (concat (gall B)) -> Permutation o (seq 0 (cnt B)) -> well_marked B (pos 0 B) o.
Proof.
  intros Hn Ho. split; [exact Hn|]. split; [apply pos_NoDup|]. split; [intros a Ha; apply pos_ge in Ha; lia|]. split; [apply pos_mask|exact Ho].
Qed.

Lemma pos_flag B1 b g B2 : In (length B1) (pos 0 (B1 ++ (b, g) :: B2)) <-> b = true.
Proof.
  rewrite pos_app. cbn [pos Nat.add]. rewrite in_app_iff. destruct b.
  - split; [reflexivity|]. intros _. right. left. reflexivity.
  - split; [|discriminate]. intros [H|H]; apply pos_ge in H; lia.
Qed.
Lemma joined_of len B o : adjacent_below 0 B -> no_merge_from 0 B o -> fully_joined (gshape len (gall B)) (pos 0 B) o.
Proof.
  intros Ha Hn.
  assert (D : forall a, S a < length B -> exists B1 b1 g1 b2 g2 B2, B = B1 ++ (b1, g1) :: (b2, g2) :: B2 /\ length B1 = a).
  { intros a H. destruct (at_position B a ltac:(lia)) as (B1 & b1 & g1 & [|[b2 g2] B2] & E & L).
    - rewrite E, app_length in H. cbn in H. lia.
    - exists B1, b1, g1, b2, g2, B2. split; assumption. }
  assert (F : forall B1 b1 g1 b2 g2 B2, B = B1 ++ (b1, g1) :: (b2, g2) :: B2 ->
    (In (length B1) (pos 0 B) <-> b1 = true) /\ (In (S (length B1)) (pos 0 B) <-> b2 = true)).
  { intros B1 b1 g1 b2 g2 B2 ->. split; [apply pos_flag|].
    replace (S (length B1)) with (length (B1 ++ [(b1, g1)])) by (rewrite app_length; cbn; lia).
    replace (B1 ++ (b1, g1) :: (b2, g2) :: B2) with ((B1 ++ [(b1, g1)]) ++ (b2, g2) :: B2) by (rewrite <- app_assoc; reflexivity). apply pos_flag. }
  split.
  - intros a H1 H2. assert (L := pos_ge _ _ _ H2). destruct (D a ltac:(lia)) as (B1 & b1 & g1 & b2 & g2 & B2 & E & <-).
    destruct (F _ _ _ _ _ _ E) as [F1 F2]. apply F1 in H1. apply F2 in H2. subst b1 b2. assert (X := Ha _ _ _ _ E). lia.
  - intros a o1 o2 L H1 H2. cbv zeta. intros Eo.
    assert (Ls : length (gshape len (gall B)) = length B) by (unfold gshape, gall; rewrite !map_length; reflexivity). rewrite Ls in L.
    destruct (D a L) as (B1 & b1 & g1 & b2 & g2 & B2 & E & <-). destruct (F _ _ _ _ _ _ E) as [F1 F2].
    destruct b1; [exfalso; apply H1, F1; reflexivity|]. destruct b2; [exfalso; apply H2, F2; reflexivity|].
    apply (Hn (length B1)); [lia|]. exists B1, g1, g2, B2, o1, o2. split; [exact E|]. split; [reflexivity|].
    rewrite E, kept_before in Eo. exact Eo.
Qed.

Lemma optimize_correct {F} s r o (f : F) : sensible s r o ->
  exists s' r' o', optimize_transformation s r o f = Ok (s', r', o', f) /\
    sensible s' r' o' /\ prodn s' = prodn s /\ fully_joined s' r' o' /\
    (forall A lib (red : list A -> result A) x, wf x -> flat_result lib red x s' r' o' = flat_result lib red x s r o) /\
    optimize_transformation s' r' o' f = Ok (s', r', o', f).
Proof.
  intros (Hl & Hr & Hlt & Ho). set (len := fun k => nth k s 0). set (B := first_blocks (length s) r).
  assert (Pr : Permutation r (pos 0 B)).
  { apply NoDup_Permutation; [exact Hr|apply pos_NoDup|]. intros a. unfold B. rewrite first_pos. split; [intros H; split; [apply Hlt, H|exact H]|tauto]. }
  assert (LB : length B = length s) by (unfold B, first_blocks; rewrite map_length, seq_length; reflexivity).
  assert (Hc : length o = cnt B) by (assert (X := pos_count B); rewrite <- (Permutation_length Pr) in X; lia).
  rewrite Hc in Ho. assert (Es : gshape len (gall B) = s) by apply first_shape.
  destruct (optimize_blocks len B r o f Pr Ho) as (B' & o' & E & S1 & P & A1 & N1). rewrite Es in E.
  assert (NB : NoDup (concat (gall B))) by (unfold B; rewrite first_gall, concat_singles; apply seq_NoDup).
  assert (NB' : NoDup (concat (gall B'))) by (destruct S1 as (<- & _); exact NB).
  exists (gshape len (gall B')), (pos 0 B'), o'. split; [exact E|]. split; [|split; [|split; [|split]]].
  - assert (Ls : length (gshape len (gall B')) = length B') by (unfold gshape, gall; rewrite !map_length; reflexivity).
    assert (X := pos_count B'). assert (Lo : length o' = cnt B') by (rewrite (Permutation_length P), seq_length; reflexivity).
    unfold sensible. rewrite Ls, Lo. split; [lia|]. split; [apply pos_NoDup|]. split; [intros a Ha; apply pos_ge in Ha; lia|exact P].
  - transitivity (prodn (gshape len (gall B))); [|rewrite Es; reflexivity]. rewrite !prodn_gshape. destruct S1 as (-> & _). reflexivity.
  - apply joined_of; assumption.
  - intros A lib red x Hx. rewrite <- Es. destruct S1 as (E1 & E2 & E3 & E4). symmetry. apply flat_same; auto.
    + split; [exact NB|]. split; [exact Hr|]. split; [rewrite LB; exact Hlt|]. split; [|exact Ho].
      rewrite LB. unfold B, first_blocks. rewrite map_map. reflexivity.
    + apply (@marked_of len); assumption.
  - apply optimize_idle; assumption.
Qed.
