(** * einsum: one more axis on both sides *)
From Verif Require Import Py Tensor ListFacts TensorFacts SpecSem SpecGrammar SpecForms SpecBatch SpecBatches Parsing Recipe Ops Backends Einsum Api StepFacts ReduceFacts BatchFacts EinsumFacts EinsumFacts2 EinsumFacts3 EinsumFacts4 EinsumLaws EinsumLaws2 EinsumLaws4 GradFacts SpecEinsum.

Lemma to_term_app l m : to_term (l ++ m) = to_term l ++ to_term m.
Proof. apply map_app. Qed.
Lemma term_labs_app e (t u : term (X := pystr)) : term_labs e (t ++ u) = term_labs e t ++ term_labs e u.
Proof. unfold term_labs. rewrite !flat_map_concat_map, map_app, concat_app. reflexivity. Qed.
Lemma term_names_app (t u : term (X := pystr)) : term_names (t ++ u) = term_names t ++ term_names u.
Proof. unfold term_names. rewrite !flat_map_concat_map, map_app, concat_app. reflexivity. Qed.
Lemma term_dots_app (t u : term (X := pystr)) : term_dots (t ++ u) = term_dots t + term_dots u.
Proof. unfold term_dots. rewrite filter_app, app_length. reflexivity. Qed.
Lemma combine_ins {X Y} (l1 l2 : list X) (b : X) (s : list Y) (n : Y) p : length l1 <= length s ->
  In p (combine (l1 ++ b :: l2) (firstn (length l1) s ++ n :: skipn (length l1) s)) <-> p = (b, n) \/ In p (combine (l1 ++ l2) s).
Proof.
  revert s. induction l1 as [|a l1 IH]; intros s H.
  - cbn. split; [intros [<-|X0]|intros [->|X0]]; auto.
  - destruct s as [|d s]; [cbn in H; lia|]. cbn [length firstn skipn app combine In]. rewrite IH by (cbn in H; lia). tauto.
Qed.

Section Operand.
  Context {A : Type} (zero : A) (b : pystr) (i : nat) (len : lab pystr -> nat) (L1 L2 : list entry) (X x : tensor A).
  Notation t := (to_term (L1 ++ L2)).
  Notation t' := (to_term (L1 ++ EName b :: L2)).
  Notation l1 := (term_labs (spare t x) (to_term L1)).
  Notation l2 := (term_labs (spare t x) (to_term L2)).
  Hypothesis HS : slice_of (length l1) i X x.
  Lemma op_spare : spare t' X = spare t x.
  Proof.
    destruct HS as (_ & _ & Hk & (n & _ & E) & _). unfold spare at 1. rewrite E, ins_length by exact Hk.
    unfold spare. rewrite !to_term_app. cbn [to_term map]. fold (to_term L2). rewrite !term_names_app. cbn [term_names flat_map app]. fold (term_names (to_term L2)).
    rewrite !app_length. cbn [length app]. rewrite Nat.add_succ_r. reflexivity.
  Qed.
  Lemma op_labs : operand_labs t x = l1 ++ l2.
  Proof. unfold operand_labs. rewrite (to_term_app L1 L2) at 2. apply term_labs_app. Qed.
  Lemma op_labs' : operand_labs t' X = l1 ++ LName b :: l2.
  Proof. unfold operand_labs. rewrite op_spare. rewrite (to_term_app L1 (EName b :: L2)), term_labs_app. reflexivity. Qed.
  Lemma op_fits : operand_fits len t' X -> operand_fits len t x /\ i < len (LName b).
  Proof.
    intros (Hw & Hd & F). rewrite op_labs' in F. pose proof HS as (_ & Wx & Hk & (n & Hi & E) & _). rewrite E in F.
    apply Forall2_split in F as [F1 F2]; [|rewrite firstn_length; lia]. inversion F2 as [|? ? ? ? Hn F2' ]; subst. cbn in Hn. subst n. split; [|exact Hi].
    split; [exact Wx|]. split.
    - rewrite !to_term_app in *. rewrite term_dots_app in *. exact Hd.
    - rewrite op_labs. rewrite <- (firstn_skipn (length l1) (shp x)). apply Forall2_app; assumption.
  Qed.
  Lemma op_element (ix : lab pystr -> nat) : operand_fits len t' X -> ix (LName b) = i -> element_at zero ix t' X = element_at zero ix t x.
  Proof.
    intros H Hi. destruct (op_fits H) as [(_ & _ & F) Hl]. destruct H as (_ & _ & F'). rewrite op_labs' in F'.
    unfold element_at. rewrite op_labs', op_labs. rewrite op_labs in F. pose proof HS as (_ & _ & Hk & (n & Hn & E) & Hg).
    set (f := fun (l : lab pystr) d => if d =? 1 then 0 else ix l).
    assert (Em : length (map2 f (l1 ++ l2) (shp x)) = length (shp x)).
    { apply Forall2_length in F. clear -F. revert F. generalize (l1 ++ l2) (shp x). induction l as [|a l IH]; intros [|d s] F; cbn in *; try lia. rewrite IH; lia. }
    rewrite Hg by exact Em. rewrite E.
    match goal with |- match get X ?u with _ => _ end = match get X ?v with _ => _ end => replace v with u; [reflexivity|] end.
    clear -Hk Hi Hn. revert Hk. generalize (shp x). generalize l2 as m2. induction l1 as [|a m1 IH]; intros m2 s Hk.
    - cbn [length firstn skipn app map2]. f_equal. unfold f. destruct (n =? 1) eqn:E1; [apply Nat.eqb_eq in E1; lia|exact Hi].
    - destruct s as [|d s]; [cbn in Hk; lia|]. cbn [length firstn skipn app map2]. f_equal. apply IH. cbn in Hk. lia.
  Qed.
End Operand.

Section Call.
  Context {A : Type}.
  Context (b : pystr) (i : nat).

  Lemma batch_spare Ls Ls' (xs Xs : list (tensor A)) : batch_of b i Ls Ls' xs Xs -> map2 spare (map to_term Ls') Xs = map2 spare (map to_term Ls) xs.
  Proof. induction 1 as [|L x Ls Ls' xs Xs _ IH|L1 L2 x X Ls Ls' xs Xs HS _ IH]; cbn [map map2]; [reflexivity|now rewrite IH|]. rewrite IH, (op_spare _ _ _ _ _ _ HS). reflexivity. Qed.
  Lemma batch_labs Ls Ls' (xs Xs : list (tensor A)) : batch_of b i Ls Ls' xs Xs -> forall l, l <> LName b ->
    In l (all_labs (map to_term Ls') Xs) <-> In l (all_labs (map to_term Ls) xs).
  Proof.
    unfold all_labs. intros H l Hl. induction H as [|L x Ls Ls' xs Xs _ IH|L1 L2 x X Ls Ls' xs Xs HS _ IH]; cbn [map map2 concat]; [tauto| |].
    - rewrite !in_app_iff. tauto.
    - rewrite (in_app_iff (operand_labs _ X)), (in_app_iff (operand_labs _ x)), IH, (op_labs' _ _ _ _ _ _ HS), op_labs, !in_app_iff. cbn [In].
      split; intros H; repeat (destruct H as [H|H]; auto); congruence.
  Qed.
  Lemma batch_names Ls Ls' (xs Xs : list (tensor A)) : batch_of b i Ls Ls' xs Xs -> forall s, s <> b -> In s (all_names Ls') <-> In s (all_names Ls).
  Proof.
    unfold all_names. intros H s Hs. induction H as [|L x Ls Ls' xs Xs _ IH|L1 L2 x X Ls Ls' xs Xs HS _ IH]; cbn [flat_map]; [tauto| |].
    - rewrite !in_app_iff. tauto.
    - rewrite !in_app_iff, IH, <- !to_term_names, !to_term_app, !term_names_app. cbn [to_term map term_names flat_map app]. fold (to_term L2). fold (term_names (to_term L2)).
      rewrite !in_app_iff. cbn [In]. split; intros H; repeat (destruct H as [H|H]; auto); congruence.
  Qed.
  Lemma batch_fits (len : lab pystr -> nat) Ls Ls' (xs Xs : list (tensor A)) : batch_of b i Ls Ls' xs Xs -> Forall2 (operand_fits len) (map to_term Ls') Xs -> Forall2 (operand_fits len) (map to_term Ls) xs.
  Proof.
    induction 1 as [|L x Ls Ls' xs Xs _ IH|L1 L2 x X Ls Ls' xs Xs HS _ IH]; cbn [map]; intros F; inversion F; subst; constructor; auto.
    eapply op_fits; eauto.
  Qed.
  Lemma batch_index (len : lab pystr -> nat) Ls Ls' (xs Xs : list (tensor A)) : batch_of b i Ls Ls' xs Xs -> Forall2 (operand_fits len) (map to_term Ls') Xs -> In b (all_names Ls') -> ~ In b (all_names Ls) -> i < len (LName b).
  Proof.
    unfold all_names. induction 1 as [|L x Ls Ls' xs Xs _ IH|L1 L2 x X Ls Ls' xs Xs HS _ IH]; cbn [map flat_map]; intros F; inversion F; subst.
    - intros [].
    - rewrite !in_app_iff. intros [HA|HA] HB; [tauto|]. apply IH; auto.
    - intros _ _. eapply op_fits; eauto.
  Qed.
  Lemma batch_none_in Ls Ls' (xs Xs : list (tensor A)) : batch_of b i Ls Ls' xs Xs -> In None (concat (map to_term Ls')) <-> In None (concat (map to_term Ls)).
  Proof.
    induction 1 as [|L x Ls Ls' xs Xs _ IH|L1 L2 x X Ls Ls' xs Xs HS _ IH]; cbn [map concat]; [tauto| |].
    - rewrite !in_app_iff. tauto.
    - rewrite !to_term_app, !in_app_iff, IH. cbn [to_term map In]. split; intros H; repeat (destruct H as [H|H]; auto); try discriminate.
  Qed.
  Lemma batch_dots (len : lab pystr -> nat) Ls Ls' (xs Xs : list (tensor A)) : batch_of b i Ls Ls' xs Xs -> forall k,
    (exists t x, In (t, x) (combine (map to_term Ls') Xs) /\ In (LDot k, len (LDot k)) (combine (operand_labs t x) (shp x))) ->
    exists t x, In (t, x) (combine (map to_term Ls) xs) /\ In (LDot k, len (LDot k)) (combine (operand_labs t x) (shp x)).
  Proof.
    intros H k. induction H as [|L x Ls Ls' xs Xs _ IH|L1 L2 x X Ls Ls' xs Xs HS _ IH]; cbn [map combine In]; intros (t & y & Hin & Hk).
    - destruct Hin.
    - destruct Hin as [Hin|Hin]; [injection Hin as <- <-; exists (to_term L), x; auto|]. destruct IH as (t0 & y0 & H1 & H2); [exists t, y; auto|]. exists t0, y0. auto.
    - destruct Hin as [Hin|Hin].
      + injection Hin as <- <-. exists (to_term (L1 ++ L2)), x. split; [left; reflexivity|].
        rewrite (op_labs' _ _ _ _ _ _ HS) in Hk. rewrite op_labs. pose proof HS as (_ & _ & Hl & (n & _ & E) & _). rewrite E in Hk. apply combine_ins in Hk; [|exact Hl].
        destruct Hk as [Hk|Hk]; [discriminate|exact Hk].
      + destruct IH as (t0 & y0 & H1 & H2); [exists t, y; auto|]. exists t0, y0. auto.
  Qed.
  Lemma batch_product (len : lab pystr -> nat) (mul : A -> A -> A) (zero one : A) Ls Ls' (xs Xs : list (tensor A)) : batch_of b i Ls Ls' xs Xs -> Forall2 (operand_fits len) (map to_term Ls') Xs ->
    forall ix, ix (LName b) = i -> product_at mul zero one ix (map to_term Ls') Xs = product_at mul zero one ix (map to_term Ls) xs.
  Proof.
    unfold product_at. induction 1 as [|L x Ls Ls' xs Xs _ IH|L1 L2 x X Ls Ls' xs Xs HS _ IH]; cbn [map map2 fold_right]; intros F ix Hi; inversion F; subst.
    - reflexivity.
    - rewrite IH by auto. reflexivity.
    - rewrite IH by auto. rewrite (op_element zero _ _ len _ _ _ _ HS); auto.
  Qed.
End Call.
Arguments batch_spare {A b i Ls Ls' xs Xs}.
Arguments batch_labs {A b i Ls Ls' xs Xs}.
Arguments batch_names {A b i Ls Ls' xs Xs}.
Arguments batch_fits {A b i len Ls Ls' xs Xs}.
Arguments batch_index {A b i len Ls Ls' xs Xs}.
Arguments batch_none_in {A b i Ls Ls' xs Xs}.
Arguments batch_dots {A b i len Ls Ls' xs Xs}.

Section Law.
  Context {A : Type} (U : unicode) (HU : unicode_ok U) (add mul : A -> A -> A) (zero one : A).
  Hypothesis addC : forall a b, add a b = add b a.
  Hypothesis addA : forall a b c, add a (add b c) = add (add a b) c.
  Context (lib : pystr -> list (tensor A) -> result (tensor A)) (HL : einsum_contract add mul zero one lib).

  Lemma batch_good b i len Ls Ls' R1 R2 (xs Xs : list (tensor A)) : batch_of b i Ls Ls' xs Xs -> ~ In b (all_names Ls) ->
    good_call len (map to_term Ls') (to_term (R1 ++ EName b :: R2)) Xs -> good_call len (map to_term Ls) (to_term (R1 ++ R2)) xs /\ i < len (LName b).
  Proof.
    intros HB Hb (F & Nd & Inc & Hd & Hn & Hk).
    assert (EN : term_names (to_term (R1 ++ EName b :: R2)) = term_names (to_term R1) ++ b :: term_names (to_term R2)) by (now rewrite to_term_app, term_names_app).
    assert (EN' : term_names (to_term (R1 ++ R2)) = term_names (to_term R1) ++ term_names (to_term R2)) by (now rewrite to_term_app, term_names_app).
    rewrite to_terms_names in Inc. rewrite EN in Nd, Inc. split.
    - split; [exact (batch_fits HB F)|]. rewrite to_terms_names, EN'. split; [exact (NoDup_remove_1 _ _ _ Nd)|]. split; [|split; [|split]].
      + intros s Hs. apply (batch_names HB). { intros ->. exact (NoDup_remove_2 _ _ _ Nd Hs). } apply Inc. apply in_app_iff in Hs. apply in_app_iff. cbn [In]. tauto.
      + rewrite to_term_app, term_dots_app in *. exact Hd.
      + intros H. apply (batch_none_in HB) in H. apply Hn in H. rewrite to_term_app, in_app_iff in *. cbn [to_term map In] in H. destruct H as [H|[H|H]]; auto. discriminate.
      + intros k H. apply (batch_dots HB). apply Hk. rewrite (batch_spare HB). exact H.
    - apply (batch_index HB F); [|exact Hb]. apply Inc. apply in_app_iff. right. left. reflexivity.
  Qed.

  Theorem einsum_batch p p' b i len Ls Ls' R1 R2 (xs Xs : list (tensor A)) :
    einsum_reads U p Ls (R1 ++ R2) -> einsum_reads U p' Ls' (R1 ++ EName b :: R2) ->
    batch_of b i Ls Ls' xs Xs -> ~ In b (all_names Ls) -> length (distinct (all_names Ls')) <= 52 ->
    good_call len (map to_term Ls') (to_term (R1 ++ EName b :: R2)) Xs ->
    exists Y y, einsum_with U lib (map inl Xs ++ [inr p']) = Ok Y /\ einsum_with U lib (map inl xs ++ [inr p]) = Ok y /\
      slice_of (length (term_labs (list_max (map2 spare (map to_term Ls) xs)) (to_term R1))) i Y y /\
      count_at (length (term_labs (list_max (map2 spare (map to_term Ls) xs)) (to_term R1))) Y = len (LName b).
  Proof.
    intros Hr Hr' HB Hb H52 Hg. destruct (batch_good _ _ _ _ _ _ _ _ _ HB Hb Hg) as [Hg0 Hi].
    assert (H52' : length (distinct (all_names Ls)) <= 52).
    { etransitivity; [|exact H52]. apply NoDup_incl_length; [apply distinct_NoDup|]. intros s Hs. apply (proj1 (distinct_In _ _)) in Hs. apply (proj2 (distinct_In _ _)).
      apply (batch_names HB); [|exact Hs]. intros ->. auto. }
    destruct (einsum_formula U HU add mul zero one addC addA lib p' Ls' _ Xs len HL Hr' H52 Hg) as (Y & EY & FY).
    destruct (einsum_formula U HU add mul zero one addC addA lib p Ls _ xs len HL Hr H52' Hg0) as (y & Ey & Fy).
    exists Y, y. split; [exact EY|]. split; [exact Ey|].
    destruct (summed_exists (map to_term Ls) (to_term (R1 ++ R2)) xs) as (ms & Hms).
    set (e := list_max (map2 spare (map to_term Ls) xs)). set (o1 := term_labs e (to_term R1)). set (o2 := term_labs e (to_term R2)).
    assert (Eo : out_labs (map to_term Ls) xs (to_term (R1 ++ R2)) = o1 ++ o2) by (unfold out_labs; fold e; now rewrite to_term_app, term_labs_app).
    assert (Eo' : out_labs (map to_term Ls') Xs (to_term (R1 ++ EName b :: R2)) = o1 ++ LName b :: o2).
    { unfold out_labs. rewrite (batch_spare HB). fold e. now rewrite to_term_app, term_labs_app. }
    assert (Nb : ~ In (LName b) (all_labs (map to_term Ls) xs)).
    { unfold all_labs. intros H. apply in_concat in H as (l & Hl & H). apply Hb. clear -Hl H HB. revert xs HB Hl. revert Ls' Xs. unfold all_names. induction Ls as [|L Ls IH]; intros Ls' Xs [|x xs] HB Hl; cbn in Hl; try tauto.
      cbn. apply in_app_iff. destruct Hl as [<-|Hl].
      - left. apply term_labs_name in H. rewrite to_term_names in H. exact H.
      - right. inversion HB; subst; eapply IH; eauto. }
    destruct Hms as [Nm Hms].
    assert (Hms' : summed (map to_term Ls') (to_term (R1 ++ EName b :: R2)) Xs ms).
    { split; [exact Nm|]. intros l. rewrite Hms, Eo, Eo'. destruct (slab_dec l (LName b)) as [->|D].
      - split; [intros [H _]; tauto|intros [_ H]; destruct H; apply in_app_iff; right; left; reflexivity].
      - rewrite (batch_labs HB l D), !in_app_iff. cbn [In]. split; intros [H1 H2]; (split; [exact H1|]); intros H; apply H2; repeat (destruct H as [H|H]; auto); congruence. }
    specialize (FY ms Hms'). specialize (Fy ms (conj Nm Hms)). destruct FY as (WY & SY & GY). destruct Fy as (Wy & Sy & Gy). rewrite Eo' in SY, GY. rewrite Eo in Sy, Gy.
    assert (Hk : length o1 <= length (shp y)) by (rewrite Sy, map_length, app_length; lia).
    assert (ES : shp Y = firstn (length o1) (shp y) ++ len (LName b) :: skipn (length o1) (shp y)).
    { rewrite SY, Sy, !map_app. cbn [map]. rewrite <- (map_length len o1). now rewrite ins_app. }
    split; [|unfold count_at; rewrite ES; apply (proj1 (put_back (length o1) (len (LName b)) (shp y) Hk))].
    split; [exact WY|]. split; [exact Wy|]. split; [exact Hk|]. split; [exists (len (LName b)); auto|].
    intros idx El. destruct (inb (shp y) idx) eqn:Ei.
    - (* within *)
      assert (No : NoDup (o1 ++ LName b :: o2)).
      { rewrite <- Eo'. destruct Hg as (_ & H1 & _ & H2 & _). apply term_labs_NoDup; auto. }
      assert (ND := NoDup_remove_1 _ _ _ No). assert (NI := NoDup_remove_2 _ _ _ No).
      rewrite Sy in Ei. rewrite Sy, map_length in El.
      set (ix := fun l => if slab_dec l (LName b) then i else asg (fun _ => 0) (o1 ++ o2) idx l).
      assert (E2 : map ix (o1 ++ o2) = idx).
      { etransitivity; [|exact (assign_map (lab_eqb str_eqb) slab_eq (fun _ => 0) (o1 ++ o2) idx ND El)]. apply map_ext_in. intros l Hl. unfold ix. destruct (slab_dec l (LName b)) as [->|D]; [tauto|reflexivity]. }
      assert (Eb : ix (LName b) = i) by (unfold ix; destruct (slab_dec (LName b) (LName b)); congruence).
      assert (Wx : within len ix (o1 ++ o2)).
      { intros l Hl. rewrite <- E2 in Ei. exact (proj1 (inb_within len ix _) Ei l Hl). }
      assert (WX : within len ix (o1 ++ LName b :: o2)).
      { intros l Hl. apply in_app_iff in Hl as [Hl|[<-|Hl]]; [apply Wx, in_app_iff; auto|rewrite Eb; exact Hi|apply Wx, in_app_iff; auto]. }
      rewrite <- E2. rewrite (Gy ix Wx).
      replace (firstn (length o1) (map ix (o1 ++ o2)) ++ i :: skipn (length o1) (map ix (o1 ++ o2))) with (map ix (o1 ++ LName b :: o2)).
      2:{ rewrite !map_app. cbn [map]. rewrite Eb. rewrite <- (map_length ix o1). symmetry. apply ins_app. }
      rewrite (GY ix WX). f_equal. f_equal. apply map_ext_in. intros v Hv. symmetry. apply (batch_product b i len mul zero one _ _ _ _ HB); [apply Hg|].
      rewrite assign_out; [exact Eb|exact slab_eq|]. intros H. apply Hms in H. tauto.
    - unfold get. rewrite Ei, ES. rewrite ins_inb by auto. rewrite Ei, andb_false_r. reflexivity.
  Qed.
End Law.
