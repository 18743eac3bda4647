(** * einsum in pieces *)
From Verif Require Import Py Tensor ListFacts TensorFacts SpecSem SpecGrammar SpecForms SpecBatch SpecBatches Parsing Recipe Ops Backends Einsum Api StepFacts ReduceFacts BatchFacts EinsumFacts EinsumFacts2 EinsumFacts3 EinsumFacts4 EinsumLaws EinsumLaws2 EinsumLaws4 GradFacts EinsumBatch ChunkFacts SpecEinsum SpecChunks.

Section Pieces.
  Context {A : Type} (b : pystr).
  Notation lb := (SpecEinsum.LName b).

  (** a name with another length *)
  Definition resize (len : lab pystr -> nat) (n : nat) : lab pystr -> nat := fun l => if slab_dec l lb then n else len l.
  Definition resized (n : nat) (t : term) (X X' : tensor A) : Prop :=
    wf X' /\ shp X' = map2 (fun l d => if slab_dec l lb then n else d) (operand_labs t X) (shp X).
  Inductive resized_all (n : nat) : list (term (X := pystr)) -> list (tensor A) -> list (tensor A) -> Prop :=
  | rs_none : resized_all n [] [] []
  | rs_more t X X' Ts Xs Xs' : resized n t X X' -> resized_all n Ts Xs Xs' -> resized_all n (t :: Ts) (X :: Xs) (X' :: Xs').

  Lemma map2_length {B C D} (f : B -> C -> D) l m : length l = length m -> length (map2 f l m) = length m.
  Proof. revert m. induction l as [|a l IH]; intros [|c m] H; cbn in *; try lia. rewrite IH; lia. Qed.
  Lemma resized_spare n t X X' len : operand_fits len t X -> resized n t X X' -> spare t X' = spare t X /\ operand_labs t X' = operand_labs t X.
  Proof.
    intros (_ & _ & F) [_ E]. apply Forall2_length in F. assert (S : spare t X' = spare t X) by (unfold spare; rewrite E, map2_length by exact F; reflexivity).
    split; [exact S|]. unfold operand_labs. now rewrite S.
  Qed.
  Lemma resized_fits n t X X' len : operand_fits len t X -> resized n t X X' -> operand_fits (resize len n) t X'.
  Proof.
    intros H R. destruct (resized_spare n t X X' len H R) as [_ EL]. destruct H as (_ & Hd & F). destruct R as [W E]. split; [exact W|]. split; [exact Hd|].
    rewrite EL, E. clear - F. induction F as [|l d ls s H F IH]; [constructor|]. cbn [map2]. constructor; [|exact IH].
    unfold resize. destruct l as [a|j]; cbn [dim_fits] in *.
    - destruct (slab_dec (SpecEinsum.LName a) lb); [reflexivity|exact H].
    - destruct (slab_dec (LDot j) lb); [discriminate|exact H].
  Qed.
  Lemma combine_resized n (ls : list (lab pystr)) (s : list nat) j (d : nat) : In (LDot j, d) (combine ls s) ->
    In (LDot j, d) (combine ls (map2 (fun l d => if slab_dec l lb then n else d) ls s)).
  Proof.
    revert s. induction ls as [|l ls IH]; intros [|d0 s] H; cbn [combine map2 In] in *; try tauto. destruct H as [H|H]; [left|right; auto].
    injection H as -> ->. destruct (slab_dec (LDot j) lb); [discriminate|reflexivity].
  Qed.
  Lemma resized_good n Ts R Xs Xs' len : resized_all n Ts Xs Xs' -> good_call len Ts R Xs -> good_call (resize len n) Ts R Xs'.
  Proof.
    intros HR (F & G2 & G3 & G4 & G5 & G6).
    assert (SP : map2 spare Ts Xs' = map2 spare Ts Xs).
    { clear - HR F. induction HR as [|t X X' Ts Xs Xs' R HR IH]; [reflexivity|]. inversion F; subst. cbn [map2]. rewrite IH by assumption.
      f_equal. eapply resized_spare; eauto. }
    split; [|split; [exact G2|split; [exact G3|split; [exact G4|split; [exact G5|]]]]].
    - clear - HR F. induction HR as [|t X X' Ts Xs Xs' R HR IH]; [constructor|]. inversion F; subst. constructor; [eapply resized_fits; eauto|auto].
    - intros k Hk. rewrite SP in Hk. destruct (G6 k Hk) as (t & x & H1 & H2). clear - HR F H1 H2.
      induction HR as [|t0 X X' Ts Xs Xs' R HR IH]; [destruct H1|]. inversion F; subst. cbn [combine In] in H1. destruct H1 as [H1|H1].
      + injection H1 as -> ->. exists t, X'. split; [left; reflexivity|]. destruct (resized_spare n t x X' len) as [_ EL]; [assumption|assumption|].
        rewrite EL. destruct R as [_ E]. rewrite E. unfold resize. destruct (slab_dec (LDot k) lb); [discriminate|]. now apply combine_resized.
      + destruct IH as (t1 & x1 & K1 & K2); [assumption|assumption|]. exists t1, x1. split; [right; exact K1|exact K2].
  Qed.

  Lemma map2_same n (ls : list (lab pystr)) (s : list nat) : ~ In lb ls -> length ls = length s -> map2 (fun l d => if slab_dec l lb then n else d) ls s = s.
  Proof.
    revert s. induction ls as [|l ls IH]; intros [|d s] H E; cbn in *; try lia; [reflexivity|]. destruct (slab_dec l lb) as [->|D]; [tauto|]. rewrite IH; auto; lia.
  Qed.
  Lemma map2_ins n N (l1 l2 : list (lab pystr)) (s : list nat) : ~ In lb (l1 ++ l2) -> length (l1 ++ l2) = length s ->
    map2 (fun l d => if slab_dec l lb then n else d) (l1 ++ lb :: l2) (firstn (length l1) s ++ N :: skipn (length l1) s) = firstn (length l1) s ++ n :: skipn (length l1) s.
  Proof.
    revert s. induction l1 as [|l l1 IH]; intros s H E.
    - cbn [length firstn skipn app map2] in *. destruct (slab_dec lb lb); [|congruence]. now rewrite map2_same.
    - destruct s as [|d s]; [discriminate|]. cbn [length firstn skipn app map2] in *. destruct (slab_dec l lb) as [->|D]; [destruct H; now left|].
      rewrite IH; [reflexivity|intros H1; apply H; now right|lia].
  Qed.

  Lemma nth_repeat_some {B} (x : B) q m : m < q -> nth_error (List.repeat x q) m = Some x.
  Proof. revert m. induction q as [|q IH]; intros [|m] H; cbn; try lia; [reflexivity|]. apply IH. lia. Qed.
  Lemma no_label L (x : tensor A) : ~ In b (entry_names L) -> ~ In lb (operand_labs (to_term L) x).
  Proof. intros H K. apply H. apply term_labs_name in K. rewrite to_term_names in K. exact K. Qed.
  Lemma names_more L1 L2 : entry_names (L1 ++ EName b :: L2) = entry_names L1 ++ b :: entry_names L2.
  Proof. rewrite <- !to_term_names, to_term_app, term_names_app. reflexivity. Qed.
  Lemma names_less L1 L2 : entry_names (L1 ++ L2) = entry_names L1 ++ entry_names L2.
  Proof. rewrite <- !to_term_names, to_term_app, term_names_app. reflexivity. Qed.

  Lemma spare_less L1 L2 (X x : tensor A) : length (shp X) = S (length (shp x)) -> spare (to_term (L1 ++ EName b :: L2)) X = spare (to_term (L1 ++ L2)) x.
  Proof. intros E. unfold spare. rewrite !to_term_names, names_more, names_less, !app_length, E. cbn [length]. lia. Qed.

  Lemma labs_more L1 L2 (X : tensor A) : operand_labs (to_term (L1 ++ EName b :: L2)) X =
    term_labs (spare (to_term (L1 ++ EName b :: L2)) X) (to_term L1) ++ lb :: term_labs (spare (to_term (L1 ++ EName b :: L2)) X) (to_term L2).
  Proof. unfold operand_labs. rewrite (to_term_app L1 (EName b :: L2)) at 2. rewrite term_labs_app. reflexivity. Qed.

  Variable ns : list nat.
  Notation total l := (list_sum l).

  (** slice [j] of piece [m] of every operand, and where it is in the operands *)
  Lemma laid_slice Ls Ls' (Xs : list (tensor A)) Ps m n j : laid b ns Ls Ls' Xs Ps -> nth_error ns m = Some n -> j < n ->
    exists Xm xs, piece m Ps Xm /\ batch_of b j Ls Ls' xs Xm /\ batch_of b (total (firstn m ns) + j) Ls Ls' xs Xs.
  Proof.
    intros HL Hm Hj. assert (Hlt : m < length ns) by (apply nth_error_Some; congruence).
    induction HL as [|L x Ls Ls' Xs Ps HL IH|L1 L2 k X P Ls Ls' Xs Ps Hk HX HP Hn HL IH].
    - exists [], []. repeat constructor.
    - destruct IH as (Xm & xs & I1 & I2 & I3). exists (x :: Xm), (x :: xs). split; [constructor; [now apply nth_repeat_some|exact I1]|]. split; constructor; assumption.
    - destruct IH as (Xm & xs & I1 & I2 & I3). destruct (concat_shapes _ _ _ HX) as (Hne & s & Hs & Hsh).
      destruct (concat_slices k s P Hne Hs) as (X2 & E2 & WX & SX & SL); [intros t Ht; split; [apply HP, Ht|apply Hsh, Ht]|].
      assert (X2 = X) by congruence. subst X2. clear E2. rewrite Hn in SX.
      rewrite <- Hn in Hm. destruct (nth_error P m) as [t|] eqn:Et; [|apply nth_error_None in Et; rewrite <- (map_length (count_at k)), Hn in Et; lia].
      assert (Ec : count_at k t = n) by (rewrite (map_nth_error _ _ _ Et) in Hm; congruence).
      destruct (SL m t j Et) as (x & Ex & S1 & S2); [lia|]. rewrite <- firstn_map, Hn in S2.
      assert (Ek : k = length (term_labs (spare (to_term (L1 ++ L2)) x) (to_term L1))).
      { rewrite Hk. f_equal. f_equal. apply spare_less. rewrite SX, Ex, ins_length by exact Hs. reflexivity. }
      exists (t :: Xm), (x :: xs). split; [constructor; [exact Et|exact I1]|]. rewrite Ek in S1, S2. split; apply batch_more; assumption.
  Qed.
  Lemma piece_fun m (Ps : list (list (tensor A))) Xm Xm' : piece m Ps Xm -> piece m Ps Xm' -> Xm = Xm'.
  Proof.
    intros F. revert Xm'. induction F as [|P x Ps xs E F IH]; intros Xm' F'; inversion F'; subst; [reflexivity|]. f_equal; [congruence|auto].
  Qed.

  Lemma laid_resized Ls Ls' (Xs : list (tensor A)) Ps m n len Xm : laid b ns Ls Ls' Xs Ps -> nth_error ns m = Some n -> piece m Ps Xm -> ~ In b (all_names Ls) ->
    Forall2 (operand_fits len) (map to_term Ls') Xs -> resized_all n (map to_term Ls') Xs Xm.
  Proof.
    intros HL Hm HP Hb F. assert (Hlt : m < length ns) by (apply nth_error_Some; congruence). revert Xm HP F.
    induction HL as [|L x Ls Ls' Xs Ps HL IH|L1 L2 k X P Ls Ls' Xs Ps Hk HX HW Hn HL IH]; intros Xm HP F; inversion HP; subst; [constructor| |];
      cbn [map] in *; (assert (Hb' : ~ In b (all_names Ls)) by (intros K; apply Hb; unfold all_names; cbn [flat_map]; apply in_app_iff; auto)).
    - inversion F as [|? ? ? ? F1 F2]; subst. constructor; [|apply IH; auto]. rewrite nth_repeat_some in H1 by exact Hlt. injection H1 as <-.
      destruct F1 as (W & _ & F1). split; [exact W|]. symmetry. apply map2_same; [|apply Forall2_length in F1; exact F1].
      apply no_label. intros K. apply Hb. unfold all_names. cbn [flat_map]. apply in_app_iff. auto.
    - inversion F as [|? ? ? ? F1 F2]; subst. constructor; [|apply IH; auto].
      set (k := length (term_labs (spare (to_term (L1 ++ EName b :: L2)) X) (to_term L1))) in *.
      assert (Hin := nth_error_In _ _ H1). split; [apply HW, Hin|].
      destruct (concat_shapes _ _ _ HX) as (Hne & s & Hs & Hsh).
      destruct (concat_slices k s P Hne Hs) as (X2 & E2 & WX & SX & _); [intros t Ht; split; [apply HW, Ht|apply Hsh, Ht]|].
      assert (X2 = X) by congruence. subst X2. clear E2.
      assert (Ec : count_at k y = n) by (rewrite (map_nth_error _ _ _ H1) in Hm; congruence).
      rewrite (Hsh y Hin), Ec, SX. destruct F1 as (_ & _ & F1). apply Forall2_length in F1. rewrite labs_more in *. fold k.
      symmetry. apply map2_ins.
      + intros K. apply Hb. unfold all_names. cbn [flat_map]. apply in_app_iff. left. rewrite names_less. apply in_app_iff in K. apply in_app_iff.
        destruct K as [K|K]; apply term_labs_name in K; rewrite to_term_names in K; auto.
      + rewrite SX, ins_length in F1 by exact Hs. rewrite app_length in *. cbn [length] in F1. lia.
  Qed.

  Lemma laid_some Ls Ls' (Xs : list (tensor A)) Ps : laid b ns Ls Ls' Xs Ps -> In b (all_names Ls') -> ~ In b (all_names Ls) -> ns <> [].
  Proof.
    unfold all_names. induction 1 as [|L x Ls Ls' Xs Ps HL IH|L1 L2 k X P Ls Ls' Xs Ps Hk HX HP Hn HL IH]; cbn [flat_map]; [tauto| |].
    - rewrite !in_app_iff. intros [K|K] N; [tauto|]. apply IH; auto.
    - intros _ _ E. rewrite E in Hn. destruct P; [|discriminate]. discriminate HX.
  Qed.
  Lemma laid_total Ls Ls' (Xs : list (tensor A)) Ps len : laid b ns Ls Ls' Xs Ps -> In b (all_names Ls') -> ~ In b (all_names Ls) ->
    Forall2 (operand_fits len) (map to_term Ls') Xs -> len lb = list_sum ns.
  Proof.
    unfold all_names. induction 1 as [|L x Ls Ls' Xs Ps HL IH|L1 L2 k X P Ls Ls' Xs Ps Hk HX HP Hn HL IH]; cbn [flat_map map]; [tauto| |].
    - rewrite !in_app_iff. intros [K|K] N F; [tauto|]. inversion F; subst. apply IH; auto.
    - intros _ _ F. inversion F as [|? ? ? ? F1 F2]; subst. destruct F1 as (_ & _ & F1).
      set (k := length (term_labs (spare (to_term (L1 ++ EName b :: L2)) X) (to_term L1))) in *.
      destruct (concat_shapes _ _ _ HX) as (Hne & s & Hs & Hsh).
      destruct (concat_slices k s P Hne Hs) as (X2 & E2 & WX & SX & _); [intros t Ht; split; [apply HP, Ht|apply Hsh, Ht]|].
      assert (X2 = X) by congruence. subst X2. clear E2. rewrite SX, labs_more in F1.
      apply Forall2_split in F1 as [_ F1]; [|rewrite firstn_length; unfold k in Hs |- *; lia]. inversion F1 as [|? ? ? ? Hd _]; subst. cbn in Hd. symmetry. exact Hd.
  Qed.
End Pieces.

Section Law.
  Context {A : Type} (U : unicode) (HU : unicode_ok U) (add mul : A -> A -> A) (zero one : A).
  Hypothesis addC : forall a b, add a b = add b a.
  Hypothesis addA : forall a b c, add a (add b c) = add (add a b) c.
  Context (lib : pystr -> list (tensor A) -> result (tensor A)) (HL : einsum_contract add mul zero one lib).

  Theorem einsum_chunks p p' b ns len Ls Ls' R1 R2 (Xs : list (tensor A)) Ps :
    einsum_reads U p Ls (R1 ++ R2) -> einsum_reads U p' Ls' (R1 ++ EName b :: R2) ->
    laid b ns Ls Ls' Xs Ps -> (forall n, In n ns -> n <> 0) -> ~ In b (all_names Ls) -> length (distinct (all_names Ls')) <= 52 ->
    good_call len (map to_term Ls') (to_term (R1 ++ EName b :: R2)) Xs ->
    exists Y Ys, einsum_with U lib (map inl Xs ++ [inr p']) = Ok Y /\ length Ys = length ns /\
      (forall m xs y, piece m Ps xs -> nth_error Ys m = Some y -> einsum_with U lib (map inl xs ++ [inr p']) = Ok y) /\
      t_concat Ys (length (term_labs (list_max (map2 spare (map to_term Ls') Xs)) (to_term R1))) = Ok Y.
  Proof.
    intros Hr Hr' Hlaid H0 Hb H52 Hg.
    assert (Hin : In b (all_names Ls')).
    { destruct Hg as (_ & _ & Inc & _). rewrite to_terms_names in Inc. apply Inc. rewrite to_term_app, term_names_app. apply in_app_iff. right. left. reflexivity. }
    assert (Hne : ns <> []) by (exact (laid_some b ns _ _ _ _ Hlaid Hin Hb)).
    assert (AT : forall m n j, nth_error ns m = Some n -> j < n -> exists Xm Y y z, piece m Ps Xm /\
      einsum_with U lib (map inl Xs ++ [inr p']) = Ok Y /\ einsum_with U lib (map inl Xm ++ [inr p']) = Ok y /\
      let K := length (term_labs (list_max (map2 spare (map to_term Ls') Xs)) (to_term R1)) in
      slice_of K j y z /\ slice_of K (list_sum (firstn m ns) + j) Y z /\ count_at K y = n /\ count_at K Y = len (SpecEinsum.LName b)).
    { intros m n j Hm Hj. destruct (laid_slice b ns _ _ _ _ m n j Hlaid Hm Hj) as (Xm & xs & P1 & B1 & B2).
      pose proof (resized_good b n _ _ _ _ _ (laid_resized b ns _ _ _ _ m n len Xm Hlaid Hm P1 Hb (proj1 Hg)) Hg) as Hgm.
      destruct (einsum_batch U HU add mul zero one addC addA lib HL p p' b j (resize b len n) Ls Ls' R1 R2 xs Xm Hr Hr' B1 Hb H52 Hgm) as (y & z & E1 & E2 & E3 & E4).
      destruct (einsum_batch U HU add mul zero one addC addA lib HL p p' b _ len Ls Ls' R1 R2 xs Xs Hr Hr' B2 Hb H52 Hg) as (Y & z' & F1 & F2 & F3 & F4).
      assert (z' = z) by congruence. subst z'. exists Xm, Y, y, z. split; [exact P1|]. split; [exact F1|]. split; [exact E1|].
      cbv zeta. rewrite (batch_spare B2). split; [exact E3|]. split; [exact F3|]. split; [|exact F4].
      rewrite E4. unfold resize. destruct (slab_dec _ _); [reflexivity|congruence]. }
    assert (EY : exists Y, einsum_with U lib (map inl Xs ++ [inr p']) = Ok Y).
    { destruct ns as [|n ns']; [contradiction|]. destruct (AT 0 n 0 eq_refl) as (? & Y & ? & ? & _ & E & _); [specialize (H0 n (or_introl eq_refl)); lia|eauto]. }
    destruct EY as [Y EY]. exists Y.
    set (K := length (term_labs (list_max (map2 spare (map to_term Ls') Xs)) (to_term R1))) in *.
    destruct (@choose_list A (fun m y => exists Xm n, piece m Ps Xm /\ nth_error ns m = Some n /\ einsum_with U lib (map inl Xm ++ [inr p']) = Ok y /\ count_at K y = n) (length ns)) as (Ys & LY & HY).
    { intros m Hm. destruct (nth_error ns m) as [n|] eqn:En; [|apply nth_error_None in En; lia].
      destruct (AT m n 0 En) as (Xm & Y1 & y & z & P1 & _ & E1 & _ & _ & C1 & _); [specialize (H0 n (nth_error_In _ _ En)); lia|].
      exists y, Xm, n. auto. }
    assert (HY' : forall m y, nth_error Ys m = Some y -> exists Xm n, piece m Ps Xm /\ nth_error ns m = Some n /\ einsum_with U lib (map inl Xm ++ [inr p']) = Ok y /\ count_at K y = n).
    { intros m y Em. assert (Hm : m < length ns) by (rewrite <- LY; apply nth_error_Some; congruence). destruct (HY m Hm) as (y' & E' & H'). assert (y' = y) by congruence. subst y'. exact H'. }
    exists Ys. split; [exact EY|]. split; [exact LY|]. split.
    { intros m xs y HP Em. destruct (HY' m y Em) as (Xm & n & P1 & _ & E1 & _). rewrite (piece_fun m Ps xs Xm HP P1). exact E1. }
    apply (concat_of_slices K ns Y Ys Hne H0).
    - destruct ns as [|n ns']; [contradiction|]. destruct (AT 0 n 0 eq_refl) as (? & Y1 & ? & ? & _ & E & _ & _ & _ & _ & C); [specialize (H0 n (or_introl eq_refl)); lia|].
      assert (Y1 = Y) by congruence. subst Y1. rewrite C. exact (laid_total b _ _ _ _ _ len Hlaid Hin Hb (proj1 Hg)).
    - apply (nth_ext _ _ 0 0); [now rewrite map_length|]. intros m Hm. rewrite map_length in Hm.
      destruct (nth_error Ys m) as [y|] eqn:Em; [|apply nth_error_None in Em; lia]. destruct (HY' m y Em) as (_ & n & _ & En & _ & C).
      rewrite (nth_error_nth (map (count_at K) Ys) m 0 (map_nth_error _ _ _ Em)), (nth_error_nth ns m 0 En). exact C.
    - intros m n y j En Em Hj. destruct (AT m n j En Hj) as (Xm & Y1 & y1 & z & P1 & E0 & E1 & S1 & S2 & _).
      destruct (HY' m y Em) as (Xm' & _ & P2 & _ & E2 & _). rewrite (piece_fun m Ps _ _ P2 P1) in E2.
      assert (Y1 = Y) by congruence. assert (y1 = y) by congruence. subst. exists z. auto.
  Qed.
End Law.
