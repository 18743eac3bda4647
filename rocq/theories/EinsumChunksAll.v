(** * einsum in pieces, some of them empty *)
From Verif Require Import Py Tensor ListFacts TensorFacts SpecSem SpecGrammar SpecForms SpecBatch SpecBatches Parsing Recipe Ops Backends Einsum Api StepFacts ReduceFacts BatchFacts EinsumFacts EinsumFacts2 EinsumFacts3 EinsumFacts4 EinsumLaws EinsumLaws2 EinsumLaws4 GradFacts EinsumBatch ChunkFacts EinsumChunks SpecEinsum SpecChunks SpecEmpty BatchEmpty EinsumEmpty ChunkEmpty.

Section Pieces.
  Context {A : Type}.
  Notation ins k s n := (firstn k s ++ n :: skipn k s).
  Lemma concat_of_slices_all k s ns (Y : tensor A) Ys : ns <> [] -> k <= length s -> wf Y -> shp Y = ins k s (list_sum ns) -> map (count_at k) Ys = ns ->
    (forall y, In y Ys -> wf y /\ shp y = ins k s (count_at k y)) ->
    (forall m n y j, nth_error ns m = Some n -> nth_error Ys m = Some y -> j < n ->
       exists z, slice_of k j y z /\ slice_of k (list_sum (firstn m ns) + j) Y z) -> t_concat Ys k = Ok Y.
  Proof.
    intros Hne Hk WY SY CYs HYs SL. assert (NY : Ys <> []) by (intros ->; cbn in CYs; congruence).
    destruct (concat_slices k s Ys NY Hk HYs) as (Z & EZ & WZ & SZ & SLZ). rewrite EZ. f_equal. rewrite CYs in SZ.
    destruct (list_sum ns) as [|T] eqn:ET; [exact (empty_same Z Y k s WZ WY SZ SY)|]. rewrite <- ET in *.
    apply (slices_fun k (list_sum ns) s Z Y Hk SZ); [congruence|exact WZ|exact WY|].
    intros i Hi. rewrite <- CYs in Hi. destruct (place_of _ _ _ Hi) as (m & y & j & Ey & Hj & Ei).
    assert (En : nth_error ns m = Some (count_at k y)) by (rewrite <- CYs; now apply map_nth_error).
    destruct (SL m _ y j En Ey Hj) as (z & S1 & S2). rewrite <- CYs, firstn_map, <- Ei in S2. exists z. split; [|exact S2].
    destruct (SLZ m y j Ey Hj) as (z3 & _ & S3 & S4). rewrite (slice_fun _ _ _ _ _ S3 S1), <- Ei in S4. exact S4.
  Qed.

  Lemma laid_piece b ns Ls Ls' (Xs : list (tensor A)) Ps m : laid b ns Ls Ls' Xs Ps -> m < length ns -> exists Xm, piece m Ps Xm.
  Proof.
    intros HL Hlt. induction HL as [|L x Ls Ls' Xs Ps HL IH|L1 L2 k X P Ls Ls' Xs Ps Hk HX HP Hn HL IH].
    - exists []. constructor.
    - destruct IH as (Xm & I1). exists (x :: Xm). constructor; [now apply nth_repeat_some|exact I1].
    - destruct IH as (Xm & I1). destruct (nth_error P m) as [t|] eqn:Et; [|apply nth_error_None in Et; rewrite <- (map_length (count_at k)), Hn in Et; lia].
      exists (t :: Xm). constructor; assumption.
  Qed.

  Context (U : unicode) (HU : unicode_ok U) (add mul : A -> A -> A) (zero one : A).
  Hypothesis addC : forall a b, add a b = add b a.
  Hypothesis addA : forall a b c, add a (add b c) = add (add a b) c.
  Context (lib : pystr -> list (tensor A) -> result (tensor A)) (HL : einsum_contract add mul zero one lib).

  Theorem einsum_chunks_all p p' b ns len Ls Ls' R1 R2 (Xs : list (tensor A)) Ps :
    einsum_reads U p Ls (R1 ++ R2) -> einsum_reads U p' Ls' (R1 ++ EName b :: R2) ->
    laid b ns Ls Ls' Xs Ps -> ~ In b (all_names Ls) -> length (distinct (all_names Ls')) <= 52 ->
    good_call len (map to_term Ls') (to_term (R1 ++ EName b :: R2)) Xs ->
    exists Y Ys, einsum_with U lib (map inl Xs ++ [inr p']) = Ok Y /\ length Ys = length ns /\
      (forall m xs y, piece m Ps xs -> nth_error Ys m = Some y -> einsum_with U lib (map inl xs ++ [inr p']) = Ok y) /\
      t_concat Ys (length (term_labs (list_max (map2 spare (map to_term Ls') Xs)) (to_term R1))) = Ok Y.
  Proof.
    intros Hr Hr' Hlaid Hb H52 Hg.
    assert (Hin : In b (all_names Ls')).
    { destruct Hg as (_ & _ & Inc & _). rewrite to_terms_names in Inc. apply Inc. rewrite to_term_app, term_names_app. apply in_app_iff. right. left. reflexivity. }
    assert (Hne : ns <> []) by (exact (laid_some b ns _ _ _ _ Hlaid Hin Hb)).
    pose proof (laid_total b _ _ _ _ _ len Hlaid Hin Hb (proj1 Hg)) as Tot.
    set (e := list_max (map2 spare (map to_term Ls') Xs)) in *. set (o1 := term_labs e (to_term R1)). set (o2 := term_labs e (to_term R2)).
    set (s := map len (o1 ++ o2)). assert (Hk : length o1 <= length s) by (unfold s; rewrite map_length, app_length; lia).
    assert (No : NoDup (o1 ++ SpecEinsum.LName b :: o2)).
    { assert (Eo : out_labs (map to_term Ls') Xs (to_term (R1 ++ EName b :: R2)) = o1 ++ SpecEinsum.LName b :: o2).
      { unfold out_labs. fold e. now rewrite to_term_app, term_labs_app. }
      rewrite <- Eo. destruct Hg as (_ & H1 & _ & H2 & _). apply term_labs_NoDup; auto. }
    assert (NI := NoDup_remove_2 _ _ _ No).
    assert (SHAPE : forall Zs len0, list_max (map2 spare (map to_term Ls') Zs) = e -> (forall l, l <> SpecEinsum.LName b -> len0 l = len l) ->
      good_call len0 (map to_term Ls') (to_term (R1 ++ EName b :: R2)) Zs ->
      exists y, einsum_with U lib (map inl Zs ++ [inr p']) = Ok y /\ wf y /\ shp y = ins (length o1) s (len0 (SpecEinsum.LName b))).
    { intros Zs len0 Ee Same Hgz. destruct (einsum_formula U HU add mul zero one addC addA lib p' Ls' _ Zs _ HL Hr' H52 Hgz) as (y & EV & FV).
      destruct (summed_exists (map to_term Ls') (to_term (R1 ++ EName b :: R2)) Zs) as (ms' & Hms'). destruct (FV ms' Hms') as (WV & SV & _).
      exists y. split; [exact EV|]. split; [exact WV|]. rewrite SV. unfold out_labs. rewrite Ee, to_term_app, term_labs_app. fold o1.
      change (term_labs e (to_term (EName b :: R2))) with (SpecEinsum.LName b :: o2). unfold s. rewrite !map_app. cbn [map]. rewrite <- (map_length len o1) at 1. rewrite <- (map_length len o1) at 1. rewrite ins_app.
      f_equal; [|f_equal]; apply map_ext_in; intros l Hl; apply Same; intros ->; apply NI, in_app_iff; auto. }
    assert (PIECE : forall m n Xm, nth_error ns m = Some n -> piece m Ps Xm -> exists y, einsum_with U lib (map inl Xm ++ [inr p']) = Ok y /\ wf y /\ shp y = ins (length o1) s n).
    { intros m n Xm Hm HP. pose proof (laid_resized b ns _ _ _ _ m n len Xm Hlaid Hm HP Hb (proj1 Hg)) as HR.
      destruct (SHAPE Xm (resize b len n)) as (y & G1 & G2 & G3).
      - rewrite (resized_spares b n _ Xs Xm len HR (proj1 Hg)). reflexivity.
      - intros l Hl. unfold resize. destruct (slab_dec l _); [contradiction|reflexivity].
      - exact (resized_good b n _ _ _ _ _ HR Hg).
      - exists y. split; [exact G1|]. split; [exact G2|]. rewrite G3. unfold resize. destruct (slab_dec _ _); [reflexivity|congruence]. }
    destruct (SHAPE Xs len eq_refl (fun _ _ => eq_refl) Hg) as (Y & EY & WY & SY). rewrite Tot in SY. exists Y.
    destruct (@choose_list A (fun m y => exists Xm n, piece m Ps Xm /\ nth_error ns m = Some n /\ einsum_with U lib (map inl Xm ++ [inr p']) = Ok y /\ wf y /\ shp y = ins (length o1) s n) (length ns)) as (Ys & LY & HY).
    { intros m Hm. destruct (nth_error ns m) as [n|] eqn:En; [|apply nth_error_None in En; lia].
      destruct (laid_piece b ns _ _ _ _ m Hlaid Hm) as (Xm & HP). destruct (PIECE m n Xm En HP) as (y & G). exists y, Xm, n. tauto. }
    assert (HY' : forall m y, nth_error Ys m = Some y -> exists Xm n, piece m Ps Xm /\ nth_error ns m = Some n /\ einsum_with U lib (map inl Xm ++ [inr p']) = Ok y /\ wf y /\ shp y = ins (length o1) s n).
    { intros m y Em. assert (Hm : m < length ns) by (rewrite <- LY; apply nth_error_Some; congruence). destruct (HY m Hm) as (y' & E' & H'). assert (y' = y) by congruence. subst y'. exact H'. }
    exists Ys. split; [exact EY|]. split; [exact LY|]. split.
    { intros m xs y HP Em. destruct (HY' m y Em) as (Xm & n & P1 & _ & E1 & _). rewrite (piece_fun m Ps xs Xm HP P1). exact E1. }
    apply (concat_of_slices_all (length o1) s ns Y Ys Hne Hk WY SY).
    - apply (nth_ext _ _ 0 0); [now rewrite map_length|]. intros m Hm. rewrite map_length in Hm.
      destruct (nth_error Ys m) as [y|] eqn:Em; [|apply nth_error_None in Em; lia]. destruct (HY' m y Em) as (_ & n & _ & En & _ & _ & Sy).
      rewrite (nth_error_nth (map (count_at (length o1)) Ys) m 0 (map_nth_error _ _ _ Em)), (nth_error_nth ns m 0 En). apply (count_ins (length o1) s); auto.
    - intros y Hy. destruct (In_nth_error _ _ Hy) as [m Em]. destruct (HY' m y Em) as (_ & n & _ & En & _ & Wy & Sy). split; [exact Wy|].
      rewrite (count_ins (length o1) s n y Hk Sy). exact Sy.
    - intros m n y j En Em Hj. destruct (HY' m y Em) as (Xm' & _ & P2 & _ & E2 & _).
      destruct (laid_slice b ns _ _ _ _ m n j Hlaid En Hj) as (Xm & xs & P1 & B1 & B2). rewrite (piece_fun m Ps _ _ P2 P1) in E2.
      pose proof (resized_good b n _ _ _ _ _ (laid_resized b ns _ _ _ _ m n len Xm Hlaid En P1 Hb (proj1 Hg)) Hg) as Hgm.
      destruct (einsum_batch U HU add mul zero one addC addA lib HL p p' b j (resize b len n) Ls Ls' R1 R2 xs Xm Hr Hr' B1 Hb H52 Hgm) as (y1 & z & E1 & G2 & E3 & E4).
      destruct (einsum_batch U HU add mul zero one addC addA lib HL p p' b _ len Ls Ls' R1 R2 xs Xs Hr Hr' B2 Hb H52 Hg) as (Y1 & z' & F1 & F2 & F3 & F4).
      assert (z' = z) by congruence. assert (y1 = y) by congruence. assert (Y1 = Y) by congruence. subst. rewrite <- (batch_spare B2) in E3, F3. exists z. split; [exact E3|exact F3].
  Qed.
End Pieces.
