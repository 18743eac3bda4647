(** * einsum on a batch of nothing *)
From Verif Require Import Py Tensor ListFacts TensorFacts SpecSem SpecGrammar SpecForms SpecBatch SpecBatches Parsing Recipe Ops Backends Einsum Api StepFacts ReduceFacts BatchFacts EinsumFacts EinsumFacts2 EinsumFacts3 EinsumFacts4 EinsumLaws EinsumLaws2 EinsumLaws4 GradFacts EinsumBatch ChunkFacts EinsumChunks SpecEinsum SpecEmpty.

Section Empty.
  Context {A : Type} (b : pystr).
  Notation lb := (SpecEinsum.LName b).

  Lemma emptied_resized Ls Ls' (Xs Zs : list (tensor A)) len : emptied_all b Ls Ls' Xs Zs -> ~ In b (all_names Ls) ->
    Forall2 (operand_fits len) (map to_term Ls') Xs -> resized_all b 0 (map to_term Ls') Xs Zs.
  Proof.
    intros H. unfold all_names. induction H as [|L x Ls Ls' Xs Zs H IH|L1 L2 X Z Ls Ls' Xs Zs HS H IH]; cbn [map flat_map]; intros Hb F; inversion F as [|? ? ? ? F1 F2]; subst; constructor;
      try (apply IH; [intros K; apply Hb, in_app_iff; auto|assumption]).
    - destruct F1 as (W & _ & F1). split; [exact W|]. symmetry. apply map2_same; [|apply Forall2_length in F1; exact F1].
      apply no_label. intros K. apply Hb, in_app_iff. auto.
    - destruct HS as (WX & WZ & s & n & Hk & EX & EZ). split; [exact WZ|].
      set (k := length (term_labs (spare (to_term (L1 ++ EName b :: L2)) X) (to_term L1))) in *.
      destruct F1 as (_ & _ & F1). apply Forall2_length in F1. rewrite labs_more in *. rewrite EZ, EX. unfold k. symmetry. apply map2_ins.
      + intros K. apply Hb, in_app_iff. left. rewrite names_less. apply in_app_iff in K. apply in_app_iff.
        destruct K as [K|K]; apply term_labs_name in K; rewrite to_term_names in K; auto.
      + rewrite EX, ins_length in F1 by exact Hk. rewrite app_length in *. cbn [length] in F1. lia.
  Qed.
  Lemma resized_spares n Ts (Xs Zs : list (tensor A)) len : resized_all b n Ts Xs Zs -> Forall2 (operand_fits len) Ts Xs -> map2 spare Ts Zs = map2 spare Ts Xs.
  Proof.
    intros HR F. induction HR as [|t X X' Ts Xs Xs' R HR IH]; [reflexivity|]. inversion F; subst. cbn [map2]. rewrite IH by assumption.
    f_equal. eapply resized_spare; eauto.
  Qed.

  Context (U : unicode) (HU : unicode_ok U) (add mul : A -> A -> A) (zero one : A).
  Hypothesis addC : forall a b, add a b = add b a.
  Hypothesis addA : forall a b c, add a (add b c) = add (add a b) c.
  Context (lib : pystr -> list (tensor A) -> result (tensor A)) (HL : einsum_contract add mul zero one lib).

  Theorem einsum_empty p' len Ls Ls' R1 R2 (Xs Zs : list (tensor A)) :
    einsum_reads U p' Ls' (R1 ++ EName b :: R2) ->
    emptied_all b Ls Ls' Xs Zs -> ~ In b (all_names Ls) -> length (distinct (all_names Ls')) <= 52 ->
    good_call len (map to_term Ls') (to_term (R1 ++ EName b :: R2)) Xs ->
    exists Y V, einsum_with U lib (map inl Xs ++ [inr p']) = Ok Y /\ einsum_with U lib (map inl Zs ++ [inr p']) = Ok V /\
      emptied (length (term_labs (list_max (map2 spare (map to_term Ls') Xs)) (to_term R1))) Y V.
  Proof.
    intros Hr' HS Hb H52 Hg.
    pose proof (emptied_resized _ _ _ _ len HS Hb (proj1 Hg)) as HR.
    pose proof (resized_good b _ _ _ _ _ _ HR Hg) as Hgz.
    destruct (einsum_formula U HU add mul zero one addC addA lib p' Ls' _ Xs len HL Hr' H52 Hg) as (Y & EY & FY).
    destruct (einsum_formula U HU add mul zero one addC addA lib p' Ls' _ Zs _ HL Hr' H52 Hgz) as (V & EV & FV).
    destruct (summed_exists (map to_term Ls') (to_term (R1 ++ EName b :: R2)) Xs) as (ms & Hms).
    destruct (summed_exists (map to_term Ls') (to_term (R1 ++ EName b :: R2)) Zs) as (ms' & Hms').
    destruct (FY ms Hms) as (WY & SY & _). destruct (FV ms' Hms') as (WV & SV & _).
    set (e := list_max (map2 spare (map to_term Ls') Xs)) in *. set (o1 := term_labs e (to_term R1)). set (o2 := term_labs e (to_term R2)).
    assert (Eo : out_labs (map to_term Ls') Xs (to_term (R1 ++ EName b :: R2)) = o1 ++ lb :: o2).
    { unfold out_labs. fold e. now rewrite to_term_app, term_labs_app. }
    assert (Eo' : out_labs (map to_term Ls') Zs (to_term (R1 ++ EName b :: R2)) = o1 ++ lb :: o2).
    { unfold out_labs. rewrite (resized_spares 0 _ Xs Zs len HR (proj1 Hg)). fold e. now rewrite to_term_app, term_labs_app. }
    assert (No : NoDup (o1 ++ lb :: o2)).
    { rewrite <- Eo. destruct Hg as (_ & H1 & _ & H2 & _). apply term_labs_NoDup; auto. }
    assert (NI := NoDup_remove_2 _ _ _ No).
    assert (SAME : forall l, In l (o1 ++ o2) -> resize b len 0 l = len l).
    { intros l Hl. unfold resize. destruct (slab_dec l lb) as [->|D]; [contradiction|reflexivity]. }
    exists Y, V. split; [exact EY|]. split; [exact EV|]. split; [exact WY|]. split; [exact WV|]. exists (map len (o1 ++ o2)), (len lb).
    rewrite SY, SV, Eo, Eo', !map_app. cbn [map]. split; [rewrite app_length, !map_length; lia|]. rewrite <- (map_length len o1), !ins_app. split; [reflexivity|].
    assert (E1 : map (resize b len 0) o1 = map len o1) by (apply map_ext_in; intros l Hl; apply SAME, in_app_iff; auto).
    assert (E2 : map (resize b len 0) o2 = map len o2) by (apply map_ext_in; intros l Hl; apply SAME, in_app_iff; auto).
    rewrite E1, E2. unfold resize at 1. destruct (slab_dec lb lb); [reflexivity|congruence].
  Qed.
End Empty.
