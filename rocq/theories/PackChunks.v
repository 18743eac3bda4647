(** * Packing a batch in pieces *)
From Verif Require Import Py Tensor ListFacts TensorFacts SpecSem SpecGrammar SpecForms SpecBatch SpecBatches SpecPacking Parsing Recipe Ops Backends Api Packing
  FrontFacts2 BatchFacts PackFacts2 PackFacts3 PackFacts4 PackFacts5 PackBatch ChunkFacts SpecChunks SpecSelect SelectFacts PackSelect.
Section Chunks.
  Context {A : Type}.
  Implicit Types X V T Z : tensor A.
  Definition range (ns : list nat) (m n : nat) : list nat := seq (list_sum (firstn m ns)) n.

  Lemma chunk_total k (P : list (tensor A)) T : t_concat P k = Ok T -> (forall x, In x P -> wf x) -> count_at k T = list_sum (map (count_at k) P).
  Proof.
    intros H W. destruct (concat_shapes _ _ _ H) as (Hne & s & Hk & Sh). destruct (concat_slices k s P Hne Hk) as (X & E & WX & SX & _); [auto|].
    rewrite H in E. injection E as <-. exact (count_ins k s _ _ Hk SX).
  Qed.
  Lemma chunk_selects k P T ns m n x : t_concat P k = Ok T -> (forall y, In y P -> wf y) -> map (count_at k) P = ns ->
    nth_error P m = Some x -> nth_error ns m = Some n -> selects k (range ns m n) T x.
  Proof.
    intros H W <- Hx Hn. destruct (concat_shapes _ _ _ H) as (Hne & s & Hk & Sh). destruct (concat_slices k s P Hne Hk) as (X & E & WX & SX & SL); [auto|].
    rewrite H in E. injection E as <-. rewrite nth_error_map, Hx in Hn. injection Hn as <-. unfold range. rewrite firstn_map.
    split; [apply W; exact (nth_error_In _ _ Hx)|]. split; [symmetry; apply seq_length|]. intros i j Hij.
    assert (Hi : i < count_at k x). { rewrite <- (seq_length (count_at k x) (list_sum (map (count_at k) (firstn m P)))). apply nth_error_Some. congruence. }
    destruct (SL m x i Hx Hi) as (z & _ & S1 & S2). exists z. split; [exact S1|].
    apply (nth_error_nth _ _ 0) in Hij. rewrite seq_nth in Hij by exact Hi. subst j. exact S2.
  Qed.
  Lemma concat_selects k ns Y (Ys : list (tensor A)) : ns <> [] -> (forall n, In n ns -> n <> 0) -> count_at k Y = list_sum ns -> length Ys = length ns ->
    (forall m n y, nth_error ns m = Some n -> nth_error Ys m = Some y -> selects k (range ns m n) Y y) -> t_concat Ys k = Ok Y.
  Proof.
    intros Hne H0 CY L HS. apply (concat_of_slices k ns); auto.
    - assert (G : forall l l' : list nat, length l = length l' -> (forall m a b, nth_error l m = Some a -> nth_error l' m = Some b -> a = b) -> l = l').
      { induction l as [|a l IH]; intros [|b l'] E G; try discriminate; [reflexivity|]. f_equal; [apply (G 0); reflexivity|]. apply IH; [now injection E|]. intros m. apply (G (S m)). }
      apply G; [rewrite map_length; exact L|]. intros m c n Hc Hn. rewrite nth_error_map in Hc. destruct (nth_error Ys m) as [y|] eqn:Ey; [|discriminate]. injection Hc as <-.
      destruct (HS m n y Hn Ey) as (_ & C & _). rewrite C. unfold range. apply seq_length.
    - intros m n y j Hn Hy Hj. destruct (HS m n y Hn Hy) as (_ & _ & SL). apply SL. unfold range.
      rewrite (nth_error_nth' _ 0) by (rewrite seq_length; exact Hj). rewrite seq_nth by exact Hj. reflexivity.
  Qed.
  Lemma range_ne ns m n : n <> 0 -> range ns m n <> [].
  Proof. unfold range. destruct n; [contradiction|discriminate]. Qed.

  Lemma same_count w before after (place : tensor A -> nat) b a mid mid' T T' : dim_of w before after place -> length b = length before -> length a = length after ->
    shp T = b ++ mid ++ a -> shp T' = b ++ mid' ++ a -> count_at (place T) T = count_at (place T') T'.
  Proof.
    intros HD Lb La E1 E2. destruct HD as [b1 b2 after0|before0 a1 a2].
    - destruct (split_named _ b1 b2 b w Lb eq_refl) as (s1 & d & s2 & -> & L1 & L2). unfold count_at. rewrite E1, E2, <- !app_assoc. cbn [app]. rewrite <- L1, !app_nth2, !Nat.sub_diag by lia. reflexivity.
    - destruct (split_named _ a1 a2 a w La eq_refl) as (s1 & d & s2 & -> & L1 & L2).
      assert (Pl : forall (t : tensor A) m, shp t = b ++ m ++ s1 ++ d :: s2 -> count_at (length (shp t) - S (length a2)) t = d).
      { intros t m E. unfold count_at. rewrite E. replace (length (b ++ m ++ s1 ++ d :: s2) - S (length a2)) with (length (b ++ m ++ s1)) by (rewrite !app_length; cbn [length]; lia).
        replace (b ++ m ++ s1 ++ d :: s2) with ((b ++ m ++ s1) ++ d :: s2) by (rewrite <- !app_assoc; reflexivity). rewrite app_nth2, Nat.sub_diag by lia. reflexivity. }
      rewrite (Pl _ _ E1), (Pl _ _ E2). reflexivity.
  Qed.
  Lemma cut_len ns place T P : cut_at ns place T P -> length P = length ns.
  Proof. intros (_ & _ & <-). symmetry. apply map_length. Qed.
End Chunks.

Section Laws.
  Context {A : Type} (r : runtime A) (Hr : runtime_ok r) (w : pystr) (ns : list nat) (Hns : forall n, In n ns -> n <> 0).
  Implicit Types X V T Z : tensor A.
  Theorem pack_chunks p before after (place : tensor A -> nat) Ts Ps X ps :
    pack_pattern (rt_unicode r) p before after -> dim_of w before after place ->
    Forall2 (cut_at ns place) Ts Ps -> pack r Ts p = Ok (X, ps) ->
    exists Vs, length Vs = length ns /\ (forall m xs v, piece m Ps xs -> nth_error Vs m = Some v -> pack r xs p = Ok (v, ps)) /\ t_concat Vs (place X) = Ok X.
  Proof.
    intros Hp HD HF HK.
    assert (WT : Forall wf Ts).
    { clear -HF. induction HF as [|T P Ts Ps (H & W & _) _ I]; constructor; auto. destruct (concat_shapes _ _ _ H) as (Hne & s & Hk & Sh).
      destruct (concat_slices _ s P Hne Hk) as (Y & E & WY & _); [auto|]. rewrite H in E. injection E as <-. exact WY. }
    pose proof HK as HK0. apply (pack_iff r Ts p before after X ps Hr Hp WT) in HK0 as (b & a & ms & Lb & La & Hn & _ & _ & (WX & SX & LT & HC)).
    assert (HT0 : exists T P mid, shp T = b ++ mid ++ a /\ cut_at ns place T P).
    { destruct Ts as [|T Ts]; [congruence|]. inversion HF as [|? P ? Ps' HS HF' ]; subst. destruct ms as [|m ms]; [cbn in LT; lia|].
      exists T, P, m. split; [apply (piece_shp _ _ _ _ _ _ (HC 0 m T eq_refl eq_refl))|exact HS]. }
    destruct HT0 as (T & P & mid & ST & CT).
    assert (Hne : ns <> []). { destruct CT as (H & _ & E). destruct (concat_shapes _ _ _ H) as [Hne _]. intros E0. apply Hne. rewrite E0 in E. destruct P; [reflexivity|discriminate]. }
    assert (CX : count_at (place X) X = list_sum ns).
    { rewrite <- (same_count w before after place b a mid [list_sum (map prodn ms)] T X HD Lb La ST SX). destruct CT as (H & W & <-). apply chunk_total; auto. }
    assert (ONE : forall m n, nth_error ns m = Some n -> exists xs V, piece m Ps xs /\ pack r xs p = Ok (V, ps) /\ selects (place X) (range ns m n) X V).
    { intros m n Hmn. assert (XS : exists xs, piece m Ps xs /\ Forall2 (fun T Z => selects (place T) (range ns m n) T Z) Ts xs).
      { clear -HF Hmn. induction HF as [|T P Ts Ps H _ (xs & I1 & I2)]; [exists []; split; constructor|].
        destruct (nth_error P m) as [x|] eqn:Ex; [|apply nth_error_None in Ex; rewrite (cut_len _ _ _ _ H) in Ex; apply nth_error_None in Ex; congruence].
        exists (x :: xs). split; constructor; auto. destruct H as (H & W & E). exact (chunk_selects _ P T ns m n x H W E Ex Hmn). }
      destruct XS as (xs & HP & HS). assert (Hn0 : n <> 0) by (apply Hns; exact (nth_error_In _ _ Hmn)).
      destruct (pack_select r Hr w (range ns m n) (range_ne ns m n Hn0) p before after place Ts xs X ps Hp HD HS HK) as (V & HV & SV). exists xs, V. auto. }
    assert (FN : forall l, (forall m n, nth_error l m = Some n -> nth_error ns m = Some n) -> exists Vs, length Vs = length l /\
      forall m n V, nth_error l m = Some n -> nth_error Vs m = Some V -> exists xs, piece m Ps xs /\ pack r xs p = Ok (V, ps) /\ selects (place X) (range ns m n) X V).
    { intros l. induction l as [|n l IH] using rev_ind; intros Hl; [exists []; split; [reflexivity|]; intros [|m] ? ? E; discriminate|].
      destruct IH as (Vs & LV & HV). { intros m k E. apply Hl. rewrite nth_error_app1; [exact E|]. apply nth_error_Some. congruence. }
      destruct (ONE (length l) n) as (xs & V & H1 & H2 & H3). { apply Hl. rewrite nth_error_app2, Nat.sub_diag by lia. reflexivity. }
      exists (Vs ++ [V]). split; [rewrite !app_length; cbn [length]; lia|]. intros m k V' E E'.
      destruct (Nat.lt_ge_cases m (length l)) as [Hm|Hm].
      - rewrite nth_error_app1 in E by exact Hm. rewrite nth_error_app1 in E' by lia. eauto.
      - assert (m = length l). { assert (m < length (l ++ [n])) by (apply nth_error_Some; congruence). rewrite app_length in H. cbn [length] in H. lia. } subst m.
        rewrite nth_error_app2, Nat.sub_diag in E by lia. injection E as <-. rewrite <- LV, nth_error_app2, Nat.sub_diag in E' by lia. injection E' as <-. eauto. }
    destruct (FN ns) as (Vs & LV & HV); [auto|]. exists Vs. split; [exact LV|]. split.
    - intros m xs v HP Hv. destruct (nth_error ns m) as [n|] eqn:En; [|apply nth_error_None in En; rewrite <- LV in En; apply nth_error_None in En; congruence].
      destruct (HV m n v En Hv) as (xs' & HP' & E & _). assert (xs' = xs); [|subst; exact E].
      clear -HP HP'. revert xs HP. induction HP' as [|P x Ps xs' H _ IH]; intros xs HP; inversion HP; subst; [reflexivity|]. f_equal; [congruence|auto].
    - apply (concat_selects (place X) ns X Vs Hne Hns CX LV). intros m n y En Ey. destruct (HV m n y En Ey) as (_ & _ & _ & H). exact H.
  Qed.

  Theorem unpack_chunks p before after (place : tensor A -> nat) X Xs ps b N a Ts :
    pack_pattern (rt_unicode r) p before after -> dim_of w before after place ->
    shp X = b ++ [N] ++ a -> length b = length before -> length a = length after -> prodn (b ++ a) <> 0 ->
    ps <> [] -> (forall q, In q ps -> tame (rt_lib r) q) ->
    cut_at ns place X Xs -> unpack r X ps p = Ok Ts ->
    exists Pss, Forall2 (fun x Zs => unpack r x ps p = Ok Zs) Xs Pss /\
      forall q T P, nth_error Ts q = Some T -> Forall2 (fun Zs z => nth_error Zs q = Some z) Pss P -> t_concat P (place T) = Ok T.
  Proof.
    intros Hp HD SX Lb La HP Hn HT HC HK. pose proof HC as (H & W & E). destruct (concat_shapes _ _ _ H) as (Hne & s & Hk & Sh).
    assert (Hne' : ns <> []) by (intros E0; apply Hne; rewrite E0 in E; destruct Xs; [reflexivity|discriminate]).
    assert (WX : wf X). { destruct (concat_slices _ s Xs Hne Hk) as (Y & E0 & WY & _); [auto|]. rewrite H in E0. injection E0 as <-. exact WY. }
    assert (ONE : forall m x n, nth_error Xs m = Some x -> nth_error ns m = Some n -> exists Zs, unpack r x ps p = Ok Zs /\ Forall2 (fun T Z => selects (place T) (range ns m n) T Z) Ts Zs).
    { intros m x n Hx En. assert (Hn0 : n <> 0) by (apply Hns; exact (nth_error_In _ _ En)).
      apply (unpack_select r Hr w (range ns m n) (range_ne ns m n Hn0) p before after place X x ps b N a Ts); auto. exact (chunk_selects _ Xs X ns m n x H W E Hx En). }
    pose proof (cut_len _ _ _ _ HC) as LX.
    destruct (choose2 (fun x Zs => unpack r x ps p = Ok Zs) Xs) as (Pss & HF).
    { intros x Hx. apply In_nth_error in Hx as (m & Hm). destruct (nth_error ns m) as [n|] eqn:En; [|apply nth_error_None in En; rewrite <- LX in En; apply nth_error_None in En; congruence].
      destruct (ONE m x n Hm En) as (Zs & HZ & _). eauto. }
    exists Pss. split; [exact HF|]. intros q T P Hq HPq. pose proof HF as LP. apply Forall2_length in LP. pose proof HPq as LQ. apply Forall2_length in LQ.
    assert (CT : count_at (place T) T = list_sum ns).
    { destruct (slack_exists ps Hn (unpack_count r Hr _ _ _ _ HK)) as [ps1 [pu [ps2 [-> SL]]]].
      apply (unpack_exact r Hr X ps1 pu ps2 p before after b N a Ts Hp SX Lb La WX HP HT SL) in HK as (ms & _ & _ & _ & _ & F5 & F6).
      destruct (nth_error ms q) as [mid|] eqn:Em; [|apply nth_error_None in Em; rewrite <- F5 in Em; apply nth_error_None in Em; congruence].
      destruct (F6 q mid T Em Hq) as (_ & ST & _). rewrite (same_count w before after place b a mid [N] T X HD Lb La ST SX), <- E. apply chunk_total; auto. }
    apply (concat_selects (place T) ns T P Hne' Hns CT); [congruence|]. intros m n z En Ez.
    destruct (Forall2_nth1 _ _ _ _ _ HPq Ez) as (Zs & EZs & Eq). destruct (Forall2_nth1 _ _ _ _ _ HF EZs) as (x & Ex & Eu).
    destruct (ONE m x n Ex En) as (Zs' & Eu' & HS). assert (Zs' = Zs) by congruence. subst Zs'. exact (Forall2_nth2 _ _ _ _ _ _ HS Hq Eq).
  Qed.
End Laws.
