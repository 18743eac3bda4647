(** * Choosing elements of a batch before and after packing *)
From Verif Require Import Py Tensor ListFacts TensorFacts SpecSem SpecGrammar SpecBatch SpecBatches SpecPacking Parsing Recipe Ops Backends Api Packing
  FrontFacts2 BatchFacts PackFacts2 PackFacts3 PackFacts4 PackFacts5 PackBatch ChunkFacts SpecSelect SelectFacts.
Section Sel.
  Context {A : Type} (w : pystr) (js : list nat) (Hne : js <> []).
  Implicit Types X V T Z : tensor A.

  Lemma sel_shp k T Z s1 d s2 : selects k js T Z -> shp T = s1 ++ d :: s2 -> length s1 = k -> shp Z = s1 ++ length js :: s2 /\ forall j, In j js -> j < d.
  Proof.
    intros H S L. destruct (selects_shape _ _ _ _ Hne H) as (s & Hk & WT & WZ & ET & EZ). rewrite S in ET.
    assert (E1 : length s1 = length (firstn k s)) by (rewrite firstn_length; lia). apply app_same in ET as [E2 E3]; [|exact E1]. injection E3 as E3 E4.
    split; [rewrite EZ, E2, E4; reflexivity|]. intros j Hj. apply In_nth_error in Hj as [i Hi]. destruct H as (_ & _ & SL). destruct (SL i j Hi) as (x & _ & Sx).
    apply (slice_shp _ _ _ _ s1 d s2 Sx S L).
  Qed.
  Lemma sel_get k T Z i j u v : selects k js T Z -> nth_error js i = Some j -> length u = k -> S (length (u ++ v)) = length (shp T) -> get Z (u ++ i :: v) = get T (u ++ j :: v).
  Proof.
    intros (_ & _ & SL) Hi Lu Lv. destruct (SL i j Hi) as (x & S1 & S2). pose proof (slice_len _ _ _ _ S2) as E.
    rewrite <- (slice_get _ _ _ _ u v S1 Lu), <- (slice_get _ _ _ _ u v S2 Lu); [reflexivity| |]; lia.
  Qed.
  Lemma sel_wf k T Z : selects k js T Z -> wf T /\ wf Z.
  Proof. intros H. destruct (selects_shape _ _ _ _ Hne H) as (s & _ & W1 & W2 & _). auto. Qed.
  Lemma inb_ins s1 n s2 idx : inb (s1 ++ n :: s2) idx = true -> exists i1 i i2, idx = i1 ++ i :: i2 /\ inb s1 i1 = true /\ i < n /\ inb s2 i2 = true.
  Proof.
    intros H. apply inb_app_inv in H as (i1 & i' & -> & H1 & H2). destruct i' as [|i i2]; [discriminate|]. cbn [inb] in H2. apply andb_prop in H2 as [H2 H3].
    exists i1, i, i2. split; [reflexivity|]. split; [exact H1|]. split; [apply Nat.ltb_lt, H2|exact H3].
  Qed.
  Lemma ins_inb s1 n s2 i1 i i2 : inb s1 i1 = true -> i < n -> inb s2 i2 = true -> inb (s1 ++ n :: s2) (i1 ++ i :: i2) = true.
  Proof.
    revert i1. induction s1 as [|m s1 IH]; intros [|a i1] H1 H2 H3; try discriminate; cbn [app inb] in *.
    - apply andb_true_intro. split; [apply Nat.ltb_lt, H2|exact H3].
    - apply andb_prop in H1 as [H0 H1]. rewrite H0. apply IH; auto.
  Qed.
  Lemma nth_js i : i < length js -> exists j, nth_error js i = Some j /\ In j js.
  Proof. intros H. destruct (nth_error js i) as [j|] eqn:E; [|apply nth_error_None in E; lia]. exists j. split; [reflexivity|exact (nth_error_In _ _ E)]. Qed.

  Lemma dims before after (place : tensor A -> nat) b a : dim_of w before after place -> length b = length before -> length a = length after ->
    exists b' a', length b' = length before /\ length a' = length after /\ (prodn (b ++ a) <> 0 -> prodn (b' ++ a') <> 0) /\
      (forall T Z mid, shp T = b ++ mid ++ a -> selects (place T) js T Z -> shp Z = b' ++ mid ++ a') /\
      (forall T Z mid T' mid', shp T = b ++ mid ++ a -> shp T' = b ++ mid' ++ a -> wf T' -> selects (place T) js T Z -> exists Z', selects (place T') js T' Z') /\
      (forall X off m T V Z n, shp X = b ++ [n] ++ a -> piece_of b a X off m T -> selects (place X) js X V -> selects (place T) js T Z -> piece_of b' a' V off m Z).
  Proof.
    intros HD Lb La. assert (Hpos : length js <> 0) by (destruct js; [contradiction|discriminate]). destruct HD as [b1 b2 after0|before0 a1 a2].
    - destruct (split_named _ b1 b2 b w Lb eq_refl) as (s1 & d & s2 & -> & L1 & L2). exists (s1 ++ length js :: s2), a.
      assert (Sh : forall T Z mid, shp T = (s1 ++ d :: s2) ++ mid ++ a -> selects (length b1) js T Z -> shp Z = (s1 ++ length js :: s2) ++ mid ++ a /\ forall j, In j js -> j < d).
      { intros T Z mid S H. rewrite <- !app_assoc in *. cbn [app] in *. apply (sel_shp _ _ _ s1 d _ H); auto. }
      split; [rewrite !app_length; cbn [length]; lia|]. split; [exact La|]. split; [|split; [|split]].
      + rewrite <- !app_assoc, !prodn_app. cbn [app prodn fold_right]. fold (prodn (s2 ++ a)). lia.
      + intros T Z mid S H. apply (Sh T Z mid S H).
      + intros T Z mid T' mid' S S' W' H. destruct (Sh T Z mid S H) as [_ Hj]. apply (selects_exists _ _ d ((s1 ++ s2) ++ mid' ++ a)); auto.
        * rewrite !app_length. lia.
        * rewrite <- L1, <- !app_assoc, ins_app, S', <- !app_assoc. reflexivity.
      + intros X off m T V Z n SX (WT & ST & G) HV HZ. destruct (Sh T Z m ST HZ) as [SZ Hj]. split; [apply (sel_wf _ _ _ HZ)|]. split; [exact SZ|].
        intros ib im ia Hb Hm Ha. apply inb_ins in Hb as (i1 & i & i2 & -> & H1 & H2 & H3). destruct (nth_js i H2) as (j & Ej & Ij).
        pose proof (inb_length _ _ H1) as Q1. pose proof (inb_length _ _ H3) as Q3. pose proof (inb_length _ _ Hm) as Qm. pose proof (inb_length _ _ Ha) as Qa.
        rewrite <- !app_assoc. cbn [app]. rewrite (sel_get _ _ _ i j _ _ HZ Ej); [|lia|rewrite ST, !app_length; cbn [length]; lia].
        change (i2 ++ (off + ravel m im) :: ia) with (i2 ++ [off + ravel m im] ++ ia).
        rewrite (sel_get _ _ _ i j _ _ HV Ej); [|lia|rewrite SX, !app_length; cbn [length]; lia].
        specialize (G (i1 ++ j :: i2) im ia (ins_inb _ _ _ _ _ _ H1 (Hj j Ij) H3) Hm Ha). rewrite <- !app_assoc in G. exact G.
    - destruct (split_named _ a1 a2 a w La eq_refl) as (s1 & d & s2 & -> & L1 & L2). exists b, (s1 ++ length js :: s2).
      assert (Pl : forall T mid, shp T = b ++ mid ++ s1 ++ d :: s2 -> length (shp T) - S (length a2) = length (b ++ mid ++ s1)).
      { intros T mid ->. rewrite !app_length. cbn [length]. lia. }
      assert (Sh : forall T Z mid, shp T = b ++ mid ++ s1 ++ d :: s2 -> selects (length (shp T) - S (length a2)) js T Z -> shp Z = b ++ mid ++ s1 ++ length js :: s2 /\ forall j, In j js -> j < d).
      { intros T Z mid S H. rewrite (Pl _ _ S) in H. destruct (sel_shp _ _ _ (b ++ mid ++ s1) d s2 H) as [E Hj]; [rewrite S, <- !app_assoc; reflexivity|reflexivity|].
        rewrite <- !app_assoc in E. auto. }
      split; [exact Lb|]. split; [rewrite !app_length; cbn [length]; lia|]. split; [|split; [|split]].
      + rewrite !prodn_app. cbn [prodn fold_right]. fold (prodn s2). lia.
      + intros T Z mid S H. apply (Sh T Z mid S H).
      + intros T Z mid T' mid' S S' W' H. destruct (Sh T Z mid S H) as [_ Hj]. rewrite (Pl _ _ S'). apply (selects_exists _ _ d ((b ++ mid' ++ s1) ++ s2)); auto.
        * rewrite !app_length. lia.
        * rewrite ins_app, S', <- !app_assoc. reflexivity.
      + intros X off m T V Z n SX (WT & ST & G) HV HZ. destruct (Sh T Z m ST HZ) as [SZ Hj]. split; [apply (sel_wf _ _ _ HZ)|]. split; [exact SZ|].
        rewrite (Pl _ _ SX) in HV. rewrite (Pl _ _ ST) in HZ.
        intros ib im ia Hb Hm Ha. apply inb_ins in Ha as (i1 & i & i2 & -> & H1 & H2 & H3). destruct (nth_js i H2) as (j & Ej & Ij).
        pose proof (inb_length _ _ H1) as Q1. pose proof (inb_length _ _ H3) as Q3. pose proof (inb_length _ _ Hm) as Qm. pose proof (inb_length _ _ Hb) as Qb.
        specialize (G ib im (i1 ++ j :: i2) Hb Hm (ins_inb _ _ _ _ _ _ H1 (Hj j Ij) H3)).
        replace (ib ++ im ++ i1 ++ i :: i2) with ((ib ++ im ++ i1) ++ i :: i2) by (rewrite <- !app_assoc; reflexivity).
        replace (ib ++ [off + ravel m im] ++ i1 ++ i :: i2) with ((ib ++ [off + ravel m im] ++ i1) ++ i :: i2) by (rewrite <- !app_assoc; reflexivity).
        rewrite (sel_get _ _ _ i j _ _ HZ Ej); [|rewrite !app_length; lia|rewrite ST, !app_length; cbn [length]; lia].
        rewrite (sel_get _ _ _ i j _ _ HV Ej); [|rewrite !app_length; cbn [length]; lia|rewrite SX, !app_length; cbn [length]; lia].
        rewrite <- !app_assoc. exact G.
  Qed.
End Sel.

Section Laws.
  Context {A : Type} (r : runtime A) (Hr : runtime_ok r) (w : pystr) (js : list nat) (Hne : js <> []).
  Implicit Types X V T Z : tensor A.
  Theorem pack_select p before after (place : tensor A -> nat) Ts Zs X ps :
    pack_pattern (rt_unicode r) p before after -> dim_of w before after place ->
    Forall2 (fun T Z => selects (place T) js T Z) Ts Zs -> pack r Ts p = Ok (X, ps) ->
    exists V, pack r Zs p = Ok (V, ps) /\ selects (place X) js X V.
  Proof.
    intros Hp HD HF HK.
    assert (WT : Forall wf Ts /\ Forall wf Zs). { clear -HF Hne. induction HF as [|T t Ts ts H _ [I1 I2]]; [split; constructor|]. split; constructor; auto; apply (sel_wf js Hne _ _ _ H). }
    destruct WT as [WT WZ].
    apply (pack_iff r Ts p before after X ps Hr Hp WT) in HK as (b & a & ms & Lb & La & Hn & HP & -> & (WX & SX & LT & HC)).
    assert (Hn' : Zs <> []) by (intros ->; inversion HF; subst; congruence).
    destruct (dims w js Hne before after place b a HD Lb La) as (b' & a' & Lb' & La' & P1 & Sh & Ex & Pc).
    assert (EV : exists V, selects (place X) js X V).
    { destruct Ts as [|T Ts]; [congruence|]. inversion HF as [|? Z ? Zs' HS HF' ]; subst. destruct ms as [|m ms]; [cbn in LT; lia|].
      apply (Ex T Z m X _ (piece_shp _ _ _ _ _ _ (HC 0 m T eq_refl eq_refl)) SX WX HS). }
    destruct EV as (V & HV). exists V. split; [|exact HV].
    apply (pack_iff r Zs p before after V _ Hr Hp WZ). exists b', a', ms. split; [exact Lb'|]. split; [exact La'|]. split; [exact Hn'|]. split; [auto|]. split; [reflexivity|].
    split; [apply (sel_wf js Hne _ _ _ HV)|]. split; [exact (Sh X V _ SX HV)|]. split; [rewrite <- LT; symmetry; eapply Forall2_length; eauto|].
    intros k m Z Hm Hz. destruct (Forall2_nth1 _ _ _ _ _ HF Hz) as (T & HT & HS). apply (Pc X (offset ms k) m T V Z _ SX); auto.
  Qed.
  Theorem unpack_select p before after (place : tensor A -> nat) X Z ps b N a Ts :
    pack_pattern (rt_unicode r) p before after -> dim_of w before after place ->
    shp X = b ++ [N] ++ a -> length b = length before -> length a = length after -> prodn (b ++ a) <> 0 ->
    ps <> [] -> (forall q, In q ps -> tame (rt_lib r) q) ->
    selects (place X) js X Z -> unpack r X ps p = Ok Ts ->
    exists Zs, unpack r Z ps p = Ok Zs /\ Forall2 (fun T Z => selects (place T) js T Z) Ts Zs.
  Proof.
    intros Hp HD SX Lb La HP0 Hn HT HX HK.
    destruct (slack_exists ps Hn (unpack_count r Hr _ _ _ _ HK)) as [ps1 [pu [ps2 [-> SL]]]].
    destruct (dims w js Hne before after place b a HD Lb La) as (b' & a' & Lb' & La' & P1 & Sh & Ex & Pc).
    pose proof (Sh X Z [N] SX HX) as SZ. destruct (sel_wf js Hne _ _ _ HX) as [WX WZ].
    apply (unpack_exact r Hr X ps1 pu ps2 p before after b N a Ts Hp SX Lb La WX HP0 HT SL) in HK as (ms & F1 & F2 & F3 & F4 & F5 & F6).
    destruct (Forall2_make (fun T Z => selects (place T) js T Z) Ts) as (Zs & HF).
    { intros T HTi. apply In_nth_error in HTi as (k & Hk). assert (Hm : exists m, nth_error ms k = Some m).
      { destruct (nth_error ms k) as [m|] eqn:E; [eauto|]. apply nth_error_None in E. assert (k < length Ts) by (apply nth_error_Some; congruence). lia. }
      destruct Hm as (m & Hm). destruct (F6 k m T Hm Hk) as (WT & ST & _). exact (Ex X Z [N] T m SX ST WT HX). }
    exists Zs. split; [|exact HF].
    apply (unpack_exact r Hr Z ps1 pu ps2 p before after b' N a' Zs Hp SZ Lb' La' WZ (P1 HP0) HT SL). exists ms. split; [exact F1|]. split; [exact F2|]. split; [exact F3|]. split; [exact F4|].
    split; [rewrite <- F5; symmetry; eapply Forall2_length; eauto|].
    intros k m z Hm Hz. destruct (Forall2_nth1 _ _ _ _ _ HF Hz) as (T & HTk & HS). apply (Pc X (start N (length ps1) ms k) m T Z z _ SX); auto.
  Qed.
End Laws.
