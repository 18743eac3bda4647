(** * pack and unpack: one more named axis *)
From Verif Require Import Py Tensor ListFacts TensorFacts SpecBatch SpecBatches SpecPacking Parsing Recipe Ops Backends Packing Api BatchFacts PackFacts2 PackFacts3 PackFacts4 PackFacts5.

Section Slices.
  Context {A : Type}.
  Implicit Types X x T t : tensor A.
  Lemma app_same {B} (l1 l2 m1 m2 : list B) : length l1 = length m1 -> l1 ++ l2 = m1 ++ m2 -> l1 = m1 /\ l2 = m2.
  Proof. revert m1. induction l1 as [|a l1 IH]; intros [|b m1] H E; cbn in *; try discriminate; auto. injection E as -> E. destruct (IH m1) as [-> ->]; auto. Qed.
  Lemma slice_shp k i T t s1 d s2 : slice_of k i T t -> shp T = s1 ++ d :: s2 -> length s1 = k -> shp t = s1 ++ s2 /\ i < d.
  Proof.
    intros (_ & _ & Hk & (n & Hi & E) & _) ES El. rewrite ES in E.
    assert (El' : length s1 = length (firstn k (shp t))) by (rewrite firstn_length; lia).
    destruct (app_same _ _ _ _ El' E) as [E1 E2]. injection E2 as -> E2.
    split; [|exact Hi]. rewrite E1, E2. symmetry. apply firstn_skipn.
  Qed.
  Lemma slice_get k i T t u v : slice_of k i T t -> length u = k -> length (u ++ v) = length (shp t) -> get t (u ++ v) = get T (u ++ i :: v).
  Proof. intros (_ & _ & _ & _ & H) <- E. rewrite H by exact E. now rewrite ins_app. Qed.
  Lemma inb_app_inv s1 s2 idx : inb (s1 ++ s2) idx = true -> exists i1 i2, idx = i1 ++ i2 /\ inb s1 i1 = true /\ inb s2 i2 = true.
  Proof.
    intros H. pose proof (inb_length _ _ H) as L. rewrite app_length in L. exists (firstn (length s1) idx), (skipn (length s1) idx).
    rewrite <- (firstn_skipn (length s1) idx) in H. rewrite inb_app in H by (rewrite firstn_length; lia). apply andb_true_iff in H as [H1 H2].
    split; [symmetry; apply firstn_skipn|]. auto.
  Qed.
  Lemma piece_before b1 d b2 a X off m T x t i :
    piece_of (b1 ++ d :: b2) a X off m T -> slice_of (length b1) i X x -> slice_of (length b1) i T t -> length (shp x) = length (b1 ++ b2) + 1 + length a ->
    piece_of (b1 ++ b2) a x off m t.
  Proof.
    intros (_ & S & G) HX HT Lx.
    assert (St : shp t = b1 ++ b2 ++ m ++ a /\ i < d). { apply (slice_shp _ _ _ _ b1 d (b2 ++ m ++ a) HT); auto. rewrite S, <- app_assoc. reflexivity. }
    destruct St as [St Hi]. split; [apply HT|]. split; [rewrite St, <- app_assoc; reflexivity|].
    intros ib im ia Hb Hm Ha. apply inb_app_inv in Hb as (i1 & i2 & -> & H1 & H2).
    pose proof (inb_length _ _ H1). pose proof (inb_length _ _ H2). pose proof (inb_length _ _ Hm). pose proof (inb_length _ _ Ha). rewrite <- !app_assoc.
    rewrite (slice_get _ _ _ _ i1 (i2 ++ im ++ ia) HT), (slice_get _ _ _ _ i1 (i2 ++ [off + ravel m im] ++ ia) HX); auto;
      [|rewrite Lx, !app_length; cbn [length]; lia|rewrite St, !app_length; lia].
    specialize (G (i1 ++ i :: i2) im ia). rewrite <- !app_assoc in G. apply G; auto.
    rewrite inb_app by auto. cbn [inb]. apply Nat.ltb_lt in Hi. now rewrite H1, H2, Hi.
  Qed.
  Lemma piece_after b a1 d a2 X off m T x t i :
    piece_of b (a1 ++ d :: a2) X off m T -> slice_of (length b + 1 + length a1) i X x -> slice_of (length b + length m + length a1) i T t ->
    length (shp x) = length b + 1 + length (a1 ++ a2) ->
    piece_of b (a1 ++ a2) x off m t.
  Proof.
    intros (_ & S & G) HX HT Lx.
    assert (St : shp t = (b ++ m ++ a1) ++ a2 /\ i < d). { apply (slice_shp _ _ _ _ (b ++ m ++ a1) d a2 HT); [|rewrite !app_length; lia]. rewrite S, <- !app_assoc. reflexivity. }
    destruct St as [St Hi]. split; [apply HT|]. split; [rewrite St, <- !app_assoc; reflexivity|].
    intros ib im ia Hb Hm Ha. apply inb_app_inv in Ha as (i1 & i2 & -> & H1 & H2).
    pose proof (inb_length _ _ H1). pose proof (inb_length _ _ H2). pose proof (inb_length _ _ Hm). pose proof (inb_length _ _ Hb).
    replace (ib ++ im ++ i1 ++ i2) with ((ib ++ im ++ i1) ++ i2) by now rewrite <- !app_assoc.
    replace (ib ++ [off + ravel m im] ++ i1 ++ i2) with ((ib ++ [off + ravel m im] ++ i1) ++ i2) by now rewrite <- !app_assoc.
    rewrite (slice_get _ _ _ _ (ib ++ im ++ i1) i2 HT), (slice_get _ _ _ _ (ib ++ [off + ravel m im] ++ i1) i2 HX);
      [|rewrite !app_length; cbn [length]; lia|rewrite Lx, !app_length; cbn [length]; lia|rewrite !app_length; lia|rewrite St, !app_length; lia].
    specialize (G ib im (i1 ++ i :: i2)). rewrite <- !app_assoc. apply G; auto.
    rewrite inb_app by auto. cbn [inb]. apply Nat.ltb_lt in Hi. now rewrite H1, H2, Hi.
  Qed.
  Lemma slice_wf k i T t : slice_of k i T t -> wf T /\ wf t.
  Proof. intros (H1 & H2 & _). auto. Qed.
  Lemma piece_shp b a X off m T : piece_of b a X off m T -> shp T = b ++ m ++ a.
  Proof. intros (_ & H & _). exact H. Qed.
  Lemma slice_len k i T t : slice_of k i T t -> length (shp T) = S (length (shp t)).
  Proof. intros (_ & _ & Hk & (n & _ & ->) & _). now apply ins_length. Qed.
  Lemma Forall2_nth2 {B C} (P : B -> C -> Prop) l m k b c : Forall2 P l m -> nth_error l k = Some b -> nth_error m k = Some c -> P b c.
  Proof. intros H. revert k. induction H as [|x y l m Hxy _ IH]; intros [|k] H1 H2; cbn in *; try discriminate; [congruence|eauto]. Qed.
  Lemma Forall2_nth1 {B C} (P : B -> C -> Prop) l m k c : Forall2 P l m -> nth_error m k = Some c -> exists b, nth_error l k = Some b /\ P b c.
  Proof. intros H. revert k. induction H as [|x y l m Hxy _ IH]; intros [|k] H2; cbn in *; try discriminate; [exists x; split; congruence|eauto]. Qed.
  Lemma Forall2_make {B C} (P : B -> C -> Prop) l : (forall b, In b l -> exists c, P b c) -> exists m, Forall2 P l m.
  Proof.
    induction l as [|b l IH]; intros H; [exists []; constructor|]. destruct (H b (or_introl eq_refl)) as [c Hc]. destruct IH as [m Hm]; [intros; apply H; right; auto|].
    exists (c :: m). constructor; auto.
  Qed.
  Lemma split_named {B} (l l1 l2 : list B) (s : list nat) w : length s = length (l1 ++ w :: l2) -> l = l1 ++ l2 ->
    exists s1 d s2, s = s1 ++ d :: s2 /\ length s1 = length l1 /\ length s2 = length l2.
  Proof.
    intros H _. rewrite app_length in H. cbn [length] in H. exists (firstn (length l1) s).
    destruct (skipn (length l1) s) as [|d s2] eqn:E.
    { apply (f_equal (@length _)) in E. rewrite skipn_length in E. cbn in E. lia. }
    exists d, s2. split; [rewrite <- E; symmetry; apply firstn_skipn|]. apply (f_equal (@length _)) in E. rewrite skipn_length in E. cbn in E. rewrite firstn_length. lia.
  Qed.
  Lemma prod_ins s1 d s2 : prodn (s1 ++ d :: s2) <> 0 -> prodn (s1 ++ s2) <> 0.
  Proof. rewrite !prodn_app. cbn [prodn fold_right]. fold (prodn s2). lia. Qed.
End Slices.

Section Places.
  Context {A : Type} (i : nat) (before after before' after' : list pystr) (place : tensor A -> nat).
  Hypothesis HM : one_more before after before' after' place.
  Lemma places b' a' : length b' = length before' -> length a' = length after' ->
    exists b a d, length b = length before /\ length a = length after /\
      (prodn (b' ++ a') <> 0 -> prodn (b ++ a) <> 0) /\ (prodn (b ++ a) <> 0 -> d <> 0 -> prodn (b' ++ a') <> 0) /\
      (forall T mid, wf T -> shp T = b' ++ mid ++ a' -> i < d -> exists t, slice_of (place t) i T t /\ shp t = b ++ mid ++ a) /\
      (forall T t mid, shp T = b' ++ mid ++ a' -> slice_of (place t) i T t -> shp t = b ++ mid ++ a /\ i < d) /\
      (forall X off m T x t n, shp X = b' ++ [n] ++ a' -> piece_of b' a' X off m T -> slice_of (place x) i X x -> slice_of (place t) i T t -> piece_of b a x off m t).
  Proof.
    intros Lb La. destruct HM as [b1 w b2 after0|before0 a1 w a2].
    - destruct (split_named _ b1 b2 b' w Lb eq_refl) as (s1 & d & s2 & -> & L1 & L2). exists (s1 ++ s2), a', d. rewrite <- !app_assoc. cbn [app].
      assert (Sh : forall (T t : tensor A) mid, shp T = (s1 ++ d :: s2) ++ mid ++ a' -> slice_of (length b1) i T t -> shp t = (s1 ++ s2) ++ mid ++ a' /\ i < d).
      { intros T t mid S H. rewrite <- !app_assoc in *. cbn [app] in S. apply (slice_shp _ _ _ _ s1 d _ H); auto. }
      split; [rewrite !app_length; lia|]. split; [exact La|]. split; [apply prod_ins|]. split; [|split; [|split]].
      + rewrite !prodn_app. cbn [prodn fold_right]. fold (prodn (s2 ++ a')). rewrite prodn_app. lia.
      + intros T mid Wt S Hi. rewrite <- L1. destruct (slice_exists T (length s1) d ((s1 ++ s2) ++ mid ++ a') i) as (t & Ht & St); auto.
        { rewrite !app_length. lia. }
        { rewrite <- !app_assoc. rewrite ins_app. rewrite S, <- app_assoc. reflexivity. }
        exists t. split; [exact Ht|]. now rewrite St, <- app_assoc.
      + intros T t mid S H. exact (Sh _ _ _ S H).
      + intros X off m T x t n SX HP HX HT. rewrite <- L1 in HX, HT. apply (piece_before s1 d s2 a' X off m T x t i HP HX HT).
        rewrite L1 in HX. destruct (Sh X x [n] SX HX) as [-> _]. rewrite !app_length. cbn [length]. lia.
    - destruct (split_named _ a1 a2 a' w La eq_refl) as (s1 & d & s2 & -> & L1 & L2). exists b', (s1 ++ s2), d.
      assert (Pl : forall (t : tensor A) mid, shp t = b' ++ mid ++ s1 ++ s2 -> length (shp t) - length a2 = length b' + length mid + length s1).
      { intros t mid ->. rewrite !app_length. lia. }
      assert (Sh : forall (T t : tensor A) mid, shp T = b' ++ mid ++ s1 ++ d :: s2 -> slice_of (length (shp t) - length a2) i T t -> shp t = b' ++ mid ++ s1 ++ s2 /\ i < d).
      { intros T t mid S H. pose proof (slice_len _ _ _ _ H) as El. rewrite S, !app_length in El. cbn [length] in El.
        destruct (slice_shp _ _ _ _ (b' ++ mid ++ s1) d s2 H) as [-> Hi]; [rewrite S, <- !app_assoc; reflexivity|rewrite !app_length; lia|].
        rewrite <- !app_assoc. auto. }
      split; [exact Lb|]. split; [rewrite !app_length; lia|]. split; [rewrite !app_assoc; apply prod_ins|]. split; [|split; [|split]].
      + rewrite !prodn_app. cbn [prodn fold_right]. fold (prodn s2). lia.
      + intros T mid Wt S Hi. destruct (slice_exists T (length (b' ++ mid ++ s1)) d ((b' ++ mid ++ s1) ++ s2) i) as (t & Ht & St); auto.
        { rewrite !app_length. lia. }
        { rewrite ins_app. rewrite S, <- !app_assoc. reflexivity. }
        rewrite <- !app_assoc in St. exists t. split; [|exact St]. rewrite (Pl _ _ St). rewrite !app_length in Ht. rewrite Nat.add_assoc in Ht. exact Ht.
      + exact Sh.
      + intros X off m T x t n SX HP HX HT. destruct (Sh X x [n] SX HX) as [Sx _]. destruct (Sh T t m (piece_shp _ _ _ _ _ _ HP) HT) as [St _].
        rewrite (Pl _ _ Sx) in HX. rewrite (Pl _ _ St) in HT. apply (piece_after b' s1 d s2 X off m T x t i HP HX HT).
        rewrite Sx, !app_length. cbn [length]. lia.
  Qed.
End Places.

Section Laws.
  Context {A : Type} (r : runtime A) (Hr : runtime_ok r).
  Implicit Types X x T t : tensor A.

  Theorem pack_batch p p' before after before' after' (place : tensor A -> nat) i Ts ts X ps :
    pack_pattern (rt_unicode r) p before after -> pack_pattern (rt_unicode r) p' before' after' ->
    one_more before after before' after' place ->
    Forall2 (fun T t => slice_of (place t) i T t) Ts ts -> pack r Ts p' = Ok (X, ps) ->
    exists x, pack r ts p = Ok (x, ps) /\ slice_of (place x) i X x.
  Proof.
    intros Hp Hp' HM HF HK.
    assert (WT : Forall wf Ts /\ Forall wf ts). { clear -HF. induction HF as [|T t Ts ts H _ [I1 I2]]; [split; constructor|]. split; constructor; auto; apply (slice_wf _ _ _ _ H). }
    destruct WT as [WT Wt].
    apply (pack_iff r Ts p' before' after' X ps Hr Hp' WT) in HK as (b' & a' & ms & Lb & La & Hn & HP & -> & (WX & SX & LT & HC)).
    assert (Hn' : ts <> []) by (intros ->; inversion HF; subst; congruence).
    destruct (places i before after before' after' place HM b' a' Lb La) as (b & a & d & Lb0 & La0 & P1 & _ & Ex & Sh & Pc).
    assert (Hd : i < d).
    { destruct Ts as [|T Ts]; [congruence|]. inversion HF as [|? t ? ts' HS HF' ]; subst. destruct ms as [|m ms]; [cbn in LT; lia|].
      apply (Sh T t m); auto. apply (piece_shp _ _ _ _ _ _ (HC 0 m T eq_refl eq_refl)). }
    destruct (Ex X _ WX SX Hd) as (x & HX & Sx). exists x. split; [|exact HX].
    apply (pack_iff r ts p before after x _ Hr Hp Wt). exists b, a, ms. split; [exact Lb0|]. split; [exact La0|]. split; [exact Hn'|]. split; [auto|]. split; [reflexivity|].
    split; [apply (slice_wf _ _ _ _ HX)|]. split; [exact Sx|]. split; [rewrite <- LT; symmetry; eapply Forall2_length; eauto|].
    intros k m t Hm Ht. destruct (Forall2_nth1 _ _ _ _ _ HF Ht) as (T & HT & HS). apply (Pc X (offset ms k) m T x t _ SX); auto.
  Qed.

  Theorem unpack_batch p p' before after before' after' (place : tensor A -> nat) i X x ps b n a Ts :
    pack_pattern (rt_unicode r) p before after -> pack_pattern (rt_unicode r) p' before' after' ->
    one_more before after before' after' place ->
    shp x = b ++ [n] ++ a -> length b = length before -> length a = length after -> prodn (b ++ a) <> 0 ->
    ps <> [] -> (forall q, In q ps -> tame (rt_lib r) q) ->
    slice_of (place x) i X x -> unpack r X ps p' = Ok Ts ->
    exists ts, unpack r x ps p = Ok ts /\ Forall2 (fun T t => slice_of (place t) i T t) Ts ts.
  Proof.
    intros Hp Hp' HM Sx Lb La HP Hn HT HX HK.
    destruct (slack_exists ps Hn (unpack_count r Hr _ _ _ _ HK)) as [ps1 [pu [ps2 [-> SL]]]].
    assert (LX : length (shp X) = length before' + 1 + length after').
    { destruct (Nat.eq_dec (length (shp X)) (length before' + 1 + length after')) as [E|E]; [exact E|]. rewrite (unpack_wrong_rank r Hr X _ p' _ _ Hp' E) in HK. discriminate. }
    assert (SX : exists b' N a', shp X = b' ++ [N] ++ a' /\ length b' = length before' /\ length a' = length after').
    { exists (firstn (length before') (shp X)). destruct (skipn (length before') (shp X)) as [|N a'] eqn:E.
      { apply (f_equal (@length _)) in E. rewrite skipn_length in E. cbn in E. lia. }
      exists N, a'. split; [cbn [app]; rewrite <- E; symmetry; apply firstn_skipn|]. apply (f_equal (@length _)) in E. rewrite skipn_length in E. cbn in E. rewrite firstn_length. lia. }
    destruct SX as (b' & N & a' & SX & Lb' & La').
    destruct (places i before after before' after' place HM b' a' Lb' La') as (b0 & a0 & d & Lb0 & La0 & P1 & P2 & Ex & Sh & Pc).
    destruct (Sh X x [N] SX HX) as [Sx0 Hd]. rewrite Sx in Sx0. apply app_same in Sx0 as [<- Sx0]; [|lia]. injection Sx0 as <- <-.
    assert (HP' : prodn (b' ++ a') <> 0) by (apply P2; auto; lia). destruct (slice_wf _ _ _ _ HX) as [WX Wx].
    apply (unpack_exact r Hr X ps1 pu ps2 p' before' after' b' n a' Ts Hp' SX Lb' La' WX HP' HT SL) in HK as (ms & F1 & F2 & F3 & F4 & F5 & F6).
    destruct (Forall2_make (fun T t => slice_of (place t) i T t) Ts) as (ts & HF).
    { intros T HTi. apply In_nth_error in HTi as (k & Hk). assert (Hm : exists m, nth_error ms k = Some m).
      { destruct (nth_error ms k) as [m|] eqn:E; [eauto|]. apply nth_error_None in E. assert (k < length Ts) by (apply nth_error_Some; congruence). lia. }
      destruct Hm as (m & Hm). destruct (F6 k m T Hm Hk) as (WT & ST & _). destruct (Ex T m WT ST Hd) as (t & H & _). eauto. }
    exists ts. split; [|exact HF].
    apply (unpack_exact r Hr x ps1 pu ps2 p before after b n a ts Hp Sx Lb La Wx HP HT SL). exists ms. split; [exact F1|]. split; [exact F2|]. split; [exact F3|]. split; [exact F4|].
    split; [rewrite <- F5; symmetry; eapply Forall2_length; eauto|].
    intros k m t Hm Ht. destruct (Forall2_nth1 _ _ _ _ _ HF Ht) as (T & HTk & HS). apply (Pc X (start n (length ps1) ms k) m T x t _ SX); auto.
  Qed.
End Laws.
