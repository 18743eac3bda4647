(** * Packing and unpacking when a named axis has length 0 *)
From Verif Require Import Py Tensor ListFacts TensorFacts SpecSem SpecGrammar SpecBatch SpecBatches SpecPacking Parsing Recipe Ops Backends Api Packing
  FrontFacts2 BatchFacts PackFacts2 PackFacts3 PackFacts4 PackFacts5 PackBatch ChunkFacts SpecSelect SelectFacts SpecEmpty.

Lemma prodn_0_In s : prodn s = 0 <-> In 0 s.
Proof.
  induction s as [|d s IH]; [split; [discriminate|intros []]|]. rewrite prodn_cons, Nat.mul_eq_0, IH. cbn. intuition.
Qed.
Lemma prodn_0_mid b m a : prodn (b ++ a) = 0 -> prodn (b ++ m ++ a) = 0.
Proof. rewrite !prodn_0_In, !in_app_iff. tauto. Qed.
Lemma to_nats_zs s : to_nats (map Z.of_nat s) = s.
Proof. unfold to_nats. rewrite map_map. rewrite <- (map_id s) at 2. apply map_ext. apply Nat2Z.id. Qed.

Lemma resolve_zero lib b a q : prodn (b ++ a) = 0 ->
  resolve_shape lib 0 (zs b ++ q ++ zs a) = if all_nonneg q then Ok (b ++ to_nats q ++ a) else Err BackendError.
Proof.
  intros P. unfold resolve_shape.
  assert (N : forall s, all_nonneg (zs s) = true) by (intros s; apply forallb_forall; intros d Hd; apply in_map_iff in Hd as [k [<- _]]; apply Z.leb_le; lia).
  assert (E : all_nonneg (zs b ++ q ++ zs a) = all_nonneg q).
  { unfold all_nonneg in *. rewrite !forallb_app, !N. cbn. apply andb_true_r. }
  rewrite E. destruct (all_nonneg q) eqn:C.
  - unfold to_nats at 1 2. rewrite !map_app. fold (to_nats (zs b)) (to_nats (zs a)) (to_nats q). rewrite !to_nats_zs, (prodn_0_mid b (to_nats q) a P). reflexivity.
  - destruct (_ && _) eqn:D; [|reflexivity]. cbv zeta.
    replace (prodn _) with 0; [reflexivity|]. symmetry. apply prodn_0_In. apply prodn_0_In in P.
    apply (in_map Z.to_nat _ 0%Z). apply filter_In. split; [|destruct lib; reflexivity].
    rewrite !in_app_iff in *. destruct P as [P|P]; apply (in_map Z.of_nat) in P; auto.
Qed.

Lemma mapM_choice {X Y} (f : X -> result Y) (ok : X -> bool) (g : X -> Y) l :
  (forall x, In x l -> f x = if ok x then Ok (g x) else Err BackendError) ->
  mapM f l = if forallb ok l then Ok (map g l) else Err BackendError.
Proof.
  induction l as [|x l IH]; intros H; [reflexivity|]. cbn. rewrite (H x) by (left; auto). destruct (ok x); cbn; [|reflexivity].
  rewrite IH by (intros; apply H; right; auto). destruct (forallb ok l); reflexivity.
Qed.

Section PackEmpty.
  Context {A : Type} (r : runtime A) (Hr : runtime_ok r).
  Implicit Types x X V T Z : tensor A.

  Lemma pieces_zero lib x b a n ps : wf x -> shp x = b ++ [n] ++ a -> prodn (b ++ a) = 0 -> length (filter is_open ps) <= 1 ->
    unpack_pieces lib x b a n ps =
    if forallb all_nonneg ps then Ok (map (fun q => mkT (b ++ to_nats q ++ a) []) ps) else Err BackendError.
  Proof.
    intros W S P C. destruct ps as [|p0 ps0]; [reflexivity|]. set (ps := p0 :: ps0) in *.
    assert (SP : exists sp, split_positions (Z.of_nat n) (composed_lengths ps) = Ok sp /\ length sp = 1 + length ps).
    { destruct (slack_exists ps) as [ps1 [pu [ps2 [E HS]]]]; [discriminate|auto|].
      destruct (splits_at (Z.of_nat n) ps1 pu ps2 HS) as [sp [E1 [E2 _]]]. cbv zeta in E1, E2. rewrite <- E in E1, E2. eauto. }
    destruct SP as [sp [Esp Lsp]]. unfold unpack_pieces. rewrite Esp. cbn [bind].
    rewrite (mapM_choice _ (fun ie => all_nonneg (snd ie)) (fun ie => mkT (b ++ to_nats (snd ie) ++ a) [])).
    - assert (Q : map snd (enumerate ps) = ps).
      { unfold enumerate. generalize 0 as k. clear. induction ps as [|q l IH]; intros k; [reflexivity|]. cbn. f_equal. apply IH. }
      transitivity (if forallb all_nonneg (map snd (enumerate ps)) then Ok (map (fun q => mkT (b ++ to_nats q ++ a) []) (map snd (enumerate ps))) else @Err (list (tensor A)) BackendError); [|now rewrite Q].
      rewrite map_map. replace (forallb all_nonneg (map snd (enumerate ps))) with (forallb (fun ie => all_nonneg (snd ie)) (enumerate ps)); [reflexivity|].
      generalize (enumerate ps). clear. induction l as [|[i q] l IH]; [reflexivity|]. cbn. now rewrite IH.
    - intros [i q] Hi. cbn [snd].
      assert (L : i < length ps).
      { clear - Hi. unfold enumerate in Hi. assert (G : forall l k, In (i, q) (enumerate_from k l) -> i < k + length l).
        { induction l as [|y l IH]; intros k [].
          - injection H as -> ->. cbn. lia.
          - apply IH in H. cbn. lia. }
        apply (G ps 0 Hi). }
      assert (G : forall j, j < length sp -> exists z, list_get sp j = Ok z).
      { intros j Hj. exists (nth j sp 0%Z). apply list_get_Ok. now apply nth_error_nth'. }
      destruct (G i) as [lo ->]; [lia|]. destruct (G (i + 1)) as [hi ->]; [lia|]. cbn [bind].
      destruct (slice_Ok x b n a lo hi W S) as (y & -> & Wy & Sy & _). cbn [bind]. unfold t_reshape.
      assert (P0 : prodn (shp y) = 0) by (rewrite Sy; apply prodn_0_mid; exact P).
      rewrite P0, (resolve_zero lib b a q P). destruct (all_nonneg q); [|reflexivity]. cbn [bind].
      replace (dat y) with (@nil A); [reflexivity|]. symmetry. apply length_zero_iff_nil. rewrite Wy. exact P0.
  Qed.

  (** the lengths of the shapes do not matter; a shape with a negative entry is refused *)
  Lemma unpack_zero x ps p before after b n a :
    pack_pattern (rt_unicode r) p before after ->
    shp x = b ++ [n] ++ a -> length b = length before -> length a = length after -> wf x ->
    prodn (b ++ a) = 0 -> length (filter is_open ps) <= 1 ->
    (Forall closed_shape ps -> unpack r x ps p = Ok (map (fun q => mkT (b ++ map Z.to_nat q ++ a) []) ps)) /\
    (~ Forall closed_shape ps -> unpack r x ps p = Err RuntimeError).
  Proof.
    intros Hp S Lb La W P C. rewrite (unpack_form r Hr x ps p before after b n a Hp S Lb La).
    replace (1 <? length (filter is_open ps)) with false by (symmetry; apply Nat.ltb_ge; exact C).
    rewrite (pieces_zero (rt_lib r) x b a n ps W S P C).
    assert (Q : forallb all_nonneg ps = true <-> Forall closed_shape ps).
    { rewrite forallb_forall, Forall_forall. split; intros H q Hq; apply all_nonneg_closed; auto. }
    destruct (forallb all_nonneg ps).
    - split; intros H; [reflexivity|]. exfalso. apply H, Q. reflexivity.
    - split; intros H; [|reflexivity]. apply Q in H. discriminate.
  Qed.

  Lemma pack_zero ts p before after b a t m :
    pack_pattern (rt_unicode r) p before after -> Forall wf ts ->
    (forall t, In t ts -> length before + length after <= length (shp t)) ->
    In t ts -> shp t = b ++ m ++ a -> length b = length before -> length a = length after -> prodn (b ++ a) = 0 ->
    pack r ts p = Err BackendError.
  Proof.
    intros Hp W R Ht S Lb La P. destruct (pack r ts p) as [[x ps]|e] eqn:E.
    - exfalso. apply (pack_iff r ts p before after x ps Hr Hp W) in E as (b' & a' & ms & Lb' & La' & _ & P' & _ & (_ & _ & LE & PC)).
      apply In_nth_error in Ht as [k Hk]. assert (Hm : exists m', nth_error ms k = Some m').
      { destruct (nth_error ms k) as [m'|] eqn:N; [eauto|]. apply nth_error_None in N.
        assert (k < length ts) by (apply nth_error_Some; congruence). lia. }
      destruct Hm as [m' Hm]. destruct (PC k m' t Hm Hk) as (_ & S' & _).
      rewrite S in S'. assert (E1 : length b = length b') by lia. apply app_same in S' as [-> S']; [|exact E1].
      assert (E2 : a = a').
      { assert (F : rev a ++ rev m = rev a' ++ rev m') by (rewrite <- !rev_app_distr; congruence).
        apply app_same in F as [F _]; [|rewrite !rev_length; lia]. rewrite <- (rev_involutive a), F. apply rev_involutive. }
      congruence.
    - apply (pack_errors r Hr ts p before after e Hp) in E as [[_ ->]|[[_ [t' [Hin Hl]]]|[-> _]]]; [destruct Ht| |reflexivity].
      specialize (R t' Hin). lia.
  Qed.

  (** ** choosing nothing along a named axis *)
  Lemma emptied_at T Z s1 d s2 : shp T = s1 ++ d :: s2 -> (emptied (length s1) T Z <-> wf T /\ wf Z /\ shp Z = s1 ++ 0 :: s2).
  Proof.
    intros S. split.
    - intros (WT & WZ & s & n & Hk & ET & EZ). split; [exact WT|]. split; [exact WZ|]. rewrite S in ET.
      apply app_same in ET as [E1 E2]; [|rewrite firstn_length; lia]. injection E2 as E2 E3. rewrite EZ. rewrite <- E1, <- E3. reflexivity.
    - intros (WT & WZ & EZ). split; [exact WT|]. split; [exact WZ|]. exists (s1 ++ s2), d. rewrite app_length, !ins_app. split; [lia|]. auto.
  Qed.

  Lemma empty_at w before after (place : tensor A -> nat) b a : dim_of w before after place -> length b = length before -> length a = length after ->
    exists b0 a0, length b0 = length before /\ length a0 = length after /\ prodn (b0 ++ a0) = 0 /\
      forall T Z m, shp T = b ++ m ++ a -> (emptied (place T) T Z <-> wf T /\ wf Z /\ shp Z = b0 ++ m ++ a0).
  Proof.
    intros [b1 b2 af|bf a1 a2] Lb La.
    - rewrite app_length in Lb. cbn in Lb. destruct (nth_error b (length b1)) as [d|] eqn:E; [|apply nth_error_None in E; lia].
      apply nth_error_split in E as (c1 & c2 & -> & L1). rewrite app_length in Lb. cbn in Lb. exists (c1 ++ 0 :: c2), a.
      split; [rewrite !app_length; cbn; lia|]. split; [exact La|].
      split; [apply prodn_0_In; rewrite !in_app_iff; cbn; auto|]. intros T Z m S. rewrite <- L1. rewrite <- app_assoc in *. cbn in *. apply (emptied_at T Z c1 d); exact S.
    - rewrite app_length in La. cbn in La. destruct (nth_error a (length a1)) as [d|] eqn:E; [|apply nth_error_None in E; lia].
      apply nth_error_split in E as (c1 & c2 & -> & L1). rewrite app_length in La. cbn in La. exists b, (c1 ++ 0 :: c2).
      split; [exact Lb|]. split; [rewrite !app_length; cbn; lia|].
      split; [apply prodn_0_In; rewrite !in_app_iff; cbn; auto|]. intros T Z m S.
      replace (length (shp T) - Datatypes.S (length a2)) with (length (b ++ m ++ c1)) by (rewrite S, !app_length; cbn; lia).
      replace (b ++ m ++ c1 ++ 0 :: c2) with ((b ++ m ++ c1) ++ 0 :: c2) by (rewrite <- !app_assoc; reflexivity).
      apply (emptied_at T Z (b ++ m ++ c1) d). rewrite S, <- !app_assoc. reflexivity.
  Qed.

  Lemma pack_empty w p before after place Ts Zs X ps :
    pack_pattern (rt_unicode r) p before after -> dim_of w before after place ->
    Forall2 (fun T Z => emptied (place T) T Z) Ts Zs -> pack r Ts p = Ok (X, ps) ->
    pack r Zs p = Err BackendError.
  Proof.
    intros Hp D F E.
    assert (WT : Forall wf Ts) by (clear E; induction F as [|T Z Ts Zs H F IH]; constructor; [apply H|auto]).
    assert (WZ : Forall wf Zs) by (clear E WT; induction F as [|T Z Ts Zs H F IH]; constructor; [apply H|auto]).
    apply (pack_iff r Ts p before after X ps Hr Hp WT) in E as (b & a & ms & Lb & La & NE & _ & _ & (_ & _ & LE & PC)).
    destruct (empty_at w before after place b a D Lb La) as (b0 & a0 & L1 & L2 & P & Q).
    assert (G : forall Z, In Z Zs -> exists m, shp Z = b0 ++ m ++ a0).
    { intros Z HZ. apply In_nth_error in HZ as [k Hk].
      assert (HT : exists T, nth_error Ts k = Some T /\ emptied (place T) T Z).
      { clear - F Hk. revert k Hk. induction F as [|T Z0 Ts Zs H F IH]; intros [|k] Hk; cbn in *; try discriminate; [injection Hk as ->; eauto|auto]. }
      destruct HT as (T & HT & H). assert (Hm : exists m, nth_error ms k = Some m).
      { destruct (nth_error ms k) as [m'|] eqn:N; [eauto|]. apply nth_error_None in N.
        assert (k < length Ts) by (apply nth_error_Some; congruence). lia. }
      destruct Hm as [m Hm]. destruct (PC k m T Hm HT) as (_ & S & _). exists m. apply (Q T Z m S) in H. apply H. }
    destruct F as [|T Z Ts' Zs' H F]; [congruence|]. destruct (G Z) as [m S]; [left; auto|].
    apply (pack_zero (Z :: Zs') p before after b0 a0 Z m); auto; [|left; auto].
    intros t Ht. destruct (G t Ht) as [m' ->]. rewrite !app_length. lia.
  Qed.

  Lemma unpack_empty w p before after place X Z ps Ts :
    pack_pattern (rt_unicode r) p before after -> dim_of w before after place ->
    emptied (place X) X Z -> unpack r X ps p = Ok Ts ->
    (Forall closed_shape ps -> exists Zs, unpack r Z ps p = Ok Zs /\ Forall2 (fun T Z => emptied (place T) T Z) Ts Zs) /\
    (~ Forall closed_shape ps -> unpack r Z ps p = Err RuntimeError).
  Proof.
    intros Hp D H E.
    assert (SS : exists b n a, shp X = b ++ [n] ++ a /\ length b = length before /\ length a = length after).
    { destruct (Nat.eq_dec (length (shp X)) (length before + 1 + length after)) as [L|L];
        [|rewrite (unpack_wrong_rank r Hr X ps p before after Hp L) in E; discriminate].
      destruct (nth_error (shp X) (length before)) as [n|] eqn:N; [|apply nth_error_None in N; lia].
      apply nth_error_split in N as (b & a & N & Lb). exists b, n, a. rewrite N in L. rewrite app_length in L. cbn in L. repeat split; auto. lia. }
    destruct SS as (b & n & a & S & Lb & La).
    destruct (empty_at w before after place b a D Lb La) as (b0 & a0 & L1 & L2 & P & Q).
    apply (Q X Z [n] S) in H as (WX & WZ & SZ).
    assert (C : length (filter is_open ps) <= 1).
    { rewrite (unpack_form r Hr X ps p before after b n a Hp S Lb La) in E. destruct (Nat.ltb_spec 1 (length (filter is_open ps))); [discriminate|lia]. }
    destruct (unpack_zero Z ps p before after b0 n a0 Hp SZ L1 L2 WZ P C) as [Z1 Z2]. split; [|exact Z2].
    intros CL. eexists. split; [apply Z1, CL|]. clear Z1 Z2.
    assert (G : Forall2 (fun q T => wf T /\ shp T = b ++ map Z.to_nat q ++ a) ps Ts).
    { destruct (Nat.eq_dec (prodn (b ++ a)) 0) as [P0|P0].
      - destruct (unpack_zero X ps p before after b n a Hp S Lb La WX P0 C) as [X1 _]. rewrite (X1 CL) in E. injection E as <-.
        clear - P0. induction ps as [|q ps IH]; constructor; [|exact IH]. split; [|reflexivity]. unfold wf. cbn [shp dat]. now rewrite prodn_0_mid.
      - destruct ps as [|p0 ps0].
        { rewrite (unpack_form r Hr X [] p before after b n a Hp S Lb La) in E. cbn in E. injection E as <-. constructor. }
        set (ps := p0 :: ps0) in *. destruct (slack_exists ps) as [ps1 [pu [ps2 [EQ HS]]]]; [discriminate|auto|].
        assert (HT : forall q, In q (ps1 ++ pu :: ps2) -> tame (rt_lib r) q).
        { rewrite <- EQ. intros q Hq. right. intros d Hd. rewrite Forall_forall in CL. specialize (CL q Hq d Hd). lia. }
        clearbody ps. subst ps. pose proof (proj1 (unpack_exact r Hr X ps1 pu ps2 p before after b n a Ts Hp S Lb La WX P0 HT HS) E) as (ms & F & _ & _ & _ & LE & PC).
        assert (PC' : forall k m t, nth_error ms k = Some m -> nth_error Ts k = Some t -> wf t /\ shp t = b ++ m ++ a).
        { intros k m t H1 H2. destruct (PC k m t H1 H2) as (W & S' & _). auto. }
        clear - F LE PC' CL. revert Ts LE PC' CL. induction F as [|q m l ms Hq F IH]; intros [|T Ts] LE PC CL; cbn in LE; try discriminate; constructor.
        + destruct (PC 0 m T eq_refl eq_refl) as [W S]. split; [exact W|]. rewrite S. inversion CL as [|? ? Cq Cl]; subst.
          apply (fills_closed q (prodn m) m) in Hq as [-> _]; [reflexivity|].
          destruct (is_open q) eqn:O; [|reflexivity]. apply is_open_iff in O. specialize (Cq _ O). lia.
        + inversion CL; subst. apply IH; [lia| |auto]. intros k. apply (PC (Datatypes.S k)). }
    clear - G Q P. induction G as [|q T ps Ts [W S] G IH]; constructor; [|exact IH].
    apply (Q T _ _ S). split; [exact W|]. split; [|reflexivity]. unfold wf. cbn [shp dat]. now rewrite prodn_0_mid.
  Qed.
End PackEmpty.
