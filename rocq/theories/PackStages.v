(** * Packing and unpacking in stages: proofs *)
From Verif Require Import Py Tensor Parsing Recipe Ops Backends SpecGrammar SpecPattern Api Packing SpecPacking ListFacts TensorFacts PackFacts PackFacts2 PackFacts3 PackFacts4 PackFacts5.

Section Stages.
  Context {A : Type} (b a : list nat).
  Implicit Types (x y t : tensor A) (ts : list (tensor A)) (ms : list (list nat)).
  Notation total ms := (list_sum (map prodn ms)).

  Lemma offset_cons m ms k : offset (m :: ms) (S k) = prodn m + offset ms k.
  Proof. reflexivity. Qed.
  Lemma total_cons m ms : total (m :: ms) = prodn m + total ms.
  Proof. reflexivity. Qed.

  Inductive laid x : nat -> list (list nat) -> list (tensor A) -> Prop :=
  | laid_nil off : laid x off [] []
  | laid_cons off m ms t ts : piece_of b a x off m t -> laid x (off + prodn m) ms ts -> laid x off (m :: ms) (t :: ts).
  Lemma laid_len x off ms ts : laid x off ms ts -> length ts = length ms.
  Proof. induction 1; cbn; congruence. Qed.
  Lemma laid_nth x ms : forall off ts, laid x off ms ts <->
    length ts = length ms /\ forall k m t, nth_error ms k = Some m -> nth_error ts k = Some t -> piece_of b a x (off + offset ms k) m t.
  Proof.
    induction ms as [|m ms IH]; intros off ts; split.
    - intros H. inversion H; subst. split; [reflexivity|]. intros [|k] ? ? H1; discriminate.
    - intros [L _]. destruct ts; [constructor|discriminate].
    - intros H. inversion H as [|o m0 ms0 t ts' H1 H2]; subst. apply IH in H2 as [L H2]. split; [cbn; congruence|].
      intros [|k] m' t' E1 E2; cbn [nth_error] in *.
      + injection E1 as <-. injection E2 as <-. change (offset (m :: ms) 0) with 0. rewrite Nat.add_0_r. exact H1.
      + specialize (H2 k m' t' E1 E2). replace (off + offset (m :: ms) (S k)) with (off + prodn m + offset ms k); [exact H2|]. rewrite offset_cons. lia.
    - intros [L H]. destruct ts as [|t ts]; [discriminate|]. constructor.
      + specialize (H 0 m t eq_refl eq_refl). change (offset (m :: ms) 0) with 0 in H. rewrite Nat.add_0_r in H. exact H.
      + apply IH. split; [cbn in L; congruence|]. intros k m' t' E1 E2. specialize (H (S k) m' t' E1 E2).
        replace (off + prodn m + offset ms k) with (off + offset (m :: ms) (S k)); [exact H|]. rewrite offset_cons. lia.
  Qed.
  Lemma consists_laid x ms ts : consists_of b a x ms ts <-> wf x /\ shp x = b ++ [total ms] ++ a /\ laid x 0 ms ts.
  Proof. unfold consists_of. rewrite laid_nth. cbn [Nat.add]. tauto. Qed.
  Lemma laid_app x ms1 ms2 ts1 ts2 : forall off, length ts1 = length ms1 ->
    laid x off (ms1 ++ ms2) (ts1 ++ ts2) <-> laid x off ms1 ts1 /\ laid x (off + total ms1) ms2 ts2.
  Proof.
    revert ts1. induction ms1 as [|m ms1 IH]; intros [|t ts1] off L; try discriminate; cbn [app].
    - change (total []) with 0. rewrite Nat.add_0_r. split; [intros H; split; [constructor|exact H]|tauto].
    - cbn in L. injection L as L. rewrite total_cons, Nat.add_assoc. split.
      + intros H. inversion H; subst. apply IH in H6 as [H1 H2]; [|exact L]. split; [constructor; assumption|exact H2].
      + intros [H1 H2]. inversion H1; subst. constructor; [assumption|]. apply IH; [exact L|]. split; assumption.
  Qed.

  (** a piece of a piece *)
  Lemma piece_piece x y off N o m t : piece_of b a x off [N] y -> o + prodn m <= N -> (piece_of b a y o m t <-> piece_of b a x (off + o) m t).
  Proof.
    intros (Wy & Sy & Gy) Ho. unfold piece_of. split; intros (W & S & G); (split; [exact W|split; [exact S|]]); intros ib im ia H1 H2 H3; rewrite G by assumption.
    - pose proof (ravel_lt m im H2). rewrite (Gy ib [o + ravel m im] ia H1); [|apply inb_one; lia|exact H3]. cbn. do 3 f_equal. lia.
    - pose proof (ravel_lt m im H2). rewrite (Gy ib [o + ravel m im] ia H1); [|apply inb_one; lia|exact H3]. cbn. do 3 f_equal. lia.
  Qed.
  Lemma laid_piece x y off N : piece_of b a x off [N] y -> forall ms ts o, o + total ms <= N -> (laid y o ms ts <-> laid x (off + o) ms ts).
  Proof.
    intros Hy. induction ms as [|m ms IH]; intros ts o Ho.
    - split; intros H; inversion H; constructor.
    - rewrite total_cons in Ho. split; intros H; inversion H; subst; constructor.
      + apply (piece_piece x y off N); [exact Hy|lia|assumption].
      + rewrite <- Nat.add_assoc. apply IH; [lia|assumption].
      + apply (piece_piece x y off N); [exact Hy|lia|assumption].
      + apply IH; [lia|]. rewrite Nat.add_assoc. assumption.
  Qed.
  Lemma piece_exists x n off N : wf x -> shp x = b ++ [n] ++ a -> off + N <= n -> exists y, piece_of b a x off [N] y.
  Proof.
    intros Hw Hs Ho. destruct (slice_Ok x b n a (Z.of_nat off) (Z.of_nat (off + N)) Hw Hs) as (y & _ & Wy & Sy & Gy).
    rewrite !sb_nat in * by lia. replace (off + N - off) with N in * by lia. exists y. split; [exact Wy|]. split; [exact Sy|].
    intros ib im ia H1 H2 H3. destruct im as [|i [|? ?]]; try discriminate; [|cbn in H2; rewrite andb_false_r in H2; discriminate].
    apply inb_one in H2. rewrite (Gy ib i ia H1 H2 H3). cbn. do 3 f_equal. lia.
  Qed.
  Lemma piece_consists x y off ms ts : piece_of b a x off [total ms] y -> (consists_of b a y ms ts <-> laid x off ms ts).
  Proof.
    intros Hy. rewrite consists_laid. pose proof (laid_piece x y off _ Hy ms ts 0 ltac:(lia)) as E. rewrite Nat.add_0_r in E. rewrite E.
    destruct Hy as (W & S & _). tauto.
  Qed.

  Inductive stages : list (tensor A) -> list (list (list nat)) -> list (list (tensor A)) -> Prop :=
  | st_nil : stages [] [] []
  | st_cons y ys ms mss ts tss : consists_of b a y ms ts -> stages ys mss tss -> stages (y :: ys) (ms :: mss) (ts :: tss).
  Definition sums (mss : list (list (list nat))) : list (list nat) := map (fun ms => [total ms]) mss.
  Lemma total_sums mss : total (sums mss) = total (concat mss).
  Proof. induction mss as [|ms mss IH]; [reflexivity|]. change (total (sums (ms :: mss))) with (total ms * 1 + total (sums mss)). cbn [concat]. rewrite map_app, list_sum_app, <- IH. lia. Qed.
  Lemma laid_grouped x mss : forall off tss ys, laid x off (sums mss) ys -> stages ys mss tss -> laid x off (concat mss) (concat tss).
  Proof.
    induction mss as [|ms mss IH]; intros off tss ys Hy Hs; inversion Hs as [|y ys' ms0 mss0 ts tss' H1 H2]; subst; [constructor|].
    cbn [sums map] in Hy. fold (sums mss) in Hy. inversion Hy as [|o m0 ms0 t0 ts0 H3 H4]; subst. cbn [concat].
    apply laid_app; [apply H1|]. split; [apply (piece_consists x y off ms ts H3), H1|]. cbn [prodn fold_right] in H4. rewrite Nat.mul_1_r in H4. eapply IH; eauto.
  Qed.
  Lemma laid_split x n mss : wf x -> shp x = b ++ [n] ++ a -> forall off tss, off + total (concat mss) <= n -> Forall2 (fun ms ts => length ts = length ms) mss tss ->
    laid x off (concat mss) (concat tss) -> exists ys, laid x off (sums mss) ys /\ stages ys mss tss.
  Proof.
    intros Hw Hs. induction mss as [|ms mss IH]; intros off tss Ho HL H; inversion HL as [|ms0 ts mss0 tss' L HL']; subst; [exists []; split; constructor|].
    cbn [concat] in *. rewrite map_app, list_sum_app in Ho. apply laid_app in H as [H1 H2]; [|exact L].
    destruct (piece_exists x n off (total ms) Hw Hs) as (y & Hy); [lia|].
    destruct (IH (off + total ms) tss' ltac:(lia) HL' H2) as (ys & H3 & H4). exists (y :: ys). split.
    - cbn [sums map]. constructor; [exact Hy|]. cbn [prodn fold_right]. rewrite Nat.mul_1_r. exact H3.
    - constructor; [apply (piece_consists x y off), H1; exact Hy|exact H4].
  Qed.
  Lemma consists_stages x mss tss : Forall2 (fun ms ts => length ts = length ms) mss tss ->
    consists_of b a x (concat mss) (concat tss) <-> exists ys, consists_of b a x (sums mss) ys /\ stages ys mss tss.
  Proof.
    intros HL. split.
    - intros H. apply consists_laid in H as (Hw & Hs & H).
      destruct (laid_split x _ mss Hw Hs 0 tss ltac:(lia) HL H) as (ys & H1 & H2). exists ys. split; [|exact H2]. apply consists_laid. rewrite total_sums. auto.
    - intros (ys & H & H2). apply consists_laid in H as (Hw & Hs & H). rewrite total_sums in Hs. apply consists_laid. split; [exact Hw|]. split; [exact Hs|]. eapply laid_grouped; eauto.
  Qed.
End Stages.

Lemma Forall2_split {X Y} (R : X -> Y -> Prop) : forall (ls : list (list X)) m, Forall2 R (concat ls) m -> exists ms, m = concat ms /\ Forall2 (Forall2 R) ls ms.
Proof.
  induction ls as [|l ls IH]; intros m H; cbn in H; [inversion H; exists []; split; [reflexivity|constructor]|].
  apply Forall2_app_inv_l in H as (m1 & m2 & H1 & H2 & ->). destruct (IH m2 H2) as (ms & -> & H3). exists (m1 :: ms). split; [reflexivity|constructor; assumption].
Qed.
Lemma split_as {X Y} (ls : list (list X)) (m : list Y) : length m = length (concat ls) -> exists ms, m = concat ms /\ Forall2 (fun l m => length m = length l) ls ms.
Proof.
  revert m. induction ls as [|l ls IH]; intros m L; cbn in L; [destruct m; [exists []; split; [reflexivity|constructor]|discriminate]|].
  rewrite app_length in L. destruct (IH (skipn (length l) m)) as (ms & E & H); [rewrite skipn_length; lia|].
  exists (firstn (length l) m :: ms). split; [cbn; rewrite <- E, firstn_skipn; reflexivity|]. constructor; [rewrite firstn_length; lia|exact H].
Qed.

Section Pack.
  Context {A : Type} (r : runtime A) (Hr : runtime_ok r).
  Implicit Types (x y t : tensor A) (ts : list (tensor A)) (ms : list (list nat)).
  Notation zs := (map Z.of_nat).

  Lemma zs_inj (s s' : list nat) : zs s = zs s' -> s = s'.
  Proof. intros E. apply (f_equal to_nats) in E. rewrite !to_nats_zs in E. exact E. Qed.
  Lemma zs_inj2 (s s' : list (list nat)) : map zs s = map zs s' -> s = s'.
  Proof. revert s'. induction s as [|m s IH]; intros [|m' s'] E; try discriminate; [reflexivity|]. injection E as E1 E2. f_equal; [apply zs_inj, E1|apply IH, E2]. Qed.
  Lemma same_frame (b a m b' a' m' : list nat) : length b = length b' -> length a = length a' -> b ++ m ++ a = b' ++ m' ++ a' -> b = b' /\ a = a' /\ m = m'.
  Proof.
    intros Lb La E. assert (length m = length m') by (apply (f_equal (@length _)) in E; rewrite !app_length in E; lia).
    assert (b = b' /\ m ++ a = m' ++ a') as [-> E'].
    { clear - Lb E. revert b' Lb E. induction b as [|d b IH]; intros [|d' b'] L E; try discriminate; [auto|]. injection E as -> E. injection L as L. destruct (IH b' L E) as [-> ->]. auto. }
    assert (m = m' /\ a = a') as [-> ->]; [|auto].
    clear - H E'. revert m' H E'. induction m as [|d b IH]; intros [|d' b'] L E; try discriminate; [auto|]. injection E as -> E. injection L as L. destruct (IH b' L E) as [-> ->]. auto.
  Qed.

  Lemma each_packed p before after b a ys mss tss : pack_pattern (rt_unicode r) p before after -> length b = length before -> length a = length after -> prodn (b ++ a) <> 0 ->
    Forall (Forall wf) tss -> Forall (fun ts => ts <> []) tss -> stages b a ys mss tss -> mapM (fun ts => pack r ts p) tss = Ok (combine ys (map (map zs) mss)).
  Proof.
    intros Hp Lb La P Hw Hn H. induction H as [|y ys ms mss ts tss H1 H2 IH]; [reflexivity|]. inversion Hw; subst. inversion Hn; subst. cbn [mapM map combine].
    rewrite (proj2 (pack_iff r ts p before after y (map zs ms) Hr Hp ltac:(assumption))); [cbn [bind]; rewrite IH by assumption; reflexivity|].
    exists b, a, ms. auto 8.
  Qed.
  Lemma stages_len b a (ys : list (tensor A)) mss tss : stages b a ys mss tss -> length ys = length (map (map zs) mss) /\ Forall2 (fun ms (ts : list (tensor A)) => length ts = length ms) mss tss.
  Proof. induction 1 as [|y ys ms mss ts tss H1 H2 [IH1 IH2]]; [split; [reflexivity|constructor]|]. split; [cbn; congruence|constructor; [apply H1|exact IH2]]. Qed.
  Lemma stages_wf b a (ys : list (tensor A)) mss tss : stages b a ys mss tss -> Forall wf ys.
  Proof. induction 1 as [|y ys ms mss ts tss H1 H2 IH]; constructor; [apply H1|exact IH]. Qed.

  Lemma packed_in_stages tss p x ps : Forall (Forall wf) tss -> Forall (fun ts => ts <> []) tss ->
    pack r (concat tss) p = Ok (x, ps) <->
    exists packed, mapM (fun ts => pack r ts p) tss = Ok packed /\ ps = concat (map snd packed) /\
      pack r (map fst packed) p = Ok (x, map (fun q => [Z.of_nat (list_sum (map (fun s => prodn (to_nats s)) (snd q)))]) packed).
  Proof.
    intros Hw Hn. assert (Hc : Forall wf (concat tss)) by (apply Forall_concat; exact Hw). split.
    - intros H. destruct (pack_inv_pattern r Hr _ _ _ _ H) as (before & after & Hp).
      destruct (proj1 (pack_iff r _ p before after x ps Hr Hp Hc) H) as (b & a & ms & Lb & La & Hne & P & -> & HC).
      pose proof HC as (_ & _ & L & _). destruct (split_as tss ms (eq_sym L)) as (mss & -> & HL).
      apply consists_stages in HC as (ys & H1 & H2); [|clear - HL; induction HL; constructor; auto].
      exists (combine ys (map (map zs) mss)). pose proof (stages_len _ _ _ _ _ H2) as [Ly _]. split; [eapply each_packed; eauto|].
      assert (E1 : map fst (combine ys (map (map zs) mss)) = ys).
      { clear - Ly. revert mss Ly. induction ys as [|y ys IH]; intros [|ms mss] L; try discriminate; [reflexivity|]. cbn in *. f_equal. apply IH. congruence. }
      assert (E2 : map snd (combine ys (map (map zs) mss)) = map (map zs) mss).
      { clear - Ly. revert mss Ly. induction ys as [|y ys IH]; intros [|ms mss] L; try discriminate; [reflexivity|]. cbn in *. f_equal. apply IH. congruence. }
      split; [rewrite E2, concat_map; reflexivity|]. rewrite E1.
      rewrite <- (map_map snd (fun q => [Z.of_nat (list_sum (map (fun s => prodn (to_nats s)) q))])), E2, map_map.
      apply (pack_iff r ys p before after x _ Hr Hp (stages_wf _ _ _ _ _ H2)). exists b, a, (sums mss). split; [exact Lb|]. split; [exact La|]. split; [|split; [exact P|split; [|exact H1]]].
      + intros ->. inversion H2; subst. apply Hne. reflexivity.
      + unfold sums. rewrite map_map. apply map_ext. intros ms. cbn. do 3 f_equal. rewrite map_map. apply map_ext. intros s. rewrite to_nats_zs. reflexivity.
    - intros (packed & E & -> & H). destruct (pack_inv_pattern r Hr _ _ _ _ H) as (before & after & Hp).
      assert (Wy : Forall wf (map fst packed)).
      { clear - Hr Hp Hw E. revert packed E. induction tss as [|ts tss IH]; intros packed E; cbn in E; [injection E as <-; constructor|].
        inversion Hw; subst. apply bind_Ok in E as ([y q] & E1 & E). apply bind_Ok in E as (rest & E2 & E). injection E as <-. constructor; [|apply IH; assumption].
        apply (pack_iff r ts p before after y q Hr Hp ltac:(assumption)) in E1 as (b & a & ms & _ & _ & _ & _ & _ & H). apply H. }
      destruct (proj1 (pack_iff r _ p before after x _ Hr Hp Wy) H) as (b & a & ns & Lb & La & Hne & P & Eq & HC).
      assert (X : exists mss, stages b a (map fst packed) mss tss /\ map snd packed = map (map zs) mss).
      { pose proof (proj1 (Forall2_shp_consists _ _ _ _ _ HC)) as HS. clear - Hr Hp Hw E HS Lb La. revert packed ns E HS. induction tss as [|ts tss IH]; intros packed ns E HS; cbn in E.
        - injection E as <-. exists []. split; [constructor|reflexivity].
        - inversion Hw; subst. apply bind_Ok in E as ([y q] & E1 & E). apply bind_Ok in E as (rest & E2 & E). injection E as <-. cbn [map fst snd] in *.
          inversion HS as [|? m ? ns' S1 S2]; subst. destruct (IH ltac:(assumption) rest ns' E2 S2) as (mss & H3 & H4).
          apply (pack_iff r ts p before after y q Hr Hp ltac:(assumption)) in E1 as (b' & a' & ms & Lb' & La' & _ & _ & -> & H5).
          pose proof H5 as (_ & S & _). rewrite S1 in S. apply same_frame in S as (<- & <- & _); [|congruence|congruence].
          exists (ms :: mss). split; [constructor; assumption|]. cbn. rewrite H4. reflexivity. }
      destruct X as (mss & HS & Es). rewrite Es.
      apply (pack_iff r _ p before after x _ Hr Hp Hc). exists b, a, (concat mss). split; [exact Lb|]. split; [exact La|]. split; [|split; [exact P|split; [rewrite concat_map; reflexivity|]]].
      + intros X. destruct tss as [|ts tss]; [cbn in E; injection E as <-; apply Hne; reflexivity|]. inversion Hn; subst. cbn in X. apply app_eq_nil in X as [X _]. contradiction.
      + apply consists_stages; [apply (stages_len _ _ _ _ _ HS)|]. exists (map fst packed). split; [|exact HS]. replace (sums mss) with ns; [exact HC|]. apply zs_inj2. rewrite <- Eq.
        rewrite <- (map_map snd (fun q => [Z.of_nat (list_sum (map (fun s => prodn (to_nats s)) q))])), Es, map_map. unfold sums. rewrite map_map.
        apply map_ext. intros ms. cbn. do 3 f_equal. rewrite map_map. apply map_ext. intros s. rewrite to_nats_zs. reflexivity.
  Qed.
End Pack.
