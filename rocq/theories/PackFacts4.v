(** * Facts about packing: unpack *)
From Verif Require Import Py Tensor Parsing Recipe Ops Backends ListFacts TensorFacts SpecGrammar SpecPattern Api Packing SpecPacking PackFacts PackFacts2 PackFacts3.

Lemma is_open_iff p : is_open p = true <-> open_shape p.
Proof.
  unfold is_open, open_shape. rewrite existsb_exists. split.
  - intros [d [H E]]. apply Z.eqb_eq in E. subst; auto.
  - intros H. exists (-1)%Z. split; auto.
Qed.
Lemma has_minus1_open p : has_minus1 p = is_open p.
Proof. unfold has_minus1, is_open. induction p as [|d p IH]; cbn [existsb]; [reflexivity|]. rewrite IH. f_equal. apply Z.eqb_sym. Qed.

Lemma prod_shape_fold p k : fold_left Z.mul p k = (k * fold_left Z.mul p 1)%Z.
Proof. revert k. induction p as [|d p IH]; intros k; cbn [fold_left]; [lia|]. rewrite IH, (IH (1 * d)%Z). ring. Qed.
Lemma prod_shape_cons d p : prod_shape (d :: p) = (d * prod_shape p)%Z.
Proof. unfold prod_shape. cbn [fold_left]. rewrite prod_shape_fold. ring. Qed.
Lemma prod_shape_closed p : closed_shape p -> prod_shape p = Z.of_nat (prodn (to_nats p)).
Proof.
  induction p as [|d p IH]; intros H; [reflexivity|]. rewrite prod_shape_cons. cbn [to_nats map]. rewrite prodn_cons.
  fold (to_nats p). rewrite IH by (intros x Hx; apply H; right; auto).
  pose proof (H d (or_introl eq_refl)). rewrite Nat2Z.inj_mul, Z2Nat.id by auto. auto.
Qed.
(** a product of integers can only be -1 if one of them is *)
Lemma prod_shape_not_minus1 p : is_open p = false -> prod_shape p <> (-1)%Z.
Proof.
  induction p as [|d p IH]; intros H; [discriminate|]. rewrite prod_shape_cons.
  unfold is_open in H. cbn [existsb] in H. apply orb_false_iff in H as [H1 H2]. apply Z.eqb_neq in H1.
  specialize (IH H2). intros E.
  assert (D : d = 1%Z \/ d = (-1)%Z) by (apply Z.eq_mul_1 with (m := (- prod_shape p)%Z); lia).
  destruct D; subst; [lia|congruence].
Qed.

Lemma composed_nth ps k p : nth_error ps k = Some p ->
  nth k (composed_lengths ps) 0%Z = if is_open p then (-1)%Z else prod_shape p.
Proof.
  intros H. unfold composed_lengths. apply nth_error_nth. rewrite <- has_minus1_open.
  exact (map_nth_error (fun p => if has_minus1 p then (-1)%Z else prod_shape p) k ps H).
Qed.
Lemma composed_minus1 ps x : In x (composed_lengths ps) -> x = (-1)%Z -> exists p, In p ps /\ is_open p = true.
Proof.
  unfold composed_lengths. intros H E. apply in_map_iff in H as [p [Hp Hi]]. exists p. split; auto.
  rewrite has_minus1_open in Hp. destruct (is_open p) eqn:Eo; auto. exfalso. apply (prod_shape_not_minus1 p Eo). congruence.
Qed.
Lemma composed_count ps :
  length (filter (fun x => (x =? -1)%Z) (composed_lengths ps)) = length (filter is_open ps).
Proof.
  induction ps as [|p ps IH]; [reflexivity|]. cbn [composed_lengths map filter]. fold (composed_lengths ps).
  rewrite has_minus1_open. destruct (is_open p) eqn:E.
  - rewrite Z.eqb_refl. cbn [length]. rewrite IH. reflexivity.
  - destruct (Z.eqb_spec (prod_shape p) (-1)) as [E'|E']; [exfalso; apply (prod_shape_not_minus1 p E E')|exact IH].
Qed.

Lemma slack_exists ps : ps <> [] -> length (filter is_open ps) <= 1 ->
  exists ps1 pu ps2, ps = ps1 ++ pu :: ps2 /\ slack ps1 pu ps2.
Proof.
  intros Hn Hc. destruct (length (filter is_open ps)) as [|[|?]] eqn:E; [| |lia].
  - destruct (exists_last Hn) as [ps1 [pu ->]]. exists ps1, pu, []. split; auto.
    assert (F : filter is_open (ps1 ++ [pu]) = []) by (destruct (filter is_open (ps1 ++ [pu])); [auto|discriminate]).
    split; [|right; auto]. intros p Hp. rewrite app_nil_r in Hp.
    apply (filter_nil_false _ _ _ F). apply in_or_app; auto.
  - destruct (filter_one_split _ _ E) as [ps1 [pu [ps2 [-> [Hu [F1 F2]]]]]]. exists ps1, pu, ps2. split; auto.
    split; [|left; auto]. intros p Hp. apply in_app_or in Hp as [Hp|Hp]; [apply (filter_nil_false _ _ _ F1 Hp)|apply (filter_nil_false _ _ _ F2 Hp)].
Qed.

Lemma slack_count ps1 pu ps2 : slack ps1 pu ps2 -> length (filter is_open (ps1 ++ pu :: ps2)) <= 1.
Proof.
  intros [H _]. rewrite filter_app. cbn [filter].
  assert (F : forall l, (forall p, In p l -> is_open p = false) -> filter is_open l = []).
  { induction l as [|q l IH]; intros Hl; [auto|]. cbn. rewrite (Hl q (or_introl eq_refl)). apply IH. intros; apply Hl; right; auto. }
  rewrite (F ps1) by (intros; apply H; apply in_or_app; auto). rewrite (F ps2) by (intros; apply H; apply in_or_app; auto).
  destruct (is_open pu); cbn; lia.
Qed.

Lemma splits_at n ps1 pu ps2 : slack ps1 pu ps2 ->
  let ps := ps1 ++ pu :: ps2 in let f := fun j => nth j (composed_lengths ps) 0%Z in
  exists sp, split_positions n (composed_lengths ps) = Ok sp /\ length sp = S (length ps) /\
    (forall i, i <= length ps1 -> nth_error sp i = Some (zsum f 0 i)) /\
    (forall i, length ps1 < i <= length ps -> nth_error sp i = Some (n - zsum f i (length ps - i))%Z).
Proof.
  intros [H1 H2] ps f.
  assert (LC : forall l, length (composed_lengths l) = length l) by (intros; apply map_length).
  destruct (is_open pu) eqn:Eu.
  - assert (E : composed_lengths ps = composed_lengths ps1 ++ (-1)%Z :: composed_lengths ps2).
    { unfold ps, composed_lengths. rewrite map_app. cbn [map]. rewrite has_minus1_open, Eu. reflexivity. }
    unfold f. rewrite E.
    destruct (splits_unknown n (composed_lengths ps1) (composed_lengths ps2)) as [sp [E1 [L1 [N1 N2]]]].
    { intros Hi. destruct (composed_minus1 _ _ Hi eq_refl) as [p [Hp Ho]]. rewrite H1 in Ho; [discriminate|]. apply in_or_app; auto. }
    rewrite !app_length in *. cbn [length] in *. rewrite !LC in *.
    assert (LP : length ps = length ps1 + S (length ps2)) by (unfold ps; rewrite app_length; auto).
    exists sp. rewrite LP. auto.
  - destruct H2 as [H2|H2]; [discriminate|]. subst ps2. rewrite app_nil_r in H1.
    assert (NO : forall p, In p ps -> is_open p = false).
    { intros p Hp. unfold ps in Hp. apply in_app_or in Hp as [Hp|[Hp|[]]]; [auto|subst; auto]. }
    destruct (splits_known n (composed_lengths ps)) as [sp [E1 [L1 [Nn Ni]]]].
    { intros x Hx Ex. destruct (composed_minus1 _ _ Hx Ex) as [p [Hp Ho]]. rewrite NO in Ho; [discriminate|auto]. }
    { unfold ps, composed_lengths. rewrite map_app. destruct (map _ ps1); discriminate. }
    rewrite !LC in *.
    assert (LP : length ps = S (length ps1)) by (unfold ps; rewrite app_length; cbn; lia).
    exists sp. repeat split; auto.
    + intros i Hi. apply Ni. lia.
    + intros i Hi. assert (i = length ps) by lia. subst i. rewrite Nn, Nat.sub_diag. cbn. f_equal. lia.
Qed.

Lemma Forall2_nth_elim {X Y} (R : X -> Y -> Prop) l m : Forall2 R l m ->
  forall k x y, nth_error l k = Some x -> nth_error m k = Some y -> R x y.
Proof. induction 1; intros [|k] a b; cbn; try discriminate; [congruence|apply IHForall2]. Qed.

Lemma mapM_enumerate {X Y} (F : nat -> X -> result Y) l ys :
  mapM (fun '(i, x) => F i x) (enumerate l) = Ok ys <->
  length ys = length l /\ forall k x y, nth_error l k = Some x -> nth_error ys k = Some y -> F k x = Ok y.
Proof.
  unfold enumerate. rewrite mapM_Ok_Forall2. split.
  - intros H. split; [apply Forall2_length in H; rewrite enumerate_from_length in H; auto|].
    intros k x y Hx Hy.
    apply (Forall2_nth_elim _ _ _ H k (k, x) y); auto. rewrite enumerate_from_nth, Hx. reflexivity.
  - intros [L H]. apply Forall2_nth_intro; [rewrite enumerate_from_length; auto|].
    intros k [i x] y Hx Hy. rewrite enumerate_from_nth in Hx. destruct (nth_error l k) eqn:E; [|discriminate].
    cbn in Hx. injection Hx as <- <-. apply (H k); auto.
Qed.

Lemma list_choice {X Y Z} (R : nat -> X -> Y -> Z -> Prop) l m : length l = length m ->
  (forall k x y, nth_error l k = Some x -> nth_error m k = Some y -> exists z, R k x y z) ->
  exists zs, length zs = length l /\
    forall k x y z, nth_error l k = Some x -> nth_error m k = Some y -> nth_error zs k = Some z -> R k x y z.
Proof.
  revert m R. induction l as [|x l IH]; intros [|y m] R L H; try discriminate.
  - exists []. split; auto. intros [|k]; discriminate.
  - destruct (H 0 x y eq_refl eq_refl) as [z Hz].
    destruct (IH m (fun k => R (S k))) as [zs [Lz Hzs]]; [injection L; auto|intros k a b; apply (H (S k))|].
    exists (z :: zs). split; [cbn; auto|]. intros [|k] a b c; cbn; [congruence|apply Hzs].
Qed.

Lemma offset_S ms k m : nth_error ms k = Some m -> offset ms (S k) = offset ms k + prodn m.
Proof.
  unfold offset. revert ms. induction k as [|k IH]; intros [|m' ms]; cbn [nth_error]; try discriminate.
  - intros [= ->]. cbn. lia.
  - intros Hm. specialize (IH _ Hm). rewrite (firstn_cons (S k)), (firstn_cons k). cbn [map list_sum fold_right].
    fold (list_sum (map prodn (firstn (S k) ms))). fold (list_sum (map prodn (firstn k ms))). lia.
Qed.
Lemma suffix_S ms k m : nth_error ms k = Some m -> suffix ms k = prodn m + suffix ms (S k).
Proof.
  unfold suffix. revert ms. induction k as [|k IH]; intros [|m' ms]; cbn [nth_error]; try discriminate.
  - intros [= ->]. reflexivity.
  - intros Hm. apply IH. auto.
Qed.
Lemma offset_suffix ms k : offset ms k + suffix ms k = list_sum (map prodn ms).
Proof. unfold offset, suffix. rewrite <- list_sum_app, <- map_app, firstn_skipn. auto. Qed.
Lemma suffix_all ms k : length ms <= k -> suffix ms k = 0.
Proof. intros H. unfold suffix. rewrite skipn_all2 by auto. reflexivity. Qed.

Lemma fills_closed p len m : is_open p = false -> fills p len m -> m = to_nats p /\ prod_shape p = Z.of_nat (prodn m).
Proof.
  intros Ho [_ [[C ->]|[p1 [p2 [k [-> _]]]]]].
  - split; auto. apply prod_shape_closed; auto.
  - exfalso. assert (is_open (p1 ++ (-1)%Z :: p2) = true) by (apply is_open_iff; apply in_or_app; right; left; auto). congruence.
Qed.

Lemma sb_nat n k : k <= n -> slice_bound n (Z.of_nat k) = k.
Proof. intros H. unfold slice_bound. replace (Z.of_nat k <? 0)%Z with false by (symmetry; apply Z.ltb_ge; lia). rewrite Nat2Z.id. lia. Qed.
Lemma sb_le n z : slice_bound n z <= n.
Proof. unfold slice_bound. lia. Qed.
Lemma sb_big n k : n <= k -> slice_bound n (Z.of_nat k) = n.
Proof. intros H. unfold slice_bound. replace (Z.of_nat k <? 0)%Z with false by (symmetry; apply Z.ltb_ge; lia). rewrite Nat2Z.id. lia. Qed.

Section Unpack.
  Context {A : Type}.
  Implicit Types (x t y : tensor A) (ts : list (tensor A)).

  Definition unpack_pieces lib x b a n ps : result (list (tensor A)) :=
    let* sp := split_positions (Z.of_nat n) (composed_lengths ps) in
    mapM (fun '(i, e) => let* lo := list_get sp i in let* hi := list_get sp (i + 1) in
                         let* piece := t_slice x (length b) lo hi in t_reshape lib piece (zs b ++ e ++ zs a)) (enumerate ps).

  Lemma pieces_iff lib x b a n ps1 pu ps2 ts :
    wf x -> shp x = b ++ [n] ++ a -> prodn (b ++ a) <> 0 ->
    (forall p, In p (ps1 ++ pu :: ps2) -> tame lib p) -> slack ps1 pu ps2 ->
    (unpack_pieces lib x b a n (ps1 ++ pu :: ps2) = Ok ts <->
     exists ms, split_off b a n x (length ps1) (ps1 ++ pu :: ps2) ms ts).
  Proof.
    intros Hw Hs P HT HS. set (ps := ps1 ++ pu :: ps2) in *. set (u := length ps1).
    destruct (splits_at (Z.of_nat n) ps1 pu ps2 HS) as [sp [Esp [Lsp [N1 N2]]]]. fold ps in Esp, Lsp, N1, N2.
    set (f := fun j => nth j (composed_lengths ps) 0%Z) in *.
    set (q := fun i => nth i sp 0%Z).
    assert (Lps : length ps = u + S (length ps2)) by (unfold ps, u; rewrite app_length; auto).
    assert (Hq : forall i, i <= length ps -> nth_error sp i = Some (q i)).
    { intros i Hi. unfold q. apply nth_error_nth'. lia. }
    assert (Q1 : forall i, i <= u -> q i = zsum f 0 i).
    { intros i Hi. unfold q. apply nth_error_nth. apply N1. auto. }
    assert (Q2 : forall i, u < i <= length ps -> q i = (Z.of_nat n - zsum f i (length ps - i))%Z).
    { intros i Hi. unfold q. apply nth_error_nth. apply N2. auto. }
    assert (KN : forall k p, nth_error ps k = Some p -> k <> u -> is_open p = false).
    { intros k p Hk Hu. apply (proj1 HS). unfold ps in Hk. apply in_or_app.
      destruct (Nat.lt_ge_cases k (length ps1)) as [Hlt|Hge].
      - rewrite nth_error_app1 in Hk by auto. left. eapply nth_error_In; eauto.
      - rewrite nth_error_app2 in Hk by auto. destruct (k - length ps1) as [|j] eqn:Ej; [unfold u in Hu; lia|].
        right. cbn in Hk. eapply nth_error_In; eauto. }
    assert (STEP : unpack_pieces lib x b a n ps = Ok ts <->
      length ts = length ps /\ forall k p t, nth_error ps k = Some p -> nth_error ts k = Some t ->
        exists m, fills p (slice_bound n (q (k + 1)) - slice_bound n (q k)) m /\ piece_of b a x (slice_bound n (q k)) m t).
    { unfold unpack_pieces. rewrite Esp. cbn [bind].
      rewrite (mapM_enumerate (fun i e => let* lo := list_get sp i in let* hi := list_get sp (i + 1) in
                         let* piece := t_slice x (length b) lo hi in t_reshape lib piece (zs b ++ e ++ zs a))).
      split; intros [L H]; (split; [exact L|]); intros k p t Hp Ht; specialize (H k p t Hp Ht).
      - assert (Hk : k < length ps) by (apply nth_error_Some; congruence).
        unfold list_get in H. rewrite (Hq k), (Hq (k + 1)) in H by lia. cbn [of_option bind] in H.
        apply (slice_reshape lib x b n a (q k) (q (k + 1)) p t Hw Hs) in H; auto.
        apply HT. eapply nth_error_In; eauto.
      - assert (Hk : k < length ps) by (apply nth_error_Some; congruence).
        unfold list_get. rewrite (Hq k), (Hq (k + 1)) by lia. cbn [of_option bind].
        apply (slice_reshape lib x b n a (q k) (q (k + 1)) p t Hw Hs); auto.
        apply HT. eapply nth_error_In; eauto. }
    rewrite STEP. clear STEP.
    (* positions, once the known lengths are those of [ms] *)
    assert (KF : forall ms, Forall2 (fun p m => fills p (prodn m) m) ps ms ->
       forall k m, nth_error ms k = Some m -> k <> u -> f k = Z.of_nat (prodn m)).
    { intros ms HF k m Hm Hk. assert (LM : length ps = length ms) by (eapply Forall2_length; eauto).
      destruct (nth_error ps k) as [p|] eqn:Ep;
        [|apply nth_error_None in Ep; assert (k < length ms) by (apply nth_error_Some; congruence); lia].
      pose proof (Forall2_nth_elim _ _ _ HF k p m Ep Hm) as F. pose proof (KN k p Ep Hk) as Ho.
      unfold f. rewrite (composed_nth ps k p Ep), Ho. apply (fills_closed p (prodn m) m Ho F). }
    assert (QL : forall ms, Forall2 (fun p m => fills p (prodn m) m) ps ms -> forall i, i <= u -> q i = Z.of_nat (offset ms i)).
    { intros ms HF i Hi. assert (LM : length ps = length ms) by (eapply Forall2_length; eauto).
      rewrite Q1 by auto. induction i as [|i IH]; [reflexivity|].
      rewrite zsum_snoc, IH by lia. cbn [Nat.add].
      destruct (nth_error ms i) as [m|] eqn:Em; [|apply nth_error_None in Em; lia].
      rewrite (offset_S ms i m Em), (KF ms HF i m Em) by lia. lia. }
    assert (QR : forall ms, Forall2 (fun p m => fills p (prodn m) m) ps ms -> forall i, u < i <= length ps ->
       q i = (Z.of_nat n - Z.of_nat (suffix ms i))%Z).
    { intros ms HF i Hi. assert (LM : length ps = length ms) by (eapply Forall2_length; eauto).
      rewrite Q2 by auto. f_equal. remember (length ps - i) as d eqn:Ed. revert i Hi Ed.
      induction d as [|d IH]; intros i Hi Ed.
      - rewrite suffix_all by lia. reflexivity.
      - rewrite zsum_S. destruct (nth_error ms i) as [m|] eqn:Em; [|apply nth_error_None in Em; lia].
        rewrite (suffix_S ms i m Em), (KF ms HF i m Em) by lia. rewrite IH by lia. lia. }
    split.
    - intros [Lt H]. destruct (list_choice _ ps ts (eq_sym Lt) H) as [ms [Lm Hm]]. exists ms.
      assert (HF : Forall2 (fun p m => fills p (prodn m) m) ps ms).
      { apply Forall2_nth_intro; auto. intros k p m Hp Hk.
        destruct (nth_error ts k) as [t|] eqn:Et; [|apply nth_error_None in Et; assert (k < length ps) by (apply nth_error_Some; congruence); lia].
        destruct (Hm k p t m Hp Et Hk) as [F _]. rewrite (proj1 F). exact F. }
      assert (LEN : forall k m, nth_error ms k = Some m -> prodn m = slice_bound n (q (k + 1)) - slice_bound n (q k)).
      { intros k m Hk. assert (Hlt : k < length ms) by (apply nth_error_Some; congruence).
        destruct (nth_error ps k) as [p|] eqn:Ep; [|apply nth_error_None in Ep; lia].
        destruct (nth_error ts k) as [t|] eqn:Et; [|apply nth_error_None in Et; lia].
        destruct (Hm k p t m Ep Et Hk) as [F _]. exact (proj1 F). }
      assert (OL : forall i, i <= u -> offset ms i <= n).
      { induction i as [|i IH]; intros Hi; [unfold offset; cbn; lia|].
        destruct (nth_error ms i) as [m|] eqn:Em; [|apply nth_error_None in Em; lia].
        pose proof (LEN i m Em) as L. pose proof (offset_S ms i m Em) as O. specialize (IH ltac:(lia)).
        rewrite (QL ms HF i), sb_nat in L by lia. replace (i + 1) with (S i) in L by lia. 
        rewrite (QL ms HF (S i)) in L by lia.
        destruct (Nat.le_gt_cases (offset ms (S i)) n) as [G|G]; [auto|]. rewrite sb_big in L by lia. lia. }
      assert (SR : forall d i, i + d = length ps -> u < i -> suffix ms i <= n).
      { induction d as [|d IH]; intros i Hd Hi; [rewrite suffix_all by lia; lia|].
        destruct (nth_error ms i) as [m|] eqn:Em; [|apply nth_error_None in Em; lia].
        pose proof (LEN i m Em) as L. pose proof (suffix_S ms i m Em) as S1. specialize (IH (S i) ltac:(lia) ltac:(lia)).
        replace (i + 1) with (S i) in L by lia. rewrite (QR ms HF (S i)) in L by lia.
        replace (Z.of_nat n - Z.of_nat (suffix ms (S i)))%Z with (Z.of_nat (n - suffix ms (S i))) in L by lia.
        rewrite (sb_nat n (n - suffix ms (S i))) in L by lia. lia. }
      split; [exact HF|]. split; [apply OL; lia|].
      assert (SU : suffix ms (S u) <= n) by (apply (SR (length ps - S u)); lia).
      split; [exact SU|].
      assert (ST : forall k, k <= length ps -> q k = Z.of_nat (start n u ms k) /\ start n u ms k <= n).
      { intros k Hk. unfold start. destruct (Nat.leb_spec k u) as [G|G].
        - split; [apply QL; auto|apply OL; auto].
        - assert (suffix ms k <= n) by (apply (SR (length ps - k)); lia).
          split; [rewrite (QR ms HF k) by lia; lia|lia]. }
      split; [|split; [lia|]].
      + intros m Em. rewrite (LEN u m Em). replace (u + 1) with (S u) by lia.
        destruct (ST u ltac:(lia)) as [-> B1]. destruct (ST (S u) ltac:(lia)) as [-> B2]. rewrite !sb_nat by auto.
        unfold start. rewrite Nat.leb_refl. replace (S u <=? u) with false by (symmetry; apply Nat.leb_gt; lia). auto.
      + intros k m t Em Et. destruct (nth_error ps k) as [p|] eqn:Ep;
          [|apply nth_error_None in Ep; assert (k < length ms) by (apply nth_error_Some; congruence); lia].
        destruct (Hm k p t m Ep Et Em) as [_ HP].
        assert (k < length ps) by (apply nth_error_Some; congruence).
        destruct (ST k ltac:(lia)) as [E B]. rewrite E, sb_nat in HP by auto. exact HP.
    - intros [ms [HF [Ou [Su [Mu [Lt HP]]]]]]. assert (LM : length ps = length ms) by (eapply Forall2_length; eauto).
      split; [lia|]. intros k p t Ep Et.
      assert (Hk : k < length ps) by (apply nth_error_Some; congruence).
      destruct (nth_error ms k) as [m|] eqn:Em; [|apply nth_error_None in Em; lia].
      exists m. pose proof (Forall2_nth_elim _ _ _ HF k p m Ep Em) as F.
      assert (OM : forall i j, i <= j -> offset ms i <= offset ms j).
      { intros i j Hij. unfold offset. rewrite <- (firstn_skipn i (firstn j ms)), firstn_firstn, map_app, list_sum_app.
        replace (Nat.min i j) with i by lia. lia. }
      assert (SM : forall i j, i <= j -> suffix ms j <= suffix ms i).
      { intros i j Hij. pose proof (offset_suffix ms i). pose proof (offset_suffix ms j). pose proof (OM i j Hij). lia. }
      assert (ST : forall i, i <= length ps -> q i = Z.of_nat (start n u ms i) /\ start n u ms i <= n).
      { intros i Hi. unfold start. destruct (Nat.leb_spec i u) as [G|G].
        - split; [apply QL; auto|]. pose proof (OM i u G). lia.
        - pose proof (SM (S u) i ltac:(lia)). split; [rewrite (QR ms HF i) by lia; lia|lia]. }
      destruct (ST k ltac:(lia)) as [E1 B1]. destruct (ST (k + 1) ltac:(lia)) as [E2 B2].
      rewrite E1, E2, !sb_nat by auto. split; [|apply HP; auto].
      assert (D : start n u ms (k + 1) - start n u ms k = prodn m); [|rewrite D; exact F].
      replace (k + 1) with (S k) by lia. unfold start.
      destruct (Nat.leb_spec k u) as [G|G]; destruct (Nat.leb_spec (S k) u) as [G'|G']; try lia.
      + rewrite (offset_S ms k m Em). lia.
      + assert (k = u) by lia. subst k. rewrite (Mu m Em). lia.
      + pose proof (suffix_S ms k m Em). pose proof (SM (S u) k ltac:(lia)). lia.
  Qed.
End Unpack.
