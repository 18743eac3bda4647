(** * Facts about packing: the statements about pack and unpack *)
From Verif Require Import Py Tensor Parsing Recipe Ops Backends ListFacts TensorFacts SpecGrammar SpecPattern Api Packing SpecPacking PackFacts PackFacts2 PackFacts3 PackFacts4.

Section Final.
  Context {A : Type} (r : runtime A) (Hr : runtime_ok r).
  Implicit Types (x t y : tensor A) (ts : list (tensor A)) (ps : list (list Z)).

  Lemma split_positions_total n ps : length (filter is_open ps) <= 1 ->
    exists sp, split_positions n (composed_lengths ps) = Ok sp.
  Proof.
    intros H. destruct ps as [|p0 ps0] eqn:E; [exists [n]; reflexivity|]. rewrite <- E in *.
    destruct (slack_exists ps) as [ps1 [pu [ps2 [-> HS]]]]; [congruence|auto|].
    destruct (splits_at n ps1 pu ps2 HS) as [sp [Hsp _]]. eauto.
  Qed.

  Lemma unpack_form x ps p before after b n a :
    pack_pattern (rt_unicode r) p before after ->
    shp x = b ++ [n] ++ a -> length b = length before -> length a = length after ->
    unpack r x ps p =
    if 1 <? length (filter is_open ps) then Err EinopsError
    else match unpack_pieces (rt_lib r) x b a n ps with Ok ts => Ok ts | Err _ => Err RuntimeError end.
  Proof.
    intros Hp Hs Lb La. rewrite unpack_plain. unfold unpack_with, unpack_given.
    rewrite (analyze_ok _ p before after (ro_unicode r Hr) Hp). cbn [bind].
    unfold int_shape. rewrite Hs. rewrite map_length, !app_length. cbn [length].
    replace (length b + (1 + length a) =? length before + 1 + length after) with true by (symmetry; apply Nat.eqb_eq; lia).
    cbn [negb raise_if bind]. rewrite composed_count.
    destruct (Nat.ltb_spec 1 (length (filter is_open ps))) as [H|H]; [reflexivity|]. cbn [raise_if bind].
    rewrite <- Lb. rewrite !map_app. cbn [map].
    assert (G : list_get (zs b ++ Z.of_nat n :: zs a) (length b) = Ok (Z.of_nat n)).
    { apply list_get_Ok. rewrite nth_error_app2, map_length, Nat.sub_diag by (rewrite map_length; auto). reflexivity. }
    cbn [app]. rewrite G. cbn [bind]. unfold unpack_pieces.
    destruct (split_positions_total (Z.of_nat n) ps H) as [sp Hsp]. rewrite Hsp. cbn [bind].
    assert (F1 : firstn (length b) (zs b ++ Z.of_nat n :: zs a) = zs b).
    { rewrite firstn_app, map_length, Nat.sub_diag, firstn_all2 by (rewrite map_length; auto). cbn. apply app_nil_r. }
    assert (F2 : skipn (length b + 1) (zs b ++ Z.of_nat n :: zs a) = zs a).
    { rewrite skipn_app, map_length. replace (length b + 1 - length b) with 1 by lia.
      rewrite skipn_all2 by (rewrite map_length; lia). reflexivity. }
    rewrite F1, F2. reflexivity.
  Qed.

  Lemma unpack_inv x ps p ts : unpack r x ps p = Ok ts ->
    exists before after b n a, pack_pattern (rt_unicode r) p before after /\
      shp x = b ++ [n] ++ a /\ length b = length before /\ length a = length after.
  Proof.
    intros H. rewrite unpack_plain in H. unfold unpack_with, unpack_given in H. apply bind_Ok in H as [[[nb na] mn] [H1 H]].
    destruct (analyze_inv _ _ _ (ro_unicode r Hr) H1) as [before [after Hp]].
    rewrite (analyze_ok _ p before after (ro_unicode r Hr) Hp) in H1. injection H1 as <- <- <-.
    apply bind_Ok in H as [v [H2 _]]. apply raise_if_Ok, negb_false_iff, Nat.eqb_eq in H2.
    unfold int_shape in H2. rewrite map_length in H2.
    destruct (shape_split (shp x) (length before) (length after) ltac:(lia)) as [b [m [a [Es [Lb La]]]]].
    assert (Lm : length m = 1) by (rewrite Es, !app_length in H2; lia).
    destruct m as [|n [|? ?]]; try discriminate. exists before, after, b, n, a. auto.
  Qed.

  Lemma pack_inv_pattern ts p x ps : pack r ts p = Ok (x, ps) ->
    exists before after, pack_pattern (rt_unicode r) p before after.
  Proof.
    intros H. rewrite pack_plain in H. unfold pack_with, pack_given in H. apply bind_Ok in H as [v [H1 _]].
    exact (analyze_inv _ _ _ (ro_unicode r Hr) H1).
  Qed.

  (** exact description *)
  Lemma unpack_exact x ps1 pu ps2 p before after b n a ts :
    pack_pattern (rt_unicode r) p before after ->
    shp x = b ++ [n] ++ a -> length b = length before -> length a = length after ->
    wf x -> prodn (b ++ a) <> 0 ->
    (forall p, In p (ps1 ++ pu :: ps2) -> tame (rt_lib r) p) -> slack ps1 pu ps2 ->
    (unpack r x (ps1 ++ pu :: ps2) p = Ok ts <-> exists ms, split_off b a n x (length ps1) (ps1 ++ pu :: ps2) ms ts).
  Proof.
    intros Hp Hs Lb La Hw P HT HS. rewrite (unpack_form x _ p before after b n a Hp Hs Lb La).
    pose proof (slack_count _ _ _ HS) as C.
    replace (1 <? length (filter is_open (ps1 ++ pu :: ps2))) with false by (symmetry; apply Nat.ltb_ge; auto).
    rewrite <- (pieces_iff (rt_lib r) x b a n ps1 pu ps2 ts Hw Hs P HT HS).
    destruct (unpack_pieces _ _ _ _ _ _); split; congruence.
  Qed.

  Lemma unpack_count x ps p ts : unpack r x ps p = Ok ts -> length (filter is_open ps) <= 1.
  Proof.
    intros H. destruct (unpack_inv _ _ _ _ H) as [before [after [b [n [a [Hp [Hs [Lb La]]]]]]]].
    rewrite (unpack_form x _ p before after b n a Hp Hs Lb La) in H.
    destruct (Nat.ltb_spec 1 (length (filter is_open ps))); [discriminate|auto].
  Qed.

  (** ** sums of known lengths *)
  Lemma known_part ps ms : (forall p, In p ps -> is_open p = false) ->
    Forall2 (fun p m => fills p (prodn m) m) ps ms -> known_total ps = list_sum (map prodn ms).
  Proof.
    intros H F. induction F as [|p m ps ms Hf _ IH]; [reflexivity|].
    unfold known_total. cbn [filter]. rewrite (H p (or_introl eq_refl)). cbn [negb map list_sum fold_right].
    destruct (fills_closed p (prodn m) m (H p (or_introl eq_refl)) Hf) as [E _].
    fold (to_nats p). rewrite <- E. f_equal. apply IH. intros q Hq. apply H. right; auto.
  Qed.
  Lemma known_total_app ps qs : known_total (ps ++ qs) = known_total ps + known_total qs.
  Proof. unfold known_total. rewrite filter_app, map_app, list_sum_app. auto. Qed.

  Lemma Forall2_app_cons_inv {X Y} (R : X -> Y -> Prop) l1 (x : X) l2 m : Forall2 R (l1 ++ x :: l2) m ->
    exists m1 (y : Y) m2, m = m1 ++ y :: m2 /\ Forall2 R l1 m1 /\ R x y /\ Forall2 R l2 m2.
  Proof.
    intros H. apply Forall2_app_inv_l in H as [m1 [m' [H1 [H2 ->]]]]. inversion H2; subst. eauto 8.
  Qed.

  Lemma offset_app ms1 m ms2 : offset (ms1 ++ m :: ms2) (length ms1) = list_sum (map prodn ms1).
  Proof. unfold offset. rewrite firstn_app, Nat.sub_diag, firstn_all. cbn. rewrite app_nil_r. auto. Qed.
  Lemma suffix_app ms1 m ms2 : suffix (ms1 ++ m :: ms2) (S (length ms1)) = list_sum (map prodn ms2).
  Proof.
    unfold suffix. rewrite skipn_app. replace (S (length ms1) - length ms1) with 1 by lia.
    rewrite skipn_all2 by lia. reflexivity.
  Qed.

  Lemma split_off_total b a n x ps1 pu ps2 ms ts :
    slack ps1 pu ps2 -> split_off b a n x (length ps1) (ps1 ++ pu :: ps2) ms ts ->
    known_total (ps1 ++ pu :: ps2) <= n -> list_sum (map prodn ms) = n.
  Proof.
    intros [NO SL] [HF [Ou [Su [Mu [Lt _]]]]] K.
    destruct (Forall2_app_cons_inv _ _ _ _ _ HF) as [ms1 [mu [ms2 [-> [F1 [Fu F2]]]]]].
    assert (L1 : length ps1 = length ms1) by (eapply Forall2_length; eauto). rewrite L1 in *.
    assert (Em : nth_error (ms1 ++ mu :: ms2) (length ms1) = Some mu) by (rewrite nth_error_app2, Nat.sub_diag by lia; reflexivity).
    specialize (Mu mu Em). rewrite offset_app in *. rewrite suffix_app in *.
    rewrite map_app, list_sum_app. cbn [map list_sum fold_right]. fold (list_sum (map prodn ms2)).
    destruct SL as [SL| ->].
    - rewrite known_total_app in K. rewrite (known_part ps1 ms1) in K; [|intros; apply NO; apply in_or_app; auto|auto].
      assert (K2 : known_total (pu :: ps2) = list_sum (map prodn ms2)).
      { unfold known_total. cbn [filter]. rewrite SL. cbn [negb]. apply known_part; [intros; apply NO; apply in_or_app; auto|auto]. }
      lia.
    - inversion F2; subst. cbn in *. lia.
  Qed.

  Lemma split_off_consists b a n x u ps ms ts : wf x -> shp x = b ++ [n] ++ a ->
    split_off b a n x u ps ms ts -> list_sum (map prodn ms) = n -> consists_of b a x ms ts.
  Proof.
    intros Hw Hs [HF [Ou [Su [Mu [Lt HP]]]]] T. split; [auto|]. split; [rewrite T; auto|]. split; [auto|].
    intros k m t Hm Ht. specialize (HP k m t Hm Ht). unfold start in HP.
    destruct (k <=? u); [auto|]. replace (n - suffix ms k) with (offset ms k) in HP; [auto|].
    pose proof (offset_suffix ms k). lia.
  Qed.

  (** ** soundness *)
  Lemma unpack_sound x ps p before after b n a ts :
    pack_pattern (rt_unicode r) p before after ->
    shp x = b ++ [n] ++ a -> length b = length before -> length a = length after ->
    wf x -> prodn (b ++ a) <> 0 -> ps <> [] -> (forall p, In p ps -> tame (rt_lib r) p) ->
    known_total ps <= n ->
    unpack r x ps p = Ok ts ->
    exists ms, Forall2 (fun p m => fills p (prodn m) m) ps ms /\ consists_of b a x ms ts.
  Proof.
    intros Hp Hs Lb La Hw P Hn HT K H. pose proof (unpack_count _ _ _ _ H) as C.
    destruct (slack_exists ps Hn C) as [ps1 [pu [ps2 [-> HS]]]].
    destruct (proj1 (unpack_exact x ps1 pu ps2 p before after b n a ts Hp Hs Lb La Hw P HT HS) H) as [ms SO].
    exists ms. split; [apply SO|]. eapply split_off_consists; eauto. eapply split_off_total; eauto.
  Qed.

  Lemma unpack_complete x ps p before after b n a ms ts :
    pack_pattern (rt_unicode r) p before after ->
    shp x = b ++ [n] ++ a -> length b = length before -> length a = length after ->
    prodn (b ++ a) <> 0 -> ps <> [] -> length (filter is_open ps) <= 1 ->
    Forall2 (fun p m => fills p (prodn m) m) ps ms -> consists_of b a x ms ts ->
    unpack r x ps p = Ok ts.
  Proof.
    intros Hp Hs Lb La P Hn C HF HC.
    destruct (slack_exists ps Hn C) as [ps1 [pu [ps2 [-> HS]]]].
    destruct HC as [Hw [Hs' [Lt HP]]].
    assert (T : list_sum (map prodn ms) = n).
    { rewrite Hs in Hs'. apply app_inv_head in Hs'. injection Hs' as E. auto. }
    assert (HT : forall p, In p (ps1 ++ pu :: ps2) -> tame (rt_lib r) p).
    { intros q Hq. right. apply In_nth_error in Hq as [k Hk].
      destruct (nth_error ms k) as [m|] eqn:Em.
      - pose proof (Forall2_nth_elim _ _ _ HF k q m Hk Em) as F. apply fills_Forall2 in F. unfold reads_as in F.
        intros d Hd. apply In_nth_error in Hd as [j Hj]. clear - F Hj. revert j Hj.
        induction F as [|d' m' q m Hdm _ IH]; intros [|j] Hj; cbn in Hj; try discriminate; [|eauto].
        injection Hj as <-. destruct Hdm; lia.
      - apply nth_error_None in Em. apply Forall2_length in HF. assert (k < length (ps1 ++ pu :: ps2)) by (apply nth_error_Some; congruence). lia. }
    apply (unpack_exact x ps1 pu ps2 p before after b n a ts Hp Hs Lb La Hw P HT HS).
    exists ms. pose proof (offset_suffix ms (length ps1)). pose proof (offset_suffix ms (S (length ps1))).
    split; [auto|]. split; [lia|]. split; [lia|]. split; [|split; [auto|]].
    - intros m Em. pose proof (suffix_S ms (length ps1) m Em). lia.
    - intros k m t Hm Ht. unfold start. destruct (Nat.leb_spec k (length ps1)); [apply HP; auto|].
      replace (n - suffix ms k) with (offset ms k) by (pose proof (offset_suffix ms k); lia). apply HP; auto.
  Qed.

  (** ** round trips *)
  Lemma fills_zs m : fills (zs m) (prodn m) m.
  Proof. split; auto. left. split; [apply zs_closed|symmetry; apply to_nats_zs]. Qed.

  Lemma pack_unpack ts p x ps : Forall wf ts -> pack r ts p = Ok (x, ps) -> unpack r x ps p = Ok ts.
  Proof.
    intros Hw H. destruct (pack_inv_pattern _ _ _ _ H) as [before [after Hp]].
    destruct (proj1 (pack_iff r ts p before after x ps Hr Hp Hw) H) as [b [a [ms [Lb [La [Hn [P [-> HC]]]]]]]].
    pose proof HC as [Wx [Sx [Lt _]]].
    apply (unpack_complete x (map zs ms) p before after b (list_sum (map prodn ms)) a ms ts); auto.
    - destruct ms; [destruct ts; [congruence|discriminate]|discriminate].
    - assert (E : filter is_open (map zs ms) = []).
      { clear. induction ms as [|m ms IH]; [reflexivity|]. cbn [map filter].
        destruct (is_open (zs m)) eqn:E; [|auto]. apply is_open_iff in E. apply zs_closed in E. lia. }
      rewrite E. cbn. lia.
    - clear. induction ms; constructor; auto using fills_zs.
  Qed.

  Lemma fills_reads ps ms : Forall2 (fun p m => fills p (prodn m) m) ps ms -> Forall2 reads_as ps ms.
  Proof. induction 1; constructor; eauto using fills_Forall2. Qed.

  Lemma unpack_pack x ps p before after b n a ts :
    pack_pattern (rt_unicode r) p before after ->
    shp x = b ++ [n] ++ a -> length b = length before -> length a = length after ->
    wf x -> prodn (b ++ a) <> 0 -> ps <> [] -> (forall p, In p ps -> tame (rt_lib r) p) ->
    known_total ps <= n ->
    unpack r x ps p = Ok ts ->
    exists ms, Forall2 reads_as ps ms /\ pack r ts p = Ok (x, map zs ms).
  Proof.
    intros Hp Hs Lb La Hw P Hn HT K H.
    destruct (unpack_sound x ps p before after b n a ts Hp Hs Lb La Hw P Hn HT K H) as [ms [HF HC]].
    exists ms. split; [apply fills_reads; auto|].
    destruct (Forall2_shp_consists _ _ _ _ _ HC) as [F2 Wt].
    apply (pack_iff r ts p before after x (map zs ms) Hr Hp Wt). exists b, a, ms. split; [auto|]. split; [auto|]. split; [|split; [auto|split; [auto|exact HC]]].
    intros ->. destruct HC as [_ [_ [L _]]]. apply Forall2_length in HF. destruct ps; [congruence|]. cbn in *. lia.
  Qed.

  (** the -1 has only one possible value *)
  Lemma reads_closed p m : closed_shape p -> reads_as p m -> m = to_nats p.
  Proof.
    intros C F. unfold reads_as in F. induction F as [|d k p m H _ IH]; [reflexivity|].
    assert (0 <= d)%Z by (apply C; left; auto). cbn [to_nats map]. fold (to_nats p).
    rewrite <- IH by (intros y Hy; apply C; right; auto). f_equal. destruct H; lia.
  Qed.

  Lemma reads_same_prod p m m' : fills p (prodn m) m -> reads_as p m' -> prodn m' = prodn m -> m' = m.
  Proof.
    intros [_ [[C ->]|[p1 [p2 [k [-> [C1 [C2 [Z0 ->]]]]]]]]] R E; [apply reads_closed; auto|].
    unfold reads_as in R. apply Forall2_app_cons_inv in R as [m1 [k' [m2 [-> [R1 [_ R2]]]]]].
    rewrite (reads_closed p1 m1 C1 R1), (reads_closed p2 m2 C2 R2) in *.
    rewrite to_nats_app, prodn_app in Z0. rewrite !prodn_app, !prodn_cons in E.
    assert (k' = k) by nia. congruence.
  Qed.

  Lemma resolution_unique ps ms ms' : ps <> [] -> length (filter is_open ps) <= 1 ->
    Forall2 (fun p m => fills p (prodn m) m) ps ms -> Forall2 reads_as ps ms' ->
    list_sum (map prodn ms') = list_sum (map prodn ms) -> ms' = ms.
  Proof.
    intros Hn C HF HR E. destruct (slack_exists ps Hn C) as [ps1 [pu [ps2 [-> [NO _]]]]].
    apply Forall2_app_cons_inv in HF as [ms1 [mu [ms2 [-> [F1 [Fu F2]]]]]].
    apply Forall2_app_cons_inv in HR as [ms1' [mu' [ms2' [-> [R1 [Ru R2]]]]]].
    assert (SAME : forall qs l l', (forall q, In q qs -> is_open q = false) -> Forall2 (fun p m => fills p (prodn m) m) qs l ->
               Forall2 reads_as qs l' -> l' = l).
    { clear. intros qs l l' H F R. revert l' R. induction F as [|q m qs l Hf _ IH]; intros l' R; inversion R; subst; [auto|].
      destruct Hf as [_ [[Cq ->]|[p1 [p2 [k [-> _]]]]]].
      - f_equal; [apply reads_closed; auto|]. apply IH; auto. intros; apply H; right; auto.
      - exfalso. assert (is_open (p1 ++ (-1)%Z :: p2) = true) by (apply is_open_iff; apply in_or_app; right; left; auto).
        rewrite H in H0 by (left; auto). discriminate. }
    assert (ms1' = ms1) by (apply (SAME ps1 ms1 ms1'); [intros q Hq; apply NO; apply in_or_app; auto|auto|auto]).
    assert (ms2' = ms2) by (apply (SAME ps2 ms2 ms2'); [intros q Hq; apply NO; apply in_or_app; auto|auto|auto]). subst.
    f_equal. f_equal. apply (reads_same_prod pu); auto.
    rewrite !map_app, !list_sum_app in E. cbn [map list_sum fold_right] in E. lia.
  Qed.

  (** ** errors *)
  Lemma pack_bad_pattern ts p : (forall before after, ~ pack_pattern (rt_unicode r) p before after) ->
    pack r ts p = Err EinopsError.
  Proof.
    intros H. rewrite pack_plain. unfold pack_with, pack_given. destruct (analyze_pattern (rt_unicode r) p) as [v|e] eqn:E.
    - destruct (analyze_inv _ _ _ (ro_unicode r Hr) E) as [b [a Hp]]. exfalso. eapply H; eauto.
    - cbn. apply analyze_err in E. congruence.
  Qed.
  Lemma unpack_bad_pattern x ps p : (forall before after, ~ pack_pattern (rt_unicode r) p before after) ->
    unpack r x ps p = Err EinopsError.
  Proof.
    intros H. rewrite unpack_plain. unfold unpack_with, unpack_given. destruct (analyze_pattern (rt_unicode r) p) as [v|e] eqn:E.
    - destruct (analyze_inv _ _ _ (ro_unicode r Hr) E) as [b [a Hp]]. exfalso. eapply H; eauto.
    - cbn. apply analyze_err in E. congruence.
  Qed.

  Lemma pack_errors ts p before after e : pack_pattern (rt_unicode r) p before after -> pack r ts p = Err e ->
    (e = IndexError /\ ts = []) \/
    (e = EinopsError /\ exists t, In t ts /\ length (shp t) < length before + length after) \/
    (e = BackendError /\ ts <> []).
  Proof.
    intros Hp. rewrite pack_plain. rewrite (pack_form _ _ _ _ _ _ (ro_unicode r Hr) Hp).
    destruct ts as [|t0 ts0]; [intros [= <-]; left; auto|]. set (ts := t0 :: ts0). intros H. right.
    apply bind_Err in H as [H|[l [_ H]]].
    - apply mapM_Err_in in H as [t [Ht H]].
      destruct (Nat.lt_ge_cases (length (shp t)) (length before + length after)) as [Hlt|Hge].
      + rewrite pack_step_small in H by auto. injection H as <-. left. eauto.
      + destruct (shape_split (shp t) _ _ Hge) as [b [m [a [Es [Lb La]]]]].
        rewrite <- Lb, <- La in H. rewrite (pack_step_layout _ _ _ _ _ Es) in H.
        destruct (prodn (b ++ a) =? 0); [|discriminate]. injection H as <-. right. split; [auto|discriminate].
    - apply bind_Err in H as [H|[x [_ H]]]; [|discriminate].
      right. split; [|discriminate]. unfold t_concat in H.
      destruct (map fst l) as [|j0 js]; [congruence|].
      destruct ((_ <? _) && _); [|congruence]. unfold tabulate in H. apply bind_Err in H as [H|[? [_ H]]]; [|discriminate].
      apply mapM_Err_in in H as [idx [_ H]].
      assert (CG : forall (tt : list (tensor A)) ax idx e, concat_get tt ax idx = Err e -> e = BackendError).
      { clear. induction tt as [|t tt IH]; intros ax idx e; cbn [concat_get]; [congruence|].
        destruct (_ <? _); [|apply IH]. unfold getr. destruct (get t idx); cbn; congruence. }
      eapply CG; eauto.
  Qed.

  Lemma unpack_wrong_rank x ps p before after : pack_pattern (rt_unicode r) p before after ->
    length (shp x) <> length before + 1 + length after -> unpack r x ps p = Err EinopsError.
  Proof.
    intros Hp H. rewrite unpack_plain. unfold unpack_with, unpack_given.
    rewrite (analyze_ok _ p before after (ro_unicode r Hr) Hp). cbn [bind]. unfold int_shape. rewrite map_length.
    apply Nat.eqb_neq in H. rewrite H. reflexivity.
  Qed.

  Lemma right_rank x (before after : list pystr) : length (shp x) = length before + 1 + length after ->
    exists b n a, shp x = b ++ [n] ++ a /\ length b = length before /\ length a = length after.
  Proof.
    intros H. destruct (shape_split (shp x) (length before) (length after) ltac:(lia)) as [b [m [a [Es [Lb La]]]]].
    assert (Lm : length m = 1) by (rewrite Es, !app_length in H; lia).
    destruct m as [|n [|? ?]]; try discriminate. exists b, n, a. auto.
  Qed.

  Lemma unpack_errors x ps p before after e : pack_pattern (rt_unicode r) p before after ->
    length (shp x) = length before + 1 + length after ->
    unpack r x ps p = Err e ->
    e = if 1 <? length (filter is_open ps) then EinopsError else RuntimeError.
  Proof.
    intros Hp L H. destruct (right_rank x before after L) as [b [n [a [Hs [Lb La]]]]].
    rewrite (unpack_form x _ p before after b n a Hp Hs Lb La) in H.
    destruct (1 <? length (filter is_open ps)); [congruence|].
    destruct (unpack_pieces _ _ _ _ _ _); congruence.
  Qed.

  Lemma unpack_two x ps p before after : pack_pattern (rt_unicode r) p before after ->
    1 < length (filter is_open ps) -> unpack r x ps p = Err EinopsError.
  Proof.
    intros Hp H. destruct (Nat.eq_dec (length (shp x)) (length before + 1 + length after)) as [E|E];
      [|eapply unpack_wrong_rank; eauto].
    destruct (right_rank x before after E) as [b [n [a [Hs [Lb La]]]]].
    rewrite (unpack_form x _ p before after b n a Hp Hs Lb La).
    apply Nat.ltb_lt in H. rewrite H. reflexivity.
  Qed.

  Lemma unpack_nothing x p before after : pack_pattern (rt_unicode r) p before after ->
    length (shp x) = length before + 1 + length after -> unpack r x [] p = Ok [].
  Proof.
    intros Hp E. destruct (right_rank x before after E) as [b [n [a [Hs [Lb La]]]]].
    rewrite (unpack_form x _ p before after b n a Hp Hs Lb La). reflexivity.
  Qed.

  Lemma reads_known ps ms : Forall2 reads_as ps ms -> known_total ps <= list_sum (map prodn ms).
  Proof.
    induction 1 as [|p m ps ms H _ IH]; [cbn; lia|]. unfold known_total in *. cbn [filter map list_sum fold_right].
    destruct (is_open p) eqn:O; cbn [negb map list_sum fold_right] in *; [unfold list_sum in *; lia|].
    assert (m = to_nats p) as ->.
    { assert (N : ~ In (-1)%Z p) by (intros I; apply is_open_iff in I; congruence). clear -H N.
      unfold reads_as in H. induction H as [|d k p m H _ IH]; [reflexivity|]. cbn [to_nats map]. fold (to_nats p).
      rewrite <- IH by (intros I; apply N; right; auto). f_equal. destruct H as [->| ->]; [lia|]. destruct N. left; auto. }
    fold (to_nats p). unfold list_sum in *. lia.
  Qed.

  (** the pieces are consecutive exactly if the known shapes do not ask for too much *)
  Lemma unpack_iff x ps p before after b n a ts :
    pack_pattern (rt_unicode r) p before after ->
    shp x = b ++ [n] ++ a -> length b = length before -> length a = length after ->
    wf x -> prodn (b ++ a) <> 0 -> ps <> [] -> (forall p, In p ps -> tame (rt_lib r) p) ->
    unpack r x ps p = Ok ts ->
    (known_total ps <= n <-> exists ms, Forall2 (fun q m => fills q (prodn m) m) ps ms /\ consists_of b a x ms ts).
  Proof.
    intros Hp Hs Lb La Hw P Hn HT H. split; [intros K; eapply unpack_sound; eauto|].
    intros [ms [HF [_ [S _]]]]. rewrite Hs in S. apply app_inv_head in S. injection S as ->.
    apply reads_known, fills_reads, HF.
  Qed.

  Lemma unpack_wf x ps p before after b n a ts :
    pack_pattern (rt_unicode r) p before after ->
    shp x = b ++ [n] ++ a -> length b = length before -> length a = length after ->
    wf x -> prodn (b ++ a) <> 0 -> ps <> [] -> (forall p, In p ps -> tame (rt_lib r) p) ->
    unpack r x ps p = Ok ts -> Forall wf ts.
  Proof.
    intros Hp Hs Lb La Hw P Hn HT H.
    destruct (slack_exists ps Hn (unpack_count _ _ _ _ H)) as [ps1 [pu [ps2 [-> SL]]]].
    destruct (proj1 (unpack_exact x ps1 pu ps2 p before after b n a ts Hp Hs Lb La Hw P HT SL) H) as [ms [_ [_ [_ [_ [L C]]]]]].
    apply Forall_forall. intros t I. apply In_nth_error in I as [k Ik].
    destruct (nth_error ms k) as [m|] eqn:Em; [apply (C k m t Em Ik)|].
    apply nth_error_None in Em. assert (k < length ts) by (apply nth_error_Some; congruence). lia.
  Qed.

  Lemma unpack_pack_iff x ps p before after b n a ts :
    pack_pattern (rt_unicode r) p before after ->
    shp x = b ++ [n] ++ a -> length b = length before -> length a = length after ->
    wf x -> prodn (b ++ a) <> 0 -> ps <> [] -> (forall p, In p ps -> tame (rt_lib r) p) ->
    unpack r x ps p = Ok ts ->
    (known_total ps <= n <-> exists ms, Forall2 reads_as ps ms /\ pack r ts p = Ok (x, map zs ms)).
  Proof.
    intros Hp Hs Lb La Hw P Hn HT H. split; [intros K; eapply unpack_pack; eauto|].
    intros [ms [HR HP]]. pose proof (unpack_wf x ps p before after b n a ts Hp Hs Lb La Hw P Hn HT H) as Wt.
    apply (pack_iff r ts p before after x (map zs ms) Hr Hp Wt) in HP as [b' [a' [ms' [Lb' [La' [_ [_ [E [_ [S _]]]]]]]]]].
    assert (ms' = ms) as ->.
    { clear -E. revert ms' E. induction ms as [|m ms IH]; intros [|m' ms'] E; try discriminate; [auto|].
      injection E as E1 E2. f_equal; [|auto]. apply (f_equal to_nats) in E1. rewrite !to_nats_zs in E1. auto. }
    rewrite Hs in S. assert (b = b' /\ [n] ++ a = [list_sum (map prodn ms)] ++ a') as [_ E2].
    { clear -S Lb Lb'. rewrite <- Lb in Lb'. clear Lb. revert b' Lb' S. induction b as [|d b IH]; intros [|d' b'] L S; try discriminate; [auto|].
      injection S as -> S. injection L as L. destruct (IH b' L S) as [-> E]. auto. }
    injection E2 as -> _. apply reads_known, HR.
  Qed.
End Final.

Lemma xp_pack_same {A} (r : runtime A) ts p : xp_pack r ts p = pack r ts p.
Proof. rewrite pack_plain. reflexivity. Qed.
Lemma xp_unpack_same {A} (r : runtime A) x ps p : xp_unpack r x ps p = unpack r x ps p.
Proof. rewrite unpack_plain. reflexivity. Qed.
