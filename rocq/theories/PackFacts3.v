(** * Facts about packing: what pack and unpack return *)
From Verif Require Import Py Tensor Parsing Recipe Ops Backends ListFacts TensorFacts SpecGrammar SpecPattern Api Packing SpecPacking PackFacts PackFacts2.

Lemma pack_plain {A} (r : runtime A) ts p :
  pack r ts p = pack_with (rt_unicode r) int_shape (t_reshape (rt_lib r)) t_concat ts p.
Proof. unfold pack, rt_backend. destruct (rt_framework r); reflexivity. Qed.
Lemma unpack_plain {A} (r : runtime A) x ps p :
  unpack r x ps p = unpack_with (rt_unicode r) int_shape (t_reshape (rt_lib r)) t_slice x ps p.
Proof. unfold unpack, rt_backend. destruct (rt_framework r); reflexivity. Qed.

Lemma foldM_accum {X Y Z} (g : X -> result (Y * Z)) l ys zs0 :
  foldM (fun '(ys, zs) x => let* (y, z) := g x in Ok (ys ++ [y], zs ++ [z])) l (ys, zs0)
  = let* r := mapM g l in Ok (ys ++ map fst r, zs0 ++ map snd r).
Proof.
  revert ys zs0. induction l as [|x l IH]; intros ys zs0; cbn.
  - rewrite !app_nil_r. reflexivity.
  - destruct (g x) as [[y z]|e]; cbn; [|reflexivity]. rewrite IH. destruct (mapM g l) as [r|e]; cbn; [|reflexivity].
    rewrite <- !app_assoc. reflexivity.
Qed.

Lemma shape_split (s : list nat) nb na : nb + na <= length s ->
  exists b m a, s = b ++ m ++ a /\ length b = nb /\ length a = na.
Proof.
  intros H. exists (firstn nb s), (firstn (length s - nb - na) (skipn nb s)), (skipn (length s - nb - na) (skipn nb s)).
  rewrite !firstn_skipn. repeat split; auto.
  - rewrite firstn_length; lia.
  - rewrite !skipn_length. lia.
Qed.

Lemma zs_split b m a :
  firstn (length b) (zs (b ++ m ++ a)) = zs b /\
  skipn (length (zs (b ++ m ++ a)) - length a) (zs (b ++ m ++ a)) = zs a /\
  skipn (length b) (firstn (length (zs (b ++ m ++ a)) - length a) (zs (b ++ m ++ a))) = zs m.
Proof.
  rewrite map_length, !app_length. rewrite !map_app.
  replace (length b + (length m + length a) - length a) with (length (zs b ++ zs m)) by (rewrite app_length, !map_length; lia).
  repeat split.
  - rewrite firstn_app, map_length, Nat.sub_diag, firstn_all2 by (rewrite map_length; auto). cbn. apply app_nil_r.
  - rewrite app_assoc. rewrite skipn_app, Nat.sub_diag, skipn_all. reflexivity.
  - rewrite app_assoc. rewrite firstn_app, Nat.sub_diag, firstn_all. cbn. rewrite app_nil_r.
    rewrite skipn_app, map_length, Nat.sub_diag, skipn_all2 by (rewrite map_length; auto). reflexivity.
Qed.

Lemma Forall2_nth_intro {X Y} (R : X -> Y -> Prop) l m : length l = length m ->
  (forall k x y, nth_error l k = Some x -> nth_error m k = Some y -> R x y) -> Forall2 R l m.
Proof.
  revert m. induction l as [|x l IH]; intros [|y m] L H; try discriminate; constructor.
  - apply (H 0); reflexivity.
  - apply IH; [injection L; auto|]. intros k x' y' H1 H2. apply (H (S k)); auto.
Qed.

Section Pack.
  Context {A : Type}.
  Implicit Types (x t y : tensor A) (ts : list (tensor A)).

  Definition pack_step (lib : bool) (nb na : nat) t : result (tensor A * list Z) :=
    let shape := int_shape t in
    let* _ := raise_if (length shape <? nb + na) EinopsError in
    let* t' := t_reshape lib t (firstn nb shape ++ [(-1)%Z] ++ skipn (length shape - na) shape) in
    Ok (t', skipn nb (firstn (length shape - na) shape)).

  Lemma pack_form U lib ts p before after : unicode_ok U -> pack_pattern U p before after ->
    pack_with U int_shape (t_reshape lib) t_concat ts p =
    match ts with
    | [] => Err IndexError
    | _ => let* r := mapM (pack_step lib (length before) (length after)) ts in
           let* x := t_concat (map fst r) (length before) in Ok (x, map snd r)
    end.
  Proof.
    intros HU Hp. unfold pack_with, pack_given. rewrite (analyze_ok U p before after HU Hp). cbn [bind].
    destruct ts as [|t0 ts0]; [reflexivity|]. set (ts := t0 :: ts0). cbn [nth_error of_option bind ts].
    rewrite (foldM_ext_in _ (fun '(ys, zs) x =>
       let* (y, z) := pack_step lib (length before) (length after) x in Ok (ys ++ [y], zs ++ [z]))).
    - fold ts. rewrite foldM_accum. cbn [app]. destruct (mapM _ ts); reflexivity.
    - intros t [ys zs] _. unfold pack_step. destruct (raise_if _ _); [|reflexivity]. cbn [bind].
      destruct (t_reshape lib t _); reflexivity.
  Qed.

  Lemma pack_step_small lib nb na t : length (shp t) < nb + na -> pack_step lib nb na t = Err EinopsError.
  Proof.
    intros H. unfold pack_step, int_shape. rewrite map_length.
    replace (length (shp t) <? nb + na) with true by (symmetry; apply Nat.ltb_lt; auto). reflexivity.
  Qed.

  Lemma pack_step_layout lib t b m a : shp t = b ++ m ++ a ->
    pack_step lib (length b) (length a) t =
    if prodn (b ++ a) =? 0 then Err BackendError else Ok (mkT (b ++ [prodn m] ++ a) (dat t), zs m).
  Proof.
    intros Hs. unfold pack_step, int_shape. rewrite Hs. destruct (zs_split b m a) as [E1 [E2 E3]].
    rewrite E1, E2, E3. rewrite map_length, !app_length.
    replace (length b + (length m + length a) <? length b + length a) with false by (symmetry; apply Nat.ltb_ge; lia).
    cbn [raise_if bind]. rewrite (pack_reshape lib t b m a Hs).
    destruct (prodn (b ++ a) =? 0); reflexivity.
  Qed.

  Definition joined b a (tm : tensor A * list nat) : tensor A := mkT (b ++ [prodn (snd tm)] ++ a) (dat (fst tm)).

  Lemma joined_len b a (tms : list (tensor A * list nat)) :
    map (fun t => nth (length b) (shp t) 0) (map (joined b a) tms) = map prodn (map snd tms).
  Proof. rewrite !map_map. apply map_ext. intros [t m]. cbn. apply nth_mid; auto. Qed.

  Lemma concat_joined b a ts ms :
    Forall wf ts -> Forall2 (fun t m => shp t = b ++ m ++ a) ts ms -> ts <> [] ->
    exists x, t_concat (map (joined b a) (combine ts ms)) (length b) = Ok x /\ consists_of b a x ms ts.
  Proof.
    intros Hw HF Hn. set (js := map (joined b a) (combine ts ms)).
    assert (L : length ts = length ms) by (eapply Forall2_length; eauto).
    assert (SN : map snd (combine ts ms) = ms).
    { clear - L. revert ms L. induction ts as [|t ts IH]; intros [|m ms]; try discriminate; cbn; auto. intros [= H]. f_equal; auto. }
    assert (SUM : forall k, list_sum (map (fun t => nth (length b) (shp t) 0) (firstn k js)) = offset ms k).
    { intros k. unfold js, offset. rewrite !map_firstn. rewrite joined_len. rewrite SN. reflexivity. }
    assert (JS : forall k t m, nth_error ts k = Some t -> nth_error ms k = Some m -> nth_error js k = Some (joined b a (t, m))).
    { intros k t m H1 H2. unfold js. apply map_nth_error. clear - H1 H2. revert ms k H1 H2.
      induction ts as [|t' ts IH]; intros [|m' ms] [|k]; cbn; try discriminate; [congruence|apply IH]. }
    assert (JW : forall k t m, nth_error ts k = Some t -> nth_error ms k = Some m ->
       wf (joined b a (t, m)) /\ shp t = b ++ m ++ a /\ wf t).
    { intros k t m H1 H2. assert (W : wf t) by (rewrite Forall_forall in Hw; apply Hw; eapply nth_error_In; eauto).
      assert (S : shp t = b ++ m ++ a).
      { clear - HF H1 H2. revert k H1 H2. induction HF; intros [|k]; cbn; try discriminate; [congruence|apply IHHF]. }
      split; [|auto]. unfold wf in *. change (length (dat t) = prodn (b ++ [prodn m] ++ a)).
      rewrite W, S. cbn [app]. rewrite !prodn_app, prodn_cons. lia. }
    assert (FB : forall d, In d js -> exists n, shp d = b ++ n :: a).
    { intros d Hd. unfold js in Hd. apply in_map_iff in Hd as [[t m] [<- _]]. exists (prodn m). reflexivity. }
    destruct js as [|j0 js'] eqn:EJ; [exfalso; unfold js in EJ; destruct ts, ms; try discriminate; congruence|].
    destruct (FB j0 (or_introl eq_refl)) as [n0 S0].
    unfold t_concat. rewrite S0.
    replace (length b <? length (b ++ n0 :: a)) with true by (symmetry; apply Nat.ltb_lt; rewrite app_length; cbn; lia).
    assert (FA : forallb (fun t => shape_eqb (replace_nth (length b) 0 (shp t)) (replace_nth (length b) 0 (b ++ n0 :: a))) (j0 :: js') = true).
    { apply forallb_forall. intros d Hd. destruct (FB d Hd) as [n ->]. rewrite !replace_nth_mid by auto.
      unfold shape_eqb. destruct (list_eq_dec Nat.eq_dec (b ++ 0 :: a) (b ++ 0 :: a)); congruence. }
    rewrite FA. cbn [andb]. rewrite replace_nth_mid by auto.
    assert (TOT : list_sum (map (fun t => nth (length b) (shp t) 0) (j0 :: js')) = list_sum (map prodn ms)).
    { specialize (SUM (length (j0 :: js'))). rewrite firstn_all in SUM. rewrite SUM. unfold offset. rewrite firstn_all2; auto.
      rewrite <- EJ. unfold js. rewrite map_length, combine_length. lia. }
    rewrite TOT. set (N := list_sum (map prodn ms)).
    assert (EL : forall ib im ia k m t, nth_error ms k = Some m -> nth_error ts k = Some t ->
       inb b ib = true -> inb m im = true -> inb a ia = true ->
       concat_get (j0 :: js') (length b) (ib ++ (offset ms k + ravel m im) :: ia) = getr t (ib ++ im ++ ia)).
    { intros ib im ia k m t Hm Ht H1 H2 H3.
      pose proof (JS k t m Ht Hm) as Hj. destruct (JW k t m Ht Hm) as [_ [St _]].
      assert (LB : length ib = length b) by (apply inb_length; auto).
      assert (OS : offset ms (S k) = offset ms k + prodn m).
      { unfold offset. clear - Hm. revert ms Hm. induction k as [|k IH]; intros [|m' ms]; cbn [nth_error]; try discriminate.
        - intros [= ->]. cbn. lia.
        - intros Hm. specialize (IH _ Hm). rewrite (firstn_cons (S k)), (firstn_cons k). cbn [map list_sum fold_right].
          fold (list_sum (map prodn (firstn (S k) ms))). fold (list_sum (map prodn (firstn k ms))). lia. }
      pose proof (ravel_lt m im H2). rewrite <- LB.
      rewrite (concat_get_spec (j0 :: js') ib ia _ k (joined b a (t, m)) Hj); rewrite LB, ?SUM; try lia.
      replace (offset ms k + ravel m im - offset ms k) with (ravel m im) by lia.
      unfold getr. f_equal. exact (pack_reshape_get t b m a ib im ia St H1 H2 H3). }
    assert (T : exists x, tabulate (b ++ N :: a) (concat_get (j0 :: js') (length b)) = Ok x).
    { apply tabulate_total. intros idx Hi. change (b ++ N :: a) with (b ++ [N] ++ a) in Hi.
      apply inb_split3 in Hi as [ib [im [ia [-> [H1 [H2 H3]]]]]].
      destruct im as [|i [|? ?]]; try discriminate; [|cbn in H2; rewrite andb_false_r in H2; discriminate].
      apply inb_one in H2. destruct (offset_cover ms i H2) as [k [m [im [Hk [Hm ->]]]]].
      destruct (nth_error ts k) as [t|] eqn:Et; [|apply nth_error_None in Et; assert (k < length ms) by (apply nth_error_Some; congruence); lia].
      cbn [app]. rewrite (EL ib im ia k m t) by auto. destruct (JW k t m Et Hk) as [_ [St Wt]]. apply getr_wf; auto.
      rewrite St. apply inb_join3; auto. }
    destruct T as [x Hx]. exists x. split; [exact Hx|]. apply tabulate_Ok in Hx as [W [Sx G]].
    split; [auto|]. split; [auto|]. split; [auto|]. intros k m t Hm Ht. destruct (JW k t m Ht Hm) as [_ [St Wt]].
    split; [auto|]. split; [auto|]. intros ib im ia H1 H2 H3.
    assert (I : inb (b ++ N :: a) (ib ++ (offset ms k + ravel m im) :: ia) = true).
    { apply (inb_join3 b [N] a ib [offset ms k + ravel m im] ia); auto. apply inb_one. pose proof (ravel_lt m im H2).
      unfold N, offset. rewrite <- (firstn_skipn k ms) at 2. rewrite map_app, list_sum_app.
      assert (E : skipn k ms = m :: skipn (S k) ms).
      { clear - Hm. revert ms Hm. induction k as [|k IH]; intros [|m' ms]; cbn [nth_error]; try discriminate; [intros [= ->]; reflexivity|].
        intros Hm. cbn [skipn]. rewrite IH; auto. }
      rewrite E. cbn [map list_sum fold_right]. lia. }
    specialize (G _ I). rewrite (EL ib im ia k m t) in G by auto.
    unfold getr in G. cbn [app]. destruct (get x (ib ++ (offset ms k + ravel m im) :: ia)), (get t (ib ++ im ++ ia)); cbn in G; congruence.
  Qed.

  Lemma pack_layout (r : runtime A) ts p before after b a ms :
    runtime_ok r -> pack_pattern (rt_unicode r) p before after ->
    length b = length before -> length a = length after ->
    Forall wf ts -> Forall2 (fun t m => shp t = b ++ m ++ a) ts ms -> ts <> [] -> prodn (b ++ a) <> 0 ->
    exists x, pack r ts p = Ok (x, map zs ms) /\ consists_of b a x ms ts.
  Proof.
    intros Hr Hp Lb La Hw HF Hn P. rewrite pack_plain. rewrite (pack_form _ _ _ _ _ _ (ro_unicode r Hr) Hp).
    destruct (concat_joined b a ts ms Hw HF Hn) as [x [Hx HC]]. exists x. split; [|auto].
    rewrite <- Lb, <- La.
    assert (M : mapM (pack_step (rt_lib r) (length b) (length a)) ts
                = Ok (map (fun tm => (joined b a tm, zs (snd tm))) (combine ts ms))).
    { apply mapM_Ok_Forall2. clear Hw Hn Hx HC. induction HF as [|t m ts ms Hs _ IH]; cbn; constructor; auto.
      rewrite (pack_step_layout _ _ _ _ _ Hs). replace (prodn (b ++ a) =? 0) with false by (symmetry; apply Nat.eqb_neq; auto). reflexivity. }
    rewrite M. destruct ts as [|t0 ts0] eqn:E; [congruence|]. rewrite <- E in *. cbn [bind].
    rewrite map_map. cbn [fst].
    change (map (fun tm => joined b a tm) (combine ts ms)) with (map (joined b a) (combine ts ms)).
    rewrite Hx. cbn [bind]. rewrite map_map. cbn [snd]. repeat f_equal.
    assert (SN : map snd (combine ts ms) = ms).
    { clear - HF. induction HF; cbn; f_equal; auto. }
    rewrite <- SN at 2. rewrite map_map. reflexivity.
  Qed.

  Lemma pack_inv (r : runtime A) ts p before after x ps :
    runtime_ok r -> pack_pattern (rt_unicode r) p before after ->
    pack r ts p = Ok (x, ps) ->
    exists b a ms, length b = length before /\ length a = length after /\
      Forall2 (fun t m => shp t = b ++ m ++ a) ts ms /\ ts <> [] /\ prodn (b ++ a) <> 0.
  Proof.
    intros Hr Hp. rewrite pack_plain. rewrite (pack_form _ _ _ _ _ _ (ro_unicode r Hr) Hp).
    destruct ts as [|t0 ts0]; [discriminate|]. set (ts := t0 :: ts0). intros H.
    apply bind_Ok in H as [l [Hl H]]. apply bind_Ok in H as [y [Hy _]].
    apply mapM_Ok_Forall2 in Hl.
    assert (ST : forall t tp, pack_step (rt_lib r) (length before) (length after) t = Ok tp ->
      exists b m a, shp t = b ++ m ++ a /\ length b = length before /\ length a = length after /\
        prodn (b ++ a) <> 0 /\ fst tp = mkT (b ++ [prodn m] ++ a) (dat t)).
    { intros t tp Ht. destruct (Nat.lt_ge_cases (length (shp t)) (length before + length after)) as [Hlt|Hge];
        [rewrite pack_step_small in Ht by auto; discriminate|].
      destruct (shape_split (shp t) _ _ Hge) as [b [m [a [Es [Lb La]]]]].
      rewrite <- Lb, <- La in Ht. rewrite (pack_step_layout _ _ _ _ _ Es) in Ht.
      destruct (Nat.eqb_spec (prodn (b ++ a)) 0) as [Z|Z]; [discriminate|]. injection Ht as <-.
      exists b, m, a. auto. }
    inversion Hl as [|? tp0 ? l' Hl0 Hl' E1 E2]. subst. destruct (ST _ _ Hl0) as [b [m0 [a [Es0 [Lb [La [P F0]]]]]]].
    unfold t_concat in Hy. cbn [map] in Hy. rewrite F0 in Hy. cbn [shp] in Hy.
    set (cond := (length before <? length (b ++ [prodn m0] ++ a)) && _) in Hy.
    destruct cond eqn:EC; [|discriminate]. subst cond. apply andb_true_iff in EC as [_ EC].
    rewrite forallb_forall in EC.
    assert (AL : exists ms, Forall2 (fun t m => shp t = b ++ m ++ a) ts0 ms).
    { assert (EC' : forall tp, In tp l' -> replace_nth (length before) 0 (shp (fst tp)) = b ++ 0 :: a).
      { intros tp Htp. specialize (EC (fst tp) (or_intror (in_map fst l' tp Htp))). unfold shape_eqb in EC.
        cbn [app] in EC. rewrite (replace_nth_mid b) in EC by auto.
        destruct (list_eq_dec Nat.eq_dec _ _) in EC; [auto|discriminate]. }
      clear - Hl' ST EC' Lb La. induction Hl' as [|t tp ts l H _ IH]; [exists []; constructor|].
      destruct IH as [ms IH]; [intros tp' Ht'; apply EC'; right; auto|].
      destruct (ST _ _ H) as [b1 [m [a1 [Es [Lb1 [La1 [_ F1]]]]]]].
      specialize (EC' tp (or_introl eq_refl)). rewrite F1 in EC'. cbn [shp app] in EC'.
      rewrite (replace_nth_mid b1) in EC' by auto.
      assert (b1 = b /\ a1 = a).
      { assert (Q : firstn (length b) (b1 ++ 0 :: a1) = firstn (length b) (b ++ 0 :: a)) by (rewrite EC'; auto).
        assert (Q2 : skipn (S (length b)) (b1 ++ 0 :: a1) = skipn (S (length b)) (b ++ 0 :: a)) by (rewrite EC'; auto).
        assert (X : forall b' (a' : list nat), length b' = length b -> firstn (length b) (b' ++ 0 :: a') = b' /\ skipn (S (length b)) (b' ++ 0 :: a') = a').
        { intros b' a' <-. rewrite firstn_app, Nat.sub_diag, firstn_all. cbn [firstn]. rewrite app_nil_r. split; auto.
          rewrite skipn_app. replace (S (length b') - length b') with 1 by lia. rewrite skipn_all2 by lia. reflexivity. }
        destruct (X b1 a1 ltac:(lia)) as [X1 X2]. destruct (X b a eq_refl) as [X3 X4].
        rewrite X1, X3 in Q. rewrite X2, X4 in Q2. auto. }
      destruct H0; subst. exists (m :: ms). constructor; auto. }
    destruct AL as [ms AL]. exists b, a, (m0 :: ms). repeat split; auto; [constructor; auto|discriminate].
  Qed.

  Lemma Forall2_shp_consists b a x ms ts : consists_of b a x ms ts ->
    Forall2 (fun t m => shp t = b ++ m ++ a) ts ms /\ Forall wf ts.
  Proof.
    intros [_ [_ [L G]]]. split.
    - apply Forall2_nth_intro; auto. intros k t m H1 H2. apply (G k m t H2 H1).
    - apply Forall_forall. intros t Ht. apply In_nth_error in Ht as [k Hk].
      destruct (nth_error ms k) as [m|] eqn:Em.
      + apply (G k m t Em Hk).
      + apply nth_error_None in Em. assert (k < length ts) by (apply nth_error_Some; congruence). lia.
  Qed.

  Lemma pack_iff (r : runtime A) ts p before after x ps :
    runtime_ok r -> pack_pattern (rt_unicode r) p before after -> Forall wf ts ->
    (pack r ts p = Ok (x, ps) <->
     exists b a ms, length b = length before /\ length a = length after /\ ts <> [] /\ prodn (b ++ a) <> 0 /\
       ps = map zs ms /\ consists_of b a x ms ts).
  Proof.
    intros Hr Hp Hw. split.
    - intros H. destruct (pack_inv r ts p before after x ps Hr Hp H) as [b [a [ms [Lb [La [HF [Hn P]]]]]]].
      destruct (pack_layout r ts p before after b a ms Hr Hp Lb La Hw HF Hn P) as [x' [H' HC]].
      rewrite H in H'. injection H' as <- ->. exists b, a, ms. auto 8.
    - intros [b [a [ms [Lb [La [Hn [P [-> HC]]]]]]]].
      destruct (Forall2_shp_consists _ _ _ _ _ HC) as [HF _].
      destruct (pack_layout r ts p before after b a ms Hr Hp Lb La Hw HF Hn P) as [x' [H' HC']].
      rewrite H'. repeat f_equal. eapply consists_unique; eauto.
  Qed.
End Pack.
