(** * Two EinMix layers in a row, the first with a bias *)
From Coq Require Import Permutation.
From Verif Require Import Py Tensor TensorFacts ListFacts SpecSem SpecGrammar SpecEinsum SpecPattern SpecForms SpecOps SpecElements SpecAdjoint SpecLinear Parsing Compile Recipe Ops Backends Api
  ParseFacts ParseFacts2 ParseFacts3 StepFacts FrontFacts FrontFacts2 FrontFacts3 MainFacts MainFacts2 ReduceFacts MainFacts3 CallFacts RelabelFacts ApiFacts ApiFacts2 ApiFacts3 RedFacts Laws
  EinsumFacts3 EinsumLaws2 AdjointFacts Layers Einsum LayerFacts EinMix SpecEinMix MixFacts MixFacts2 MixFacts3 MixFacts4 MixFacts5 MixFacts6 MixFacts7 MixFacts8 MixFacts9 MixLaws MixLaws2 SpecMixGrad MixGradFacts SpecMixFuse MixFuseFacts MixFuseFacts2.

Section Fuse.
  Context {A : Type} (add mul : A -> A -> A) (zero : A) (Hsp : sums_and_products add mul zero).
  Context (mul_comm : forall a b, mul a b = mul b a) (mul_assoc : forall a b c, mul a (mul b c) = mul (mul a b) c).
  Context (len : label -> nat) (gl gm gr : list (list label)) (U V W M R : expr).
  Context (Nl : NoDup (concat gl)) (Nm : NoDup (concat gm)) (Nr : NoDup (concat gr)).
  Context (Hlr : forall a, In a (concat gl) -> In a (concat gr) -> In a (concat gm)).
  Context (HU : incl (weight_axes U) (concat gl ++ concat gm)) (HV : incl (weight_axes V) (concat gm ++ concat gr)) (HW : incl (weight_axes W) (concat gl ++ concat gr)).
  Notation between := (others (concat gm) (concat gl ++ concat gr)).
  Notation val := (val zero).

  Notation through x u v ix := (over add zero len (missing gm gr) ix (fun jx => mul (over add zero len (missing gl gm) jx (fun kx => mul (val (get x (gindex len kx gl))) (val (get u (map kx (weight_axes U)))))) (val (get v (map jx (weight_axes V)))))).
  (** the sum of the fused layer is the sum over the axes that the second layer removes
      of the sums over those that the first removes *)
  Lemma fused_total (x u v w : tensor A) ix : wf x -> shp x = gshape len gl -> fused add mul zero gl gm gr U V W len u v w -> within len ix (concat gr) ->
    exists xs ws, elements x len gl (missing gl gr) ix = map Some xs /\ weight_elements w W len (missing gl gr) ix = map Some ws /\
      fold_right add zero (map2 mul xs ws) = through x u v ix.
  Proof.
    intros Wx Sx (Ww & Sw & Hw) Hix.
    set (ms1 := missing gl gm). set (ms2 := missing gm gr). set (ms := missing gl gr).
    assert (N1 : NoDup ms1) by (apply NoDup_filter; auto). assert (N2 : NoDup ms2) by (apply NoDup_filter; auto). assert (N3 : NoDup ms) by (apply NoDup_filter; auto).
    assert (Nb : NoDup between) by (apply NoDup_filter; auto).
    assert (Hall : forall jx, (forall a, ~ In a ms -> jx a = ix a) -> (forall a, In a ms -> jx a < len a) -> within len jx (concat gl ++ concat gr)).
    { intros jx E1 E2 a Ha. destruct (in_dec label_eq_dec a ms) as [X|X]; [apply E2, X|]. rewrite E1 by exact X. apply Hix. destruct (in_dec label_eq_dec a (concat gr)) as [Y|Y]; [exact Y|].
      exfalso. apply X, in_missing. apply in_app_or in Ha. tauto. }
    assert (Hassign : forall v0, inb (map len ms) v0 = true -> within len (assign label_eqb ix ms v0) (concat gl ++ concat gr)).
    { intros v0 Hv0. apply Hall; [intros a Ha; apply (assign_out label_eqb label_eqb_eq), Ha|]. intros a Ha. exact (within_assign label_eqb label_eqb_eq len ix ms v0 N3 Hv0 a Ha). }
    exists (map (fun v0 => val (get x (gindex len (assign label_eqb ix ms v0) gl))) (indices (map len ms))), (map (fun v0 => val (get w (map (assign label_eqb ix ms v0) (weight_axes W)))) (indices (map len ms))).
    split; [|split].
    { apply elements_there; auto. intros v0 Hv0 a Ha. apply (Hassign v0 Hv0). apply in_or_app. auto. }
    { unfold weight_elements. rewrite map_map. apply map_ext_in. intros v0 Hv0. apply indices_In in Hv0.
      destruct (Hw (assign label_eqb ix ms v0)) as (us & vs & _ & _ & E); [intros a Ha; apply (Hassign v0 Hv0), HW, Ha|]. unfold weight_axes in *. rewrite E. reflexivity. }
    assert (Et : fold_right add zero (map2 mul (map (fun v0 => val (get x (gindex len (assign label_eqb ix ms v0) gl))) (indices (map len ms)))
                  (map (fun v0 => val (get w (map (assign label_eqb ix ms v0) (weight_axes W)))) (indices (map len ms)))) =
                 through x u v ix).
    { rewrite map2_both.
      set (P := fun kx => mul (mul (val (get x (gindex len kx gl))) (val (get u (map kx (weight_axes U))))) (val (get v (map kx (weight_axes V))))).
      assert (HP : respects P).
      { intros i j E. unfold P. rewrite (gindex_same len i j), !(map_ext i j) by auto. reflexivity. }
      transitivity (over add zero len (ms ++ between) ix P); [|transitivity (over add zero len (ms2 ++ ms1) ix P)].
      - rewrite (over_app add mul zero Hsp); [|exact HP|intros a Ha Hb; apply in_missing in Ha; apply in_others in Hb; rewrite in_app_iff in Hb; tauto].
        change (over add zero len ms ix (fun jx => mul (val (get x (gindex len jx gl))) (val (get w (map jx (weight_axes W))))) = over add zero len ms ix (fun jx => over add zero len between jx P)).
        apply over_ext; [exact N3|]. intros jx E1 E2. pose proof (Hall jx E1 E2) as Wj.
        destruct (Hw jx) as (us & vs & F1 & F2 & E); [intros a Ha; apply Wj, HW, Ha|]. cbn zeta in F1, F2. rewrite E. cbn [AdjointFacts.val].
        unfold weight_elements in F1, F2. rewrite (both_values mul zero _ _ _ us vs F1 F2).
        change (mul (val (get x (gindex len jx gl))) (over add zero len between jx (fun kx => mul (val (get u (map kx (weight_axes U)))) (val (get v (map kx (weight_axes V)))))) = over add zero len between jx P).
        rewrite <- (over_mul add mul zero Hsp). apply over_ext; [exact Nb|]. intros kx K1 _. unfold P. rewrite <- mul_assoc. f_equal. f_equal. f_equal.
        apply gindex_same. intros a Ha. symmetry. apply K1. intros X. apply in_others in X. rewrite in_app_iff in X. tauto.
      - apply (over_perm add mul zero Hsp); [exact HP| |].
        + apply NoDup_app_iff. split; [exact N3|]. split; [exact Nb|]. intros a Ha Hb. apply in_missing in Ha. apply in_others in Hb. rewrite in_app_iff in Hb. tauto.
        + apply NoDup_Permutation.
          * apply NoDup_app_iff. split; [exact N3|]. split; [exact Nb|]. intros a Ha Hb. apply in_missing in Ha. apply in_others in Hb. rewrite in_app_iff in Hb. tauto.
          * apply NoDup_app_iff. split; [exact N2|]. split; [exact N1|]. intros a Ha Hb. apply in_missing in Ha, Hb. tauto.
          * intros a. unfold ms, ms1, ms2. rewrite !in_app_iff, in_others, !in_missing, in_app_iff. pose proof (Hlr a).
            destruct (in_dec label_eq_dec a (concat gl)), (in_dec label_eq_dec a (concat gm)), (in_dec label_eq_dec a (concat gr)); tauto.
      - rewrite (over_app add mul zero Hsp); [|exact HP|intros a Ha Hb; apply in_missing in Ha, Hb; tauto].
        apply over_ext; [exact N2|]. intros jx E1 E2.
        rewrite mul_comm, <- (over_mul add mul zero Hsp). apply over_ext; [exact N1|]. intros kx K1 _. unfold P. rewrite mul_comm. f_equal. f_equal. f_equal.
        apply map_ext_in. intros a Ha. apply K1. intros X. apply in_missing in X. apply HV, in_app_or in Ha. pose proof (Hlr a). tauto. }
    exact Et.
  Qed.

  Lemma over_add axs ix F G : over add zero len axs ix (fun jx => add (F jx) (G jx)) = add (over add zero len axs ix F) (over add zero len axs ix G).
  Proof. unfold over. apply (sum_linear add zero (sp_comm _ _ _ Hsp) (sp_assoc _ _ _ Hsp) (sp_zero _ _ _ Hsp)). Qed.

  Lemma fused_mixes_biased (B B' : expr) (x u v w s y b b' : tensor A) second : wf x -> shp x = gshape len gl ->
    mixes add mul zero gl gm U M len x u (Some (B, b)) s -> mixes add mul zero gm gr V R len s v second y ->
    fused add mul zero gl gm gr U V W len u v w -> fused_bias add mul zero gm gr V B M B' R len v b second b' ->
    mixes add mul zero gl gr W R len x w (Some (B', b')) y.
  Proof.
    intros Wx Sx Hs Hy Hw Hb. split; [apply Hy|]. split; [apply Hy|]. intros ix Hix.
    destruct (fused_total x u v w ix Wx Sx Hw Hix) as (xs & ws & E1 & E2 & E). exists xs, ws. split; [exact E1|]. split; [exact E2|]. cbv zeta. rewrite E. clear E xs ws E1 E2.
    destruct (Hb ix Hix) as (bs & vs & F1 & F2 & F). cbv zeta in F. unfold bias_elements, weight_elements in F1, F2. rewrite (both_values mul zero _ _ _ bs vs F1 F2) in F.
    pose proof (mixes_over add mul zero len gm gr V R s v y second ix Hy Hix) as G. cbv zeta in G.
    assert (Et : over add zero len (missing gm gr) ix (fun jx => mul (val (get s (gindex len jx gm))) (val (get v (map jx (map LName (keys V)))))) =
      add (through x u v ix) (over add zero len (missing gm gr) ix (fun jx => mul (val (get b (bias_index B M jx))) (val (get v (map jx (map LName (keys V)))))))).
    { rewrite <- over_add. apply over_ext; [apply NoDup_filter; exact Nm|]. intros jx H1 H2.
      assert (Wj : within len jx (concat gm)).
      { intros a Ha. destruct (in_dec label_eq_dec a (missing gm gr)) as [X|X]; [apply H2, X|]. rewrite H1 by exact X. apply Hix. destruct (in_dec label_eq_dec a (concat gr)) as [Y|Y]; [exact Y|].
        exfalso. apply X, in_missing. tauto. }
      destruct (mixes_over add mul zero len gl gm U M x u s (Some (B, b)) jx Hs Wj) as (c & Gc & Gs). cbv zeta in Gs. rewrite Gs, Gc. cbn [AdjointFacts.val].
      rewrite mul_comm, (sp_distr _ _ _ Hsp), !(mul_comm (val (get v _))). reflexivity. }
    rewrite Et in G.
    change (map (fun v0 => mul (val (get b (bias_index B M (assign label_eqb ix (missing gm gr) v0)))) (val (get v (map (assign label_eqb ix (missing gm gr) v0) (map LName (keys V)))))) (indices (map len (missing gm gr))))
      with (map (fun v0 => (fun jx => mul (val (get b (bias_index B M jx))) (val (get v (map jx (map LName (keys V)))))) (assign label_eqb ix (missing gm gr) v0)) (indices (map len (missing gm gr)))) in F.
    fold (over add zero len (missing gm gr) ix (fun jx => mul (val (get b (bias_index B M jx))) (val (get v (map jx (map LName (keys V))))))) in F.
    destruct second as [[B2 b2]|].
    - destruct F as (c & Gc & Gb). destruct G as (c' & Gc' & Gy). rewrite Gc in Gc'. injection Gc' as <-. eexists. split; [exact Gb|]. rewrite Gy, <- (sp_assoc _ _ _ Hsp). reflexivity.
    - eexists. split; [exact F|exact G].
  Qed.

  (** such a bias exists *)
  Definition index_in (names : list pystr) (idx : list nat) (a : label) : nat :=
    match a with LName s => match index_of str_eqb s names with Some k => nth k idx 0 | None => 0 end | _ => 0 end.
  Lemma index_in_map names f s : In s names -> index_in names (map f names) (LName s) = f s.
  Proof.
    intros H. cbn. destruct (index_of_In str_eqb str_eqb_eq s names H) as (k & E). rewrite E. apply (index_of_Some str_eqb str_eqb_eq) in E.
    rewrite (nth_indep _ 0 (f s)) by (rewrite map_length; apply nth_error_Some; congruence). rewrite (map_nth f names s k). f_equal. apply nth_error_nth, E.
  Qed.
  Lemma assign_agree ix jx axs v a : (~ In a axs -> ix a = jx a) -> assign label_eqb ix axs v a = assign label_eqb jx axs v a.
  Proof.
    intros H. unfold assign. destruct (index_of label_eqb a axs) eqn:E; [reflexivity|]. apply H. apply (index_of_None label_eqb label_eqb_eq), E.
  Qed.

  Definition bias_shape (B E : expr) : list nat := map (fun s => if str_mem s (keys B) then len (LName s) else 1) (written_names E).
  Lemma bias_there B E (b : tensor A) ix : wf b -> shp b = bias_shape B E -> (forall s, In s (written_names E) -> In s (keys B) -> ix (LName s) < len (LName s)) ->
    get b (bias_index B E ix) = Some (val (get b (bias_index B E ix))).
  Proof.
    intros Wb Sb H. destruct (get_wf b (bias_index B E ix) Wb) as [a Ha]; [|rewrite Ha; reflexivity].
    rewrite Sb. unfold bias_shape, bias_index. clear Sb. induction (written_names E) as [|s l IH]; [reflexivity|]. cbn [map inb].
    rewrite IH by (intros s' Hs'; apply H; right; exact Hs'). rewrite andb_true_r. destruct (str_mem s (keys B)) eqn:X; [|reflexivity].
    apply Nat.ltb_lt, H; [left; reflexivity|apply str_mem_In, X].
  Qed.

  Lemma fused_bias_exists (B B' : expr) (v b : tensor A) second : wf v -> shp v = map len (weight_axes V) -> wf b -> shp b = bias_shape B M ->
    (forall s, In s (written_names M) -> In (LName s) (concat gm)) -> (forall s, In s (written_names R) <-> In (LName s) (concat gr)) ->
    (match second with None => True | Some (B2, b2) => wf b2 /\ shp b2 = bias_shape B2 R /\ forall s, In s (keys B2) -> In s (written_names R) -> In s (keys B') end) ->
    (forall s, In s (keys V) \/ In s (keys B) -> In s (written_names R) -> In s (keys B')) ->
    (forall a, In a (weight_axes V) -> In a (concat gm ++ concat gr)) ->
    exists b', wf b' /\ shp b' = bias_shape B' R /\ fused_bias add mul zero gm gr V B M B' R len v b second b'.
  Proof.
    intros Wv Sv Wb Sb HM HR H2 HB HVin.
    set (F := fun jx => mul (val (get b (bias_index B M jx))) (val (get v (map jx (map LName (keys V)))))).
    set (T := fun ix => match second with None => over add zero len (missing gm gr) ix F | Some (B2, b2) => add (over add zero len (missing gm gr) ix F) (val (get b2 (bias_index B2 R ix))) end).
    destruct (tabulate_total (bias_shape B' R) (fun idx => Ok (T (index_in (written_names R) idx)))) as (b' & Eb); [intros; eexists; reflexivity|].
    destruct (tabulate_Ok _ _ _ Eb) as (Wb' & Sb' & Gb'). exists b'. split; [exact Wb'|]. split; [exact Sb'|]. intros ix Hix.
    set (jx := index_in (written_names R) (bias_index B' R ix)).
    assert (Ej : forall s, In s (written_names R) -> In s (keys B') -> jx (LName s) = ix (LName s)).
    { intros s Hs HsB. unfold jx, bias_index. rewrite (index_in_map (written_names R) (fun s => if str_mem s (keys B') then ix (LName s) else 0) s Hs). rewrite (proj2 (str_mem_In s (keys B')) HsB). reflexivity. }
    assert (Hw : forall i, inb (map len (missing gm gr)) i = true -> forall a, In a (concat gm ++ concat gr) -> assign label_eqb ix (missing gm gr) i a < len a).
    { intros i Hi a Ha. destruct (in_dec label_eq_dec a (missing gm gr)) as [X|X].
      - apply (within_assign label_eqb label_eqb_eq len ix (missing gm gr) i); [apply NoDup_filter; exact Nm|exact Hi|exact X].
      - rewrite (assign_out label_eqb label_eqb_eq) by exact X. apply Hix. destruct (in_dec label_eq_dec a (concat gr)) as [Y|Y]; [exact Y|]. exfalso. apply X, in_missing. apply in_app_or in Ha. tauto. }
    assert (Et : T jx = T ix).
    { assert (Eo : over add zero len (missing gm gr) jx F = over add zero len (missing gm gr) ix F).
      { unfold over. f_equal. apply map_ext. intros i. unfold F. f_equal; f_equal; f_equal.
        - unfold bias_index. apply map_ext_in. intros s Hs. destruct (str_mem s (keys B)) eqn:X; [|reflexivity]. apply str_mem_In in X.
          apply assign_agree. intros Hn. assert (Hr : In s (written_names R)).
          { apply HR. destruct (in_dec label_eq_dec (LName s) (concat gr)) as [Y|Y]; [exact Y|]. exfalso. apply Hn, in_missing. split; [apply HM, Hs|exact Y]. }
          apply Ej; [exact Hr|]. apply HB; auto.
        - apply map_ext_in. intros a Ha. apply assign_agree. intros Hn. pose proof (HVin a Ha) as Hin. apply in_map_iff in Ha as (s & <- & Hs).
          assert (Hr : In s (written_names R)).
          { apply HR. destruct (in_dec label_eq_dec (LName s) (concat gr)) as [Y|Y]; [exact Y|]. exfalso. apply Hn, in_missing. apply in_app_or in Hin. tauto. }
          apply Ej; [exact Hr|]. apply HB; auto. }
      unfold T. destruct second as [[B2 b2]|]; [|exact Eo]. rewrite Eo. f_equal. f_equal. f_equal. unfold bias_index. apply map_ext_in. intros s Hs.
      destruct (str_mem s (keys B2)) eqn:X; [|reflexivity]. apply str_mem_In in X. apply Ej; [exact Hs|]. apply H2; assumption. }
    assert (Eb' : get b' (bias_index B' R ix) = Some (T ix)).
    { rewrite <- Et. apply getr_get. rewrite Gb'; [reflexivity|]. unfold bias_shape, bias_index.
      assert (Hin : forall s, In s (written_names R) -> ix (LName s) < len (LName s)) by (intros s Hs; apply Hix, HR, Hs). clear - Hin.
      induction (written_names R) as [|s l IH]; [reflexivity|]. cbn [map inb]. rewrite IH by (intros s' Hs'; apply Hin; right; exact Hs'). rewrite andb_true_r.
      destruct (str_mem s (keys B')); [|reflexivity]. apply Nat.ltb_lt, Hin. left. reflexivity. }
    exists (map (fun i => val (get b (bias_index B M (assign label_eqb ix (missing gm gr) i)))) (indices (map len (missing gm gr)))),
      (map (fun i => val (get v (map (assign label_eqb ix (missing gm gr) i) (map LName (keys V))))) (indices (map len (missing gm gr)))).
    split; [|split].
    - unfold bias_elements. rewrite map_map. apply map_ext_in. intros i Hi. apply indices_In in Hi. apply bias_there; [exact Wb|exact Sb|]. intros s Hs _. apply (Hw i Hi), in_or_app. left. apply HM, Hs.
    - unfold weight_elements. rewrite map_map. apply map_ext_in. intros i Hi. apply indices_In in Hi.
      destruct (get_wf v (map (assign label_eqb ix (missing gm gr) i) (map LName (keys V))) Wv) as [a Ha]; [|rewrite Ha; reflexivity]. rewrite Sv. apply (proj2 (inb_within len _ _)).
      intros a Ha. apply (Hw i Hi), HVin, Ha.
    - cbv zeta. rewrite map2_both.
      change (match second with
        | None => get b' (bias_index B' R ix) = Some (over add zero len (missing gm gr) ix F)
        | Some (B2, b2) => exists c, get b2 (bias_index B2 R ix) = Some c /\ get b' (bias_index B' R ix) = Some (add (over add zero len (missing gm gr) ix F) c)
        end).
      rewrite Eb'. unfold T. destruct second as [[B2 b2]|]; [|reflexivity]. eexists. split; [|reflexivity]. destruct H2 as (W2' & S2' & _). apply bias_there; [exact W2'|exact S2'|].
      intros s Hs _. apply Hix, HR, Hs.
  Qed.
End Fuse.

Section Layers.
  Context {A : Type} (add mul : A -> A -> A) (zero one : A).
  Context (Hsp : sums_and_products add mul zero) (mul_comm : forall a b, mul a b = mul b a) (mul_assoc : forall a b c, mul a (mul b c) = mul (mul a b) c).
  Context (mul_one : forall a, mul a one = a).
  Context (lib : pystr -> list (tensor A) -> result (tensor A)) (HC : einsum_contract add mul zero one lib).
  Context (iadd : tensor A -> tensor A -> result (tensor A)) (HI : iadd_contract add iadd).
  Context (r : runtime A) (Hok : runtime_ok r) (os os' : nat -> orders) (Hos : forall n, orders_ok (os n)) (Hos' : forall n, orders_ok (os' n)).
  Notation U := (rt_unicode r).

  Lemma bias_is p wt text sizes L R W B (M : einmix (tensor A)) e len shape : reads U p L R -> written U wt W -> plain L -> plain R -> plain W -> NoDup (map fst sizes) ->
    EinMix U os os' p wt (Some text) sizes = Ok M -> fits len (left_groups e L) (right_groups e L R) shape sizes -> written U text B ->
    em_bias M = Some (map Z.of_nat (bias_shape len B R)).
  Proof.
    intros Hr WW PL PR PW Hn HM Hf WB. pose proof (ro_unicode _ Hok) as HU.
    pose proof (proj1 (reads_split U HU p L R) Hr) as (l & rr & Hsplit & WL & WR).
    pose proof (einmix_made U HU os os' Hos p wt l rr (Some text) sizes L R W Hsplit WL WR WW PL PR PW Hn M HM) as HMd.
    destruct (md_bias _ _ _ _ _ _ _ _ _ _ _ _ _ HMd) as (B' & HB & ->).
    assert (B' = B) by (eapply (written_fun U false false text); [exact HU|apply (bf_written _ _ _ _ _ HB)|exact WB]). subst B'.
    pose proof (proj2 (proj2 Hf)) as Hlen. f_equal. unfold bias_shape. rewrite map_map. apply map_ext. intros s. unfold bias_dim.
    destruct (str_mem s (keys B)) eqn:X; [|reflexivity]. apply str_mem_In in X. symmetry. apply Hlen, size_in, (bf_sized _ _ _ _ _ HB), X.
  Qed.

  Lemma layers_fused_biased p1 p2 p3 wt1 wt2 wt3 t1 bt2 t3 sizes1 sizes2 sizes3 L K R W1 W2 W3 B1 B3 M1 M2 M3 p e len (x u v b1 : tensor A) b2 :
    reads U p1 L K -> reads U p2 K R -> reads U p3 L R -> written U wt1 W1 -> written U wt2 W2 -> written U wt3 W3 -> written U t1 B1 -> written U t3 B3 ->
    plain L -> plain K -> plain R -> plain W1 -> plain W2 -> plain W3 -> NoDup (map fst sizes1) -> NoDup (map fst sizes2) -> NoDup (map fst sizes3) ->
    EinMix U os os' p1 wt1 (Some t1) sizes1 = Ok M1 -> EinMix U os os' p2 wt2 bt2 sizes2 = Ok M2 -> EinMix U os os' p3 wt3 (Some t3) sizes3 = Ok M3 ->
    (forall s, In s (keys L) -> In s (keys R) -> In s (keys K)) ->
    (forall s, In s (keys W3) <-> In s (keys W1 ++ keys W2) /\ In s (keys L ++ keys R)) ->
    (forall s, In s (keys R) -> In s (keys B1 ++ keys W2) \/ (exists t2 B2, bt2 = Some t2 /\ written U t2 B2 /\ In s (keys B2)) -> In s (keys B3)) ->
    einsum_reads U p [enames (keys W1); enames (keys W2)] (enames (keys W3)) ->
    wf x -> rank_fits L (length (shp x)) e ->
    fits len (left_groups e L) (right_groups e L K) (shp x) sizes1 -> fits len (left_groups e K) (right_groups e K R) (gshape len (left_groups e K)) sizes2 ->
    fits len (left_groups e L) (right_groups e L R) (shp x) sizes3 ->
    no_division sizes1 len (left_groups e L) -> no_division sizes2 len (left_groups e K) -> no_division sizes3 len (left_groups e L) ->
    e < 8 -> wf u -> map Z.of_nat (shp u) = em_weight M1 -> wf v -> map Z.of_nat (shp v) = em_weight M2 -> bias_of (em_bias M1) (Some b1) -> bias_of (em_bias M2) b2 ->
    exists w b3 s y, einsum_with U lib [inl u; inl v; inr p] = Ok w /\ map Z.of_nat (shp w) = em_weight M3 /\ bias_of (em_bias M3) (Some b3) /\
      (exists second, option_map snd second = b2 /\ match second with None => True | Some (B2, _) => exists t2, bt2 = Some t2 /\ written U t2 B2 end /\
        fused_bias add mul zero (left_groups e K) (right_groups e K R) W2 B1 K B3 R len v b1 second b3) /\
      call_einmix r lib iadd M1 u (Some b1) x = Ok s /\ call_einmix r lib iadd M2 v b2 s = Ok y /\ call_einmix r lib iadd M3 w (Some b3) x = Ok y.
  Proof.
    intros R1 R2 R3 WW1 WW2 WW3 WB1 WB3 PL PK PR PW1 PW2 PW3 Hn1 Hn2 Hn3 HM1 HM2 HM3 Hlr HW3 HB3 Hp Wx Hk Hf1 Hf2 Hf3 Hd1 Hd2 Hd3 He Wu Su Wv Sv Bb1 Bb2.
    pose proof (ro_unicode _ Hok) as HU.
    destruct (layers_weight add mul zero one Hsp mul_one lib HC r Hok os os' Hos p1 p2 p3 wt1 wt2 wt3 (Some t1) bt2 (Some t3) sizes1 sizes2 sizes3 L K R W1 W2 W3 M1 M2 M3 p e len x u v R1 R2 R3 WW1 WW2 WW3 PL PK PR PW1 PW2 PW3 Hn1 Hn2 Hn3 HM1 HM2 HM3 Hlr HW3 Hp Wx Hk Hf1 Hf2 Hf3 Wu Su Wv Sv)
      as (w & Eeq & Ww & Sw' & Hfused & Sx & Hk' & Ek & Er & Ew2 & Nl & Nk & Nr & HV & HW & Hlr').
    destruct (layer_axes r Hok os os' Hos p2 wt2 bt2 sizes2 K R W2 M2 e R2 WW2 PK PR PW2 Hn2 HM2) as [CK CR]. rewrite Er in CR.
    pose proof (bias_is p1 wt1 t1 sizes1 L K W1 B1 M1 e len _ R1 WW1 PL PK PW1 Hn1 HM1 Hf1 WB1) as Eb1. rewrite Eb1 in Bb1. destruct Bb1 as (b0 & E0 & Wb1 & Sb1). injection E0 as <-.
    pose proof (bias_is p3 wt3 t3 sizes3 L R W3 B3 M3 e len _ R3 WW3 PL PR PW3 Hn3 HM3 Hf3 WB3) as Eb3.
    assert (Hsecond : exists second, option_map snd second = b2 /\
      match second with None => bt2 = None | Some (B2, c2) => exists t2, bt2 = Some t2 /\ written U t2 B2 /\ wf c2 /\ shp c2 = bias_shape len B2 R /\ Some (map Z.of_nat (shp c2)) = em_bias M2 end).
    { pose proof (layer_bias r Hok os os' Hos p2 wt2 bt2 sizes2 K R W2 R2 WW2 PK PR PW2 Hn2 M2 HM2) as LB. destruct bt2 as [t2|].
      - destruct LB as (B2 & sb & WB2 & _). pose proof (bias_is p2 wt2 t2 sizes2 K R W2 B2 M2 e len _ R2 WW2 PK PR PW2 Hn2 HM2 Hf2 WB2) as Eb2. rewrite Eb2 in Bb2. destruct Bb2 as (c2 & -> & Wc & Sc).
        exists (Some (B2, c2)). split; [reflexivity|]. exists t2. split; [reflexivity|]. split; [exact WB2|]. split; [exact Wc|]. split; [apply (map_inj Z.of_nat Nat2Z.inj), Sc|]. rewrite Sc, Eb2. reflexivity.
      - rewrite LB in Bb2. exists None. split; [symmetry; exact Bb2|reflexivity]. }
    destruct Hsecond as (second & Es2 & Hsecond).
    assert (Hwk : forall s, In s (written_names K) -> In (LName s) (concat (left_groups e K))) by (intros s Hs; rewrite CK; apply in_name; [exact PK|]; apply in_names_of, Hs).
    assert (Hwr : forall s, In s (written_names R) <-> In (LName s) (concat (right_groups e L R))) by (intros s; rewrite CR, in_name by exact PR; apply in_names_of).
    destruct (fused_bias_exists add mul zero len (left_groups e K) (right_groups e L R) W2 K R Nk B1 B3 v b1 second) as (b3 & Wb3 & Sb3 & Hb3).
    - exact Wv.
    - exact Ew2.
    - exact Wb1.
    - apply (map_inj Z.of_nat Nat2Z.inj), Sb1.
    - exact Hwk.
    - exact Hwr.
    - destruct second as [[B2 c2]|]; [|exact I]. destruct Hsecond as (t2 & -> & WB2 & Wc & Sc & _). split; [exact Wc|]. split; [exact Sc|]. intros s Hs Hr. apply HB3; [apply in_names_of in Hr; apply Hr|].
      right. exists t2, B2. auto.
    - intros s Hs Hr. apply HB3; [apply in_names_of in Hr; apply Hr|]. left. apply in_or_app. tauto.
    - exact HV.
    - destruct (call_mixes add mul zero one (sp_comm _ _ _ Hsp) (sp_assoc _ _ _ Hsp) mul_one lib HC iadd HI r Hok os os' Hos Hos' p1 wt1 (Some t1) sizes1 L K W1 R1 WW1 PL PK PW1 Hn1 M1 HM1 e len x u Wx Wu Hk Hf1 Hd1 (fun _ => He) Su (Some (B1, b1))) as (s & Es & Ms).
      { exists B1, b1. split; [reflexivity|]. split; [exact WB1|]. split; [exact Wb1|]. rewrite Eb1, Sb1. reflexivity. }
      rewrite Ek in Ms. pose proof (proj1 Ms) as Ws. pose proof (proj1 (proj2 Ms)) as Ss. rewrite <- Ss in Hk', Hf2.
      destruct (call_mixes add mul zero one (sp_comm _ _ _ Hsp) (sp_assoc _ _ _ Hsp) mul_one lib HC iadd HI r Hok os os' Hos Hos' p2 wt2 bt2 sizes2 K R W2 R2 WW2 PK PR PW2 Hn2 M2 HM2 e len s v Ws Wv Hk' Hf2 Hd2 (fun _ => He) Sv second) as (y & Ey & My).
      { destruct second as [[B2 c2]|]; [|rewrite Hsecond; reflexivity]. destruct Hsecond as (t2 & -> & WB2 & Wc & _ & Ec). exists B2, c2. auto. }
      destruct (call_mixes add mul zero one (sp_comm _ _ _ Hsp) (sp_assoc _ _ _ Hsp) mul_one lib HC iadd HI r Hok os os' Hos Hos' p3 wt3 (Some t3) sizes3 L R W3 R3 WW3 PL PR PW3 Hn3 M3 HM3 e len x w Wx Ww Hk Hf3 Hd3 (fun _ => He) Sw' (Some (B3, b3))) as (y3 & Ey3 & My3).
      { exists B3, b3. split; [reflexivity|]. split; [exact WB3|]. split; [exact Wb3|]. rewrite Eb3, Sb3. reflexivity. }
      rewrite Er in My. rewrite Es2 in Ey. exists w, b3, s, y. split; [exact Eeq|]. split; [exact Sw'|].
      split; [rewrite Eb3; exists b3; split; [reflexivity|]; split; [exact Wb3|rewrite Sb3; reflexivity]|].
      split.
      { exists second. split; [exact Es2|]. split; [destruct second as [[B2 c2]|]; [destruct Hsecond as (t2 & -> & WB2 & _); exists t2; auto|exact I]|]. rewrite Er. exact Hb3. }
      split; [exact Es|]. split; [exact Ey|].
      rewrite <- (mixes_unique add mul zero _ _ _ _ _ _ _ _ _ _ Nr My3 (fused_mixes_biased add mul zero Hsp mul_comm mul_assoc len _ _ _ W1 W2 W3 K R Nl Nk Hlr' HV HW B1 B3 x u v w s y b1 b3 second Wx Sx Ms My Hfused Hb3)). exact Ey3.
  Qed.
End Layers.
