(** * Two EinMix layers in a row *)
From Coq Require Import Permutation.
From Verif Require Import Py Tensor TensorFacts ListFacts SpecSem SpecGrammar SpecEinsum SpecPattern SpecForms SpecOps SpecElements SpecAdjoint SpecLinear Parsing Compile Recipe Ops Backends Api
  ParseFacts ParseFacts2 ParseFacts3 StepFacts FrontFacts FrontFacts2 FrontFacts3 MainFacts MainFacts2 ReduceFacts MainFacts3 CallFacts RelabelFacts ApiFacts ApiFacts2 ApiFacts3 RedFacts Laws
  EinsumFacts3 EinsumLaws2 AdjointFacts Layers Einsum LayerFacts EinMix SpecEinMix MixFacts MixFacts2 MixFacts3 MixFacts4 MixFacts5 MixFacts6 MixFacts7 MixFacts8 MixFacts9 MixLaws MixLaws2 SpecMixGrad MixGradFacts SpecMixFuse.

Section Sums.
  Context {A : Type} (add mul : A -> A -> A) (zero : A) (Hsp : sums_and_products add mul zero) (len : label -> nat).
  Notation sum := (fold_right add zero).
  Notation val := (val zero).
  (** the sum over the axes [axs] *)
  Definition over (axs : list label) (ix : label -> nat) (F : (label -> nat) -> A) : A :=
    sum (map (fun v => F (assign label_eqb ix axs v)) (indices (map len axs))).
  Definition respects (F : (label -> nat) -> A) : Prop := forall i j, (forall a, i a = j a) -> F i = F j.

  Lemma over_ext axs ix F G : NoDup axs -> (forall jx, (forall a, ~ In a axs -> jx a = ix a) -> (forall a, In a axs -> jx a < len a) -> F jx = G jx) -> over axs ix F = over axs ix G.
  Proof.
    intros N H. unfold over. f_equal. apply map_ext_in. intros v Hv. apply indices_In in Hv. apply H.
    - intros a Ha. apply (assign_out label_eqb label_eqb_eq), Ha.
    - intros a Ha. exact (within_assign label_eqb label_eqb_eq len ix axs v N Hv a Ha).
  Qed.
  Lemma over_app l m ix F : respects F -> (forall a, In a l -> ~ In a m) -> over (l ++ m) ix F = over l ix (fun jx => over m jx F).
  Proof.
    intros HF D. unfold over. rewrite map_app, (sum_indices_app add mul zero Hsp). f_equal. apply map_ext_in. intros i Hi. f_equal. apply map_ext_in. intros j Hj.
    apply indices_In, inb_length in Hi. rewrite map_length in Hi. apply HF. intros a. apply (assign_app label_eqb label_eqb_eq); auto.
  Qed.
  Lemma over_perm l m ix F : respects F -> NoDup l -> Permutation l m -> over l ix F = over m ix F.
  Proof. intros HF N P. unfold over. eapply sum_permutation; [apply (sp_comm _ _ _ Hsp)|apply (sp_assoc _ _ _ Hsp)|]. apply (reorder_map F len ix l m N P HF). Qed.
  Lemma over_mul axs ix F c : over axs ix (fun jx => mul c (F jx)) = mul c (over axs ix F).
  Proof. unfold over. apply (mul_sum add mul zero Hsp). Qed.

  Lemma mixes_over gl gr W R (x w y : tensor A) b ix : mixes add mul zero gl gr W R len x w b y -> within len ix (concat gr) ->
    let t := over (missing gl gr) ix (fun jx => mul (val (get x (gindex len jx gl))) (val (get w (map jx (map LName (keys W)))))) in
    match b with None => get y (gindex len ix gr) = Some t | Some (B, b) => exists c, get b (bias_index B R ix) = Some c /\ get y (gindex len ix gr) = Some (add t c) end.
  Proof.
    intros (_ & _ & H) Hix. destruct (H ix Hix) as (xs & ws & E1 & E2 & E). cbn zeta in *. unfold elements, weight_elements in E1, E2.
    rewrite (both_values mul zero _ _ _ xs ws E1 E2) in E. exact E.
  Qed.
End Sums.

Section Fuse.
  Context {A : Type} (add mul : A -> A -> A) (zero : A) (Hsp : sums_and_products add mul zero).
  Context (mul_comm : forall a b, mul a b = mul b a) (mul_assoc : forall a b c, mul a (mul b c) = mul (mul a b) c).
  Context (len : label -> nat) (gl gm gr : list (list label)) (U V W M R : expr).
  Context (Nl : NoDup (concat gl)) (Nm : NoDup (concat gm)) (Nr : NoDup (concat gr)).
  Context (Hlr : forall a, In a (concat gl) -> In a (concat gr) -> In a (concat gm)).
  Context (HU : incl (weight_axes U) (concat gl ++ concat gm)) (HV : incl (weight_axes V) (concat gm ++ concat gr)) (HW : incl (weight_axes W) (concat gl ++ concat gr)).
  Notation between := (others (concat gm) (concat gl ++ concat gr)).
  Notation val := (val zero).

  Lemma fused_mixes (x u v w s y : tensor A) b : wf x -> shp x = gshape len gl ->
    mixes add mul zero gl gm U M len x u None s -> mixes add mul zero gm gr V R len s v b y -> fused add mul zero gl gm gr U V W len u v w ->
    mixes add mul zero gl gr W R len x w b y.
  Proof.
    intros Wx Sx Hs Hy (Ww & Sw & Hw).
    split; [apply Hy|]. split; [apply Hy|]. intros ix Hix.
    set (ms1 := missing gl gm). set (ms2 := missing gm gr). set (ms := missing gl gr).
    assert (N1 : NoDup ms1) by (apply NoDup_filter; auto). assert (N2 : NoDup ms2) by (apply NoDup_filter; auto). assert (N3 : NoDup ms) by (apply NoDup_filter; auto).
    assert (Nb : NoDup between) by (apply NoDup_filter; auto).
    assert (Hall : forall jx, (forall a, ~ In a ms -> jx a = ix a) -> (forall a, In a ms -> jx a < len a) -> within len jx (concat gl ++ concat gr)).
    { intros jx E1 E2 a Ha. destruct (in_dec label_eq_dec a ms) as [X|X]; [apply E2, X|]. rewrite E1 by exact X. apply Hix. destruct (in_dec label_eq_dec a (concat gr)) as [Y|Y]; [exact Y|].
      exfalso. apply X, in_missing. apply in_app_or in Ha. tauto. }
    assert (Hassign : forall v0, inb (map len ms) v0 = true -> within len (assign label_eqb ix ms v0) (concat gl ++ concat gr)).
    { intros v0 Hv0. apply Hall; [intros a Ha; apply (assign_out label_eqb label_eqb_eq), Ha|]. intros a Ha. exact (within_assign label_eqb label_eqb_eq len ix ms v0 N3 Hv0 a Ha). }
    exists (map (fun v0 => val (get x (gindex len (assign label_eqb ix ms v0) gl))) (indices (map len ms))), (map (fun v0 => val (get w (map (assign label_eqb ix ms v0) (weight_axes W)))) (indices (map len ms))).
    split; [|split].
    { apply elements_there; auto. intros v0 Hv0 a Ha. apply (Hassign v0 Hv0). apply in_or_app. auto. }
    { unfold weight_elements. rewrite map_map. apply map_ext_in. intros v0 Hv0. apply indices_In in Hv0.
      destruct (Hw (assign label_eqb ix ms v0)) as (us & vs & _ & _ & E); [intros a Ha; apply (Hassign v0 Hv0), HW, Ha|]. unfold weight_axes in *. rewrite E. reflexivity. }
    cbn zeta.
    assert (Et : fold_right add zero (map2 mul (map (fun v0 => val (get x (gindex len (assign label_eqb ix ms v0) gl))) (indices (map len ms)))
                  (map (fun v0 => val (get w (map (assign label_eqb ix ms v0) (weight_axes W)))) (indices (map len ms)))) =
                 over add zero len ms2 ix (fun jx => mul (val (get s (gindex len jx gm))) (val (get v (map jx (map LName (keys V))))))).
    { rewrite map2_both.
      set (P := fun kx => mul (mul (val (get x (gindex len kx gl))) (val (get u (map kx (weight_axes U))))) (val (get v (map kx (weight_axes V))))).
      assert (HP : respects P).
      { intros i j E. unfold P. rewrite (gindex_same len i j), !(map_ext i j) by auto. reflexivity. }
      transitivity (over add zero len (ms ++ between) ix P); [|transitivity (over add zero len (ms2 ++ ms1) ix P)].
      - rewrite (over_app add mul zero Hsp); [|exact HP|intros a Ha Hb; apply in_missing in Ha; apply in_others in Hb; rewrite in_app_iff in Hb; tauto].
        change (over add zero len ms ix (fun jx => mul (val (get x (gindex len jx gl))) (val (get w (map jx (weight_axes W))))) = over add zero len ms ix (fun jx => over add zero len between jx P)).
        apply over_ext; [exact N3|]. intros jx E1 E2. pose proof (Hall jx E1 E2) as Wj.
        destruct (Hw jx) as (us & vs & F1 & F2 & E); [intros a Ha; apply Wj, HW, Ha|]. cbn zeta in F1, F2. rewrite E. cbn [AdjointFacts.val].
        unfold weight_elements in F1, F2. rewrite (both_values mul zero _ _ _ us vs F1 F2).
        change (mul (val (get x (gindex len jx gl))) (over add zero len between jx (fun kx => mul (val (get u (map kx (weight_axes U)))) (val (get v (map kx (weight_axes V)))))) = over add zero len between jx P).
        rewrite <- (over_mul add mul zero Hsp). apply over_ext; [exact Nb|]. intros kx K1 _. unfold P. rewrite <- mul_assoc. f_equal. f_equal. f_equal.
        apply gindex_same. intros a Ha. symmetry. apply K1. intros X. apply in_others in X. rewrite in_app_iff in X. tauto.
      - apply (over_perm add mul zero Hsp); [exact HP| |].
        + apply NoDup_app_iff. split; [exact N3|]. split; [exact Nb|]. intros a Ha Hb. apply in_missing in Ha. apply in_others in Hb. rewrite in_app_iff in Hb. tauto.
        + apply NoDup_Permutation.
          * apply NoDup_app_iff. split; [exact N3|]. split; [exact Nb|]. intros a Ha Hb. apply in_missing in Ha. apply in_others in Hb. rewrite in_app_iff in Hb. tauto.
          * apply NoDup_app_iff. split; [exact N2|]. split; [exact N1|]. intros a Ha Hb. apply in_missing in Ha, Hb. tauto.
          * intros a. unfold ms, ms1, ms2. rewrite !in_app_iff, in_others, !in_missing, in_app_iff. pose proof (Hlr a).
            destruct (in_dec label_eq_dec a (concat gl)), (in_dec label_eq_dec a (concat gm)), (in_dec label_eq_dec a (concat gr)); tauto.
      - rewrite (over_app add mul zero Hsp); [|exact HP|intros a Ha Hb; apply in_missing in Ha, Hb; tauto].
        apply over_ext; [exact N2|]. intros jx E1 E2.
        assert (Wj : within len jx (concat gm)).
        { intros a Ha. destruct (in_dec label_eq_dec a ms2) as [X|X]; [apply E2, X|]. rewrite E1 by exact X. apply Hix. destruct (in_dec label_eq_dec a (concat gr)) as [Y|Y]; [exact Y|].
          exfalso. apply X, in_missing. tauto. }
        pose proof (mixes_over add mul zero len gl gm U M x u s None jx Hs Wj) as E. cbn zeta in E. rewrite E. cbn [AdjointFacts.val].
        rewrite mul_comm, <- (over_mul add mul zero Hsp). apply over_ext; [exact N1|]. intros kx K1 _. unfold P. rewrite mul_comm. f_equal. f_equal. f_equal.
        apply map_ext_in. intros a Ha. apply K1. intros X. apply in_missing in X. apply HV, in_app_or in Ha. pose proof (Hlr a). tauto. }
    rewrite Et. exact (mixes_over add mul zero len gm gr V R s v y b ix Hy Hix).
  Qed.
End Fuse.
