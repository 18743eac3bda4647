(** * A repeat before einsum or EinMix *)
From Coq Require Import Permutation.
From Verif Require Import Py Tensor TensorFacts ListFacts SpecSem SpecGrammar SpecEinsum SpecPattern SpecForms SpecOps SpecElements SpecAdjoint SpecLinear Parsing Compile Recipe Ops Backends Api
  ParseFacts ParseFacts2 ParseFacts3 StepFacts FrontFacts FrontFacts2 FrontFacts3 MainFacts MainFacts2 ReduceFacts MainFacts3 CallFacts RelabelFacts ApiFacts ApiFacts2 ApiFacts3 RedFacts Laws
  EinsumFacts3 EinsumLaws2 AdjointFacts Layers Einsum LayerFacts EinMix SpecEinMix MixFacts MixFacts2 MixFacts3 MixFacts4 MixFacts5 MixFacts6 MixFacts7 MixFacts8 MixFacts9 MixLaws MixLaws2 SpecMixGrad MixGradFacts SpecMixFuse
  MixFuseFacts MixFuseFacts2 MixFuseFacts3.
From Verif Require Import SpecShape PackLaws EquivalentFacts MixMoveFacts.

Section Moves.
  Context {A : Type} (add mul : A -> A -> A) (zero : A) (Hsp : sums_and_products add mul zero).
  Context (len : label -> nat) (gl gm gr : list (list label)).
  Notation val := (val zero).

  Lemma repeat_mixes W R (x s w y : tensor A) b : NoDup (concat gl) -> NoDup (concat gm) -> incl (concat gl) (concat gm) -> incl (concat gm) (concat gl ++ concat gr) ->
    incl (weight_axes W) (concat gl ++ concat gr) -> wf x -> shp x = gshape len gl -> wf w -> shp w = map len (weight_axes W) ->
    moves gl gm len x s -> mixes add mul zero gm gr W R len s w b y -> mixes add mul zero gl gr W R len x w b y.
  Proof.
    intros Nl Nm Sub Same HW Wx Sx Ww Sw (Ws & Ss & Hs) Hy. split; [apply Hy|]. split; [apply Hy|]. intros ix Hix.
    set (ms := missing gl gr).
    assert (N3 : NoDup ms) by (apply NoDup_filter; auto).
    assert (Hall : forall jx, (forall a, ~ In a ms -> jx a = ix a) -> (forall a, In a ms -> jx a < len a) -> within len jx (concat gl ++ concat gr)).
    { intros jx E1 E2 a Ha. destruct (in_dec label_eq_dec a ms) as [X|X]; [apply E2, X|]. rewrite E1 by exact X. apply Hix. destruct (in_dec label_eq_dec a (concat gr)) as [Y|Y]; [exact Y|].
      exfalso. apply X, in_missing. apply in_app_or in Ha. tauto. }
    assert (Hassign : forall v0, inb (map len ms) v0 = true -> within len (assign label_eqb ix ms v0) (concat gl ++ concat gr)).
    { intros v0 Hv0. apply Hall; [intros a Ha; apply (assign_out label_eqb label_eqb_eq), Ha|]. intros a Ha. exact (within_assign label_eqb label_eqb_eq len ix ms v0 N3 Hv0 a Ha). }
    exists (map (fun v0 => val (get x (gindex len (assign label_eqb ix ms v0) gl))) (indices (map len ms))), (map (fun v0 => val (get w (map (assign label_eqb ix ms v0) (weight_axes W)))) (indices (map len ms))).
    split; [|split].
    { apply elements_there; auto. intros v0 Hv0 a Ha. apply (Hassign v0 Hv0). apply in_or_app. auto. }
    { unfold weight_elements. rewrite map_map. apply map_ext_in. intros v0 Hv0. apply indices_In in Hv0. fold (weight_axes W).
      destruct (get_wf w (map (assign label_eqb ix ms v0) (weight_axes W)) Ww) as [a Ha]; [|rewrite Ha; reflexivity]. rewrite Sw. apply (proj2 (inb_within len _ _)).
      intros a Ha. apply (Hassign v0 Hv0), HW, Ha. }
    cbn zeta. rewrite map2_both.
    pose proof (mixes_over add mul zero len gm gr W R s w y b ix Hy Hix) as Ht. cbn zeta in Ht. fold (weight_axes W) in Ht.
    assert (Et : fold_right add zero (map (fun v0 => mul (val (get x (gindex len (assign label_eqb ix ms v0) gl))) (val (get w (map (assign label_eqb ix ms v0) (weight_axes W))))) (indices (map len ms))) =
      over add zero len (missing gm gr) ix (fun jx => mul (val (get s (gindex len jx gm))) (val (get w (map jx (weight_axes W)))))).
    { change (over add zero len ms ix (fun jx => mul (val (get x (gindex len jx gl))) (val (get w (map jx (weight_axes W))))) =
        over add zero len (missing gm gr) ix (fun jx => mul (val (get s (gindex len jx gm))) (val (get w (map jx (weight_axes W)))))).
      rewrite (over_perm add mul zero Hsp len (missing gm gr) ms).
      - apply over_ext; [exact N3|]. intros jx E1 E2. rewrite <- Hs; [reflexivity|]. pose proof (Hall jx E1 E2) as X. intros a Ha. apply X. apply in_app_or in Ha as [Ha|Ha]; [apply in_or_app; left; exact Ha|apply Same, Ha].
      - intros i j E. unfold gindex. rewrite (map_ext i j) by exact E. f_equal. f_equal. f_equal. apply map_ext. intros g. rewrite (map_ext i j) by exact E. reflexivity.
      - apply NoDup_filter; exact Nm.
      - apply NoDup_Permutation; [apply NoDup_filter; exact Nm|exact N3|]. intros a. unfold ms. rewrite !in_missing. split; intros [H1 H2]; (split; [|exact H2]); [apply Same, in_app_or in H1; tauto|apply Sub, H1]. }
    rewrite Et. exact Ht.
  Qed.
End Moves.

Section Layers.
  Context {A : Type} (add mul : A -> A -> A) (zero one : A).
  Context (Hsp : sums_and_products add mul zero) (mul_one : forall a, mul a one = a).
  Context (lib : pystr -> list (tensor A) -> result (tensor A)) (HC : einsum_contract add mul zero one lib).
  Context (iadd : tensor A -> tensor A -> result (tensor A)) (HI : iadd_contract add iadd).
  Context (r : runtime A) (Hok : runtime_ok r) (os os' : nat -> orders) (Hos : forall n, orders_ok (os n)) (Hos' : forall n, orders_ok (os' n)).
  Notation U := (rt_unicode r).

  Lemma repeat_before p0 p1 p2 wt bt sizes0 sizes1 sizes2 L K R W (M1 M2 : einmix (tensor A)) e len (x w : tensor A) b :
    NoDup (map fst sizes0) -> no_reserved sizes0 -> call_ok U Repeating p0 sizes0 (shp x) L K e len ->
    reads U p1 K R -> reads U p2 L R -> written U wt W -> plain L -> plain K -> plain R -> plain W -> NoDup (map fst sizes1) -> NoDup (map fst sizes2) ->
    EinMix U os os' p1 wt bt sizes1 = Ok M1 -> EinMix U os os' p2 wt bt sizes2 = Ok M2 -> wf x ->
    fits len (left_groups e K) (right_groups e K R) (gshape len (left_groups e K)) sizes1 -> fits len (left_groups e L) (right_groups e L R) (shp x) sizes2 ->
    no_division sizes1 len (left_groups e K) -> no_division sizes2 len (left_groups e L) -> e < 8 ->
    wf w -> map Z.of_nat (shp w) = em_weight M1 -> bias_of (em_bias M1) b -> incl (keys K) (keys L ++ keys R) ->
    em_weight M2 = em_weight M1 /\ em_bias M2 = em_bias M1 /\
    exists s y, repeat_ r (One x) p0 sizes0 = Ok s /\ call_einmix r lib iadd M1 w b s = Ok y /\ call_einmix r lib iadd M2 w b x = Ok y.
  Proof.
    intros Hn0 Hres Hcall R1 R2 WW PL PK PR PW Hn1 Hn2 HM1 HM2 Wx Hf1 Hf2 Hd1 Hd2 He Ww Sw Bb IK. pose proof (ro_unicode _ Hok) as HU.
    pose proof (layer_ok r Hok os os' Hos p1 wt bt sizes1 K R W R1 WW PK PR PW Hn1 M1 HM1) as O1.
    pose proof (layer_ok r Hok os os' Hos p2 wt bt sizes2 L R W R2 WW PL PR PW Hn2 M2 HM2) as O2.
    destruct (layer_NoDup r Hok os os' Hos p1 wt bt sizes1 K R W R1 WW PK PR PW Hn1 M1 HM1 e) as [Nk _].
    destruct (layer_NoDup r Hok os os' Hos p2 wt bt sizes2 L R W R2 WW PL PR PW Hn2 M2 HM2 e) as [Nl Nr].
    pose proof (co_rank _ _ _ _ _ _ _ _ _ Hcall) as Hk. destruct (co_ident _ _ _ _ _ _ _ _ _ Hcall) as (NL & I1 & _).
    assert (Dd : has_dots L = has_dots K) by (rewrite (mo_dots _ _ _ _ _ _ O2), (mo_dots _ _ _ _ _ _ O1); reflexivity).
    destruct (mo_numbers _ _ _ _ _ _ O1) as [NK NR].
    assert (Ek : right_groups e L K = left_groups e K) by (apply right_as_left; auto).
    assert (Er : right_groups e K R = right_groups e L R) by (apply right_of; congruence).
    assert (Hk' : rank_fits K (length (gshape len (left_groups e K))) e).
    { eapply next_rank; [exact R1| |].
      - pose proof (mo_flat _ _ _ _ _ _ O1) as F. apply no_grouped_iff; auto. eapply keys_NoDup_L; eauto.
      - rewrite <- Dd. intros E. apply (rank_zero _ _ _ Hk E). }
    pose proof (weight_is r Hok os os' Hos p1 wt bt sizes1 K R W M1 e len _ R1 WW PK PR PW Hn1 HM1 Hf1) as Ew1.
    pose proof (weight_is r Hok os os' Hos p2 wt bt sizes2 L R W M2 e len _ R2 WW PL PR PW Hn2 HM2 Hf2) as Ew2.
    assert (Eb : em_bias M2 = em_bias M1).
    { pose proof (layer_bias r Hok os os' Hos p1 wt bt sizes1 K R W R1 WW PK PR PW Hn1 M1 HM1) as LB1. pose proof (layer_bias r Hok os os' Hos p2 wt bt sizes2 L R W R2 WW PL PR PW Hn2 M2 HM2) as LB2.
      destruct bt as [text|]; [|congruence]. destruct LB1 as (B & s1 & WB & _).
      rewrite (bias_is r Hok os os' Hos p1 wt text sizes1 K R W B M1 e len _ R1 WW PK PR PW Hn1 HM1 Hf1 WB). apply (bias_is r Hok os os' Hos p2 wt text sizes2 L R W B M2 e len _ R2 WW PL PR PW Hn2 HM2 Hf2 WB). }
    split; [congruence|]. split; [exact Eb|].
    assert (Hrs : repeat_sizes_ok r p0 sizes0).
    { intros _ L0 R0 s0 _ Hin. destruct (co_fits _ _ _ _ _ _ _ _ _ Hcall) as (_ & _ & X). specialize (X _ _ Hin). lia. }
    destruct (proj2 (repeat_accepts r Hok x p0 sizes0 Hn0 Wx Hrs)) as (s & Es); [split; [exact Hres|]; eauto|].
    pose proof (proj1 (repeat_iff r Hok x p0 sizes0 L K e len s Hn0 Wx Hres Hcall) Es) as Ms. rewrite Ek in Ms.
    destruct (bias_args_of r Hok os os' Hos p1 wt bt sizes1 K R W M1 b R1 WW PK PR PW Hn1 HM1 Bb) as (c & -> & Ba).
    assert (Ba2 : bias_args r bt M2 c) by (unfold bias_args in *; rewrite Eb; exact Ba).
    pose proof (proj1 Ms) as Ws. pose proof (proj1 (proj2 Ms)) as Ss. rewrite <- Ss in Hk', Hf1.
    destruct (call_mixes add mul zero one (sp_comm _ _ _ Hsp) (sp_assoc _ _ _ Hsp) mul_one lib HC iadd HI r Hok os os' Hos Hos' p1 wt bt sizes1 K R W R1 WW PK PR PW Hn1 M1 HM1 e len s w Ws Ww Hk' Hf1 Hd1 (fun _ => He) Sw c Ba) as (y & Ey & My).
    assert (Sw2 : map Z.of_nat (shp w) = em_weight M2) by congruence.
    destruct (call_mixes add mul zero one (sp_comm _ _ _ Hsp) (sp_assoc _ _ _ Hsp) mul_one lib HC iadd HI r Hok os os' Hos Hos' p2 wt bt sizes2 L R W R2 WW PL PR PW Hn2 M2 HM2 e len x w Wx Ww Hk Hf2 Hd2 (fun _ => He) Sw2 c Ba2) as (y2 & Ey2 & My2).
    destruct (layer_axes r Hok os os' Hos p1 wt bt sizes1 K R W M1 e R1 WW PK PR PW Hn1 HM1) as [C1 C2].
    destruct (layer_axes r Hok os os' Hos p2 wt bt sizes2 L R W M2 e R2 WW PL PR PW Hn2 HM2) as [C3 C4].
    pose proof (proj1 (reads_split U HU p2 L R) R2) as (l & rr & Hsplit & WL & WK). pose proof (written_ndots _ _ _ WL) as DL.
    assert (Hdots : forall E i, In (LDots i) (alabs e (atoms E)) <-> has_dots E = true /\ i < e) by (apply (in_dots L L e [] DL DL (rank_zero L _ e Hk)); cbn; lia).
    assert (Sub : incl (concat (left_groups e L)) (concat (left_groups e K))).
    { rewrite C1, C3. intros [a|i|j m] Ha.
      - rewrite in_name in * by assumption. split; [apply I1|]; tauto.
      - rewrite Hdots in *. rewrite <- Dd. exact Ha.
      - exfalso. exact (no_num _ _ _ _ Ha). }
    assert (Same : incl (concat (left_groups e K)) (concat (left_groups e L) ++ concat (right_groups e L R))).
    { rewrite C1, C3, C4. intros [a|i|j m] Ha; apply in_or_app.
      - rewrite !in_name in * by assumption. destruct Ha as [Ha Hb]. apply IK, in_app_or in Ha. tauto.
      - left. rewrite Hdots in *. rewrite Dd. exact Ha.
      - exfalso. exact (no_num _ _ _ _ Ha). }
    exists s, y. split; [exact Es|]. split; [exact Ey|]. rewrite Er in My.
    assert (Hw : shp w = map len (weight_axes W)) by (apply (map_inj Z.of_nat Nat2Z.inj); congruence).
    rewrite <- (mixes_unique add mul zero _ _ _ _ _ _ _ _ _ _ Nr My2 (repeat_mixes add mul zero Hsp len _ _ _ W R x s w y c Nl Nk Sub Same
      (weight_incl r Hok os os' Hos p2 wt bt sizes2 L R W M2 e R2 WW PL PR PW Hn2 HM2) Wx (eq_sym (proj1 Hf2)) Ww Hw Ms My)). exact Ey2.
  Qed.
End Layers.
