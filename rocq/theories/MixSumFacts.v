(** * A sum before or after an EinMix layer *)
From Coq Require Import Permutation.
From Verif Require Import Py Tensor TensorFacts ListFacts SpecSem SpecGrammar SpecEinsum SpecPattern SpecForms SpecOps SpecElements SpecAdjoint SpecLinear Parsing Compile Recipe Ops Backends Api
  ParseFacts ParseFacts2 ParseFacts3 StepFacts FrontFacts FrontFacts2 FrontFacts3 MainFacts MainFacts2 ReduceFacts MainFacts3 CallFacts RelabelFacts ApiFacts ApiFacts2 ApiFacts3 ApiFacts4 RedFacts Laws
  EinsumFacts3 EinsumLaws EinsumLaws2 AdjointFacts Layers Einsum LayerFacts EinMix SpecEinMix MixFacts MixFacts2 MixFacts3 MixFacts4 MixFacts5 MixFacts6 MixFacts7 MixFacts8 MixFacts9 MixLaws MixLaws2 SpecMixGrad MixGradFacts SpecMixFuse
  MixFuseFacts MixFuseFacts2 MixFuseFacts3.
From Verif Require Import SpecShape PackLaws EquivalentFacts MixMoveFacts.

Section Moves.
  Context {A : Type} (add mul : A -> A -> A) (zero : A) (Hsp : sums_and_products add mul zero).
  Context (len : label -> nat) (gl gm gr : list (list label)) (red : list A -> result A) (Hred : forall vs, red vs = Ok (fold_right add zero vs)).
  Notation val := (val zero).

  Lemma respects_mul W (x w : tensor A) g : respects (fun jx => mul (val (get x (gindex len jx g))) (val (get w (map jx (weight_axes W))))).
  Proof. intros i j E. unfold gindex. rewrite (map_ext i j) by exact E. f_equal. f_equal. f_equal. apply map_ext. intros h. rewrite (map_ext i j) by exact E. reflexivity. Qed.

  (** [mixes] without a bias, as one sum *)
  Lemma mixes_as_sum W R (x w y : tensor A) : wf x -> shp x = gshape len gl -> wf w -> shp w = map len (weight_axes W) -> NoDup (concat gl) ->
    incl (weight_axes W) (concat gl ++ concat gr) -> wf y -> shp y = gshape len gr ->
    (forall ix, within len ix (concat gr) -> get y (gindex len ix gr) =
      Some (over add zero len (missing gl gr) ix (fun jx => mul (val (get x (gindex len jx gl))) (val (get w (map jx (weight_axes W))))))) ->
    mixes add mul zero gl gr W R len x w None y.
  Proof.
    intros Wx Sx Ww Sw Nl HW Wy Sy Hy. split; [exact Wy|]. split; [exact Sy|]. intros ix Hix. set (ms := missing gl gr).
    assert (N3 : NoDup ms) by (apply NoDup_filter; auto).
    assert (Hassign : forall v0, inb (map len ms) v0 = true -> within len (assign label_eqb ix ms v0) (concat gl ++ concat gr)).
    { intros v0 Hv0 a Ha. destruct (in_dec label_eq_dec a ms) as [X|X]; [exact (within_assign label_eqb label_eqb_eq len ix ms v0 N3 Hv0 a X)|]. rewrite (assign_out label_eqb label_eqb_eq) by exact X.
      apply Hix. destruct (in_dec label_eq_dec a (concat gr)) as [Y|Y]; [exact Y|]. exfalso. apply X, in_missing. apply in_app_or in Ha. tauto. }
    exists (map (fun v0 => val (get x (gindex len (assign label_eqb ix ms v0) gl))) (indices (map len ms))), (map (fun v0 => val (get w (map (assign label_eqb ix ms v0) (weight_axes W)))) (indices (map len ms))).
    split; [|split].
    { apply elements_there; auto. intros v0 Hv0 a Ha. apply (Hassign v0 Hv0). apply in_or_app. auto. }
    { unfold weight_elements. rewrite map_map. apply map_ext_in. intros v0 Hv0. apply indices_In in Hv0. fold (weight_axes W).
      destruct (get_wf w (map (assign label_eqb ix ms v0) (weight_axes W)) Ww) as [a Ha]; [|rewrite Ha; reflexivity]. rewrite Sw. apply (proj2 (inb_within len _ _)).
      intros a Ha. apply (Hassign v0 Hv0), HW, Ha. }
    cbn zeta. rewrite map2_both. apply Hy, Hix.
  Qed.

  Lemma reduces_as_sum gl' gr' (x y : tensor A) ix : reduces red gl' gr' len x y -> within len ix (concat gr') ->
    get y (gindex len ix gr') = Some (over add zero len (missing gl' gr') ix (fun jx => val (get x (gindex len jx gl')))).
  Proof.
    intros (_ & _ & H) Hix. destruct (H ix Hix) as (vs & v & E1 & E2 & ->). rewrite Hred in E2. injection E2 as <-. f_equal. unfold over. f_equal.
    unfold elements in E1. clear -E1. revert vs E1. induction (indices (map len (missing gl' gr'))) as [|i l IH]; intros [|v vs] E; cbn [map] in *; try discriminate; [reflexivity|].
    injection E as E1 E2. rewrite E1. cbn. f_equal. apply IH, E2.
  Qed.

  (** the sum afterwards *)
  Lemma after_sum W K R (x w y z : tensor A) : wf x -> shp x = gshape len gl -> wf w -> shp w = map len (weight_axes W) ->
    NoDup (concat gl) -> NoDup (concat gm) -> incl (weight_axes W) (concat gl ++ concat gr) -> incl (concat gr) (concat gm) -> incl (missing gm gr) (concat gl) ->
    mixes add mul zero gl gm W K len x w None y -> reduces red gm gr len y z -> mixes add mul zero gl gr W R len x w None z.
  Proof.
    intros Wx Sx Ww Sw Nl Nm HW Irm Idl Hy Hz. pose proof Hz as (Wz & Sz & _). apply mixes_as_sum; auto. intros ix Hix.
    rewrite (reduces_as_sum _ _ _ _ ix Hz Hix). f_equal. set (F := fun jx => mul (val (get x (gindex len jx gl))) (val (get w (map jx (weight_axes W))))).
    transitivity (over add zero len (missing gm gr) ix (fun jx => over add zero len (missing gl gm) jx F)).
    - apply over_ext; [apply NoDup_filter; exact Nm|]. intros jx E1 E2.
      assert (Hjx : within len jx (concat gm)).
      { intros a Ha. destruct (in_dec label_eq_dec a (missing gm gr)) as [X|X]; [apply E2, X|]. rewrite E1 by exact X. apply Hix. destruct (in_dec label_eq_dec a (concat gr)) as [Y|Y]; [exact Y|].
        exfalso. apply X, in_missing. auto. }
      pose proof (mixes_over add mul zero len gl gm W K x w y None jx Hy Hjx) as X. cbn zeta in X. rewrite X. reflexivity.
    - rewrite <- (over_app add mul zero Hsp) by (try apply respects_mul; intros a X Y; apply in_missing in X, Y; tauto).
      apply (over_perm add mul zero Hsp); [apply respects_mul| |].
      + apply NoDup_app_iff. split; [apply NoDup_filter; exact Nm|]. split; [apply NoDup_filter; exact Nl|]. intros a X Y. apply in_missing in X, Y. tauto.
      + apply NoDup_Permutation; [apply NoDup_app_iff; split; [apply NoDup_filter; exact Nm|]; split; [apply NoDup_filter; exact Nl|]; intros a X Y; apply in_missing in X, Y; tauto|apply NoDup_filter; exact Nl|].
        intros a. rewrite in_app_iff, !in_missing. split.
        * intros [X|[X Y]]; [split; [apply Idl, in_missing, X|tauto]|split; [exact X|]]. intros Z. apply Y, Irm, Z.
        * intros [X Y]. destruct (in_dec label_eq_dec a (concat gm)); tauto.
  Qed.

  (** the sum beforehand *)
  Context (dist_r : forall a b c, mul (add a b) c = add (mul a c) (mul b c)) (zero_l : forall a, mul zero a = zero).
  Lemma sum_mul {X} c (f : X -> A) l : mul (fold_right add zero (map f l)) c = fold_right add zero (map (fun i => mul (f i) c) l).
  Proof. induction l as [|b l IH]; cbn; [apply zero_l|]. rewrite dist_r, IH. reflexivity. Qed.
  Lemma before_sum W R (x s w y : tensor A) : wf x -> shp x = gshape len gl -> wf w -> shp w = map len (weight_axes W) ->
    NoDup (concat gl) -> NoDup (concat gm) -> incl (weight_axes W) (concat gm ++ concat gr) -> incl (concat gm) (concat gl) -> (forall a, In a (missing gl gm) -> ~ In a (concat gr)) ->
    reduces red gl gm len x s -> mixes add mul zero gm gr W R len s w None y -> mixes add mul zero gl gr W R len x w None y.
  Proof.
    intros Wx Sx Ww Sw Nl Nm HW Iml Hd Hs Hy. pose proof Hy as (Wy & Sy & _). apply mixes_as_sum; auto.
    { intros a Ha. apply HW in Ha. apply in_app_or in Ha. apply in_or_app. destruct Ha; auto. }
    intros ix Hix. pose proof (mixes_over add mul zero len gm gr W R s w y None ix Hy Hix) as X. cbn zeta in X. rewrite X. clear X. f_equal.
    set (F := fun jx => mul (val (get x (gindex len jx gl))) (val (get w (map jx (weight_axes W))))).
    assert (Dw : forall a, In a (weight_axes W) -> ~ In a (missing gl gm)).
    { intros a Ha X. apply HW, in_app_or in Ha as [Y|Y]; [apply in_missing in X; tauto|exact (Hd a X Y)]. }
    transitivity (over add zero len (missing gm gr) ix (fun jx => over add zero len (missing gl gm) jx F)).
    - apply over_ext; [apply NoDup_filter; exact Nm|]. intros jx E1 E2. fold (weight_axes W).
      assert (Hjx : within len jx (concat gm)).
      { intros a Ha. destruct (in_dec label_eq_dec a (missing gm gr)) as [X|X]; [apply E2, X|]. rewrite E1 by exact X. apply Hix. destruct (in_dec label_eq_dec a (concat gr)) as [Y|Y]; [exact Y|].
        exfalso. apply X, in_missing. auto. }
      rewrite (reduces_as_sum _ _ _ _ jx Hs Hjx). cbn [AdjointFacts.val]. unfold over.
      rewrite sum_mul. f_equal. apply map_ext. intros v. unfold F. f_equal. f_equal. f_equal. apply map_ext_in. intros a Ha. symmetry. apply (assign_out label_eqb label_eqb_eq). apply Dw, Ha.
    - rewrite <- (over_app add mul zero Hsp) by (try apply respects_mul; intros a X Y; apply in_missing in X, Y; tauto).
      apply (over_perm add mul zero Hsp); [apply respects_mul| |].
      + apply NoDup_app_iff. split; [apply NoDup_filter; exact Nm|]. split; [apply NoDup_filter; exact Nl|]. intros a X Y. apply in_missing in X, Y. tauto.
      + apply NoDup_Permutation; [apply NoDup_app_iff; split; [apply NoDup_filter; exact Nm|]; split; [apply NoDup_filter; exact Nl|]; intros a X Y; apply in_missing in X, Y; tauto|apply NoDup_filter; exact Nl|].
        intros a. rewrite in_app_iff, !in_missing. split.
        * intros [[X Y]|X]; [auto|]. split; [tauto|]. apply Hd, in_missing, X.
        * intros [X Y]. destruct (in_dec label_eq_dec a (concat gm)); tauto.
  Qed.
End Moves.

Section Layers.
  Context {A : Type} (add mul : A -> A -> A) (zero one : A).
  Context (Hsp : sums_and_products add mul zero) (mul_one : forall a, mul a one = a).
  Context (lib : pystr -> list (tensor A) -> result (tensor A)) (HC : einsum_contract add mul zero one lib).
  Context (iadd : tensor A -> tensor A -> result (tensor A)) (HI : iadd_contract add iadd).
  Context (r : runtime A) (Hok : runtime_ok r) (os os' : nat -> orders) (Hos : forall n, orders_ok (os n)) (Hos' : forall n, orders_ok (os' n)).
  Context (Hsum : forall vs, rt_red r (lit "sum") vs = Ok (fold_right add zero vs)).
  Notation U := (rt_unicode r).

  Lemma sum_accepts p0 sizes0 (x : tensor A) L R e len : NoDup (map fst sizes0) -> no_reserved sizes0 -> wf x -> call_ok U Reducing p0 sizes0 (shp x) L R e len ->
    NoDup (concat (left_groups e L)) ->
    exists y, reduce r (One x) p0 (RStr (lit "sum")) sizes0 = Ok y /\ reduces (rt_red r (lit "sum")) (left_groups e L) (right_groups e L R) len x y.
  Proof.
    intros Hn Hres Wx Hcall Nl. pose proof (proj1 (co_fits _ _ _ _ _ _ _ _ _ Hcall)) as Sx.
    assert (Hsplit : one_by_one (rt_framework r) (lit "sum") = true -> splits (rt_red r (lit "sum"))).
    { intros _. apply (sum_fits r add zero (sp_assoc _ _ _ Hsp) (sp_zero _ _ _ Hsp) Hsum). }
    assert (Hmean : lit "sum" = lit "mean" -> forall t, rt_isf r t = true) by discriminate.
    assert (Hred : has_reduction (rt_framework r) (lit "sum") = true) by (destruct (rt_framework r); reflexivity).
    assert (Hel : forall ix, within len ix (concat (right_groups e L R)) -> exists vs, elements x len (left_groups e L) (missing (left_groups e L) (right_groups e L R)) ix = map Some vs).
    { intros ix Hix. eexists. apply (elements_there zero); [exact Wx|congruence|]. intros v Hv a Ha. set (ms := missing _ _) in *.
      destruct (in_dec label_eq_dec a ms) as [X|X]; [refine (within_assign label_eqb label_eqb_eq len ix ms v _ Hv a X); apply NoDup_filter, Nl|]. rewrite (assign_out label_eqb label_eqb_eq) by exact X.
      apply Hix. destruct (in_dec label_eq_dec a (concat (right_groups e L R))) as [Y|Y]; [exact Y|]. exfalso. apply X, in_missing. auto. }
    destruct (proj2 (reduce_accepts r Hok x p0 (lit "sum") sizes0 Hn Wx eq_refl Hsplit Hmean)) as (y & Ey).
    { split; [exact Hres|]. exists L, R, e, len. split; [exact Hcall|]. cbn zeta. intros _. split; [exact Hred|]. intros ix Hix. destruct (Hel ix Hix) as (vs & E). exists vs. eexists. rewrite Hsum. auto. }
    exists y. split; [exact Ey|].
    destruct (proj1 (reduce_iff r Hok x p0 (lit "sum") sizes0 L R e len y Hn Wx Hres eq_refl Hsplit Hmean Hcall) Ey) as [[M0 (Wy & Sy & Hy)]|(_ & _ & H)]; [|exact H].
    split; [exact Wy|]. split; [exact Sy|]. intros ix Hix. destruct (Hel ix Hix) as (vs & E). exists vs, (fold_right add zero vs). split; [exact E|]. split; [apply Hsum|].
    rewrite Hy.
    - rewrite M0 in E. unfold elements in E. cbn [map indices] in E. destruct vs as [|v [|v' vs]]; try discriminate. cbn [map] in E. injection E as E. cbn [fold_right].
      rewrite (sp_comm _ _ _ Hsp), (sp_zero _ _ _ Hsp). exact E.
    - intros a Ha. apply in_app_or in Ha as [Ha|Ha]; [|apply Hix, Ha]. apply Hix. destruct (in_dec label_eq_dec a (concat (right_groups e L R))) as [Y|Y]; [exact Y|].
      assert (X : In a (missing (left_groups e L) (right_groups e L R))) by (apply in_missing; auto). rewrite M0 in X. destruct X.
  Qed.

  (** names decide which axes are dropped *)
  Lemma name_of p1 p2 wt bt1 bt2 sizes1 sizes2 L L' R R' W (M1 M2 : einmix (tensor A)) e n a : reads U p1 L R -> reads U p2 L' R' -> written U wt W -> plain L -> plain R -> plain L' -> plain R' -> plain W ->
    NoDup (map fst sizes1) -> NoDup (map fst sizes2) -> EinMix U os os' p1 wt bt1 sizes1 = Ok M1 -> EinMix U os os' p2 wt bt2 sizes2 = Ok M2 -> rank_fits L n e -> has_dots L = has_dots L' ->
    (In a (concat (left_groups e L)) <-> (exists s, a = LName s /\ In s (keys L) /\ s <> ell_name) \/ (exists i, a = LDots i /\ has_dots L = true /\ i < e)) /\
    (In a (concat (right_groups e L R)) <-> (exists s, a = LName s /\ In s (keys R) /\ s <> ell_name) \/ (exists i, a = LDots i /\ has_dots L = true /\ i < e)) /\
    (In a (concat (left_groups e L')) <-> (exists s, a = LName s /\ In s (keys L') /\ s <> ell_name) \/ (exists i, a = LDots i /\ has_dots L = true /\ i < e)) /\
    (In a (concat (right_groups e L' R')) <-> (exists s, a = LName s /\ In s (keys R') /\ s <> ell_name) \/ (exists i, a = LDots i /\ has_dots L = true /\ i < e)).
  Proof.
    intros R1 R2 WW PL PR PL' PR' PW Hn1 Hn2 HM1 HM2 Hk Dd. pose proof (ro_unicode _ Hok) as HU.
    destruct (layer_axes r Hok os os' Hos p1 wt bt1 sizes1 L R W M1 e R1 WW PL PR PW Hn1 HM1) as [C1 C2].
    destruct (layer_axes r Hok os os' Hos p2 wt bt2 sizes2 L' R' W M2 e R2 WW PL' PR' PW Hn2 HM2) as [C3 C4].
    pose proof (layer_ok r Hok os os' Hos p1 wt bt1 sizes1 L R W R1 WW PL PR PW Hn1 M1 HM1) as O1.
    pose proof (layer_ok r Hok os os' Hos p2 wt bt2 sizes2 L' R' W R2 WW PL' PR' PW Hn2 M2 HM2) as O2.
    pose proof (mo_dots _ _ _ _ _ _ O1) as D1. pose proof (mo_dots _ _ _ _ _ _ O2) as D2.
    pose proof (proj1 (reads_split U HU p1 L R) R1) as (l & rr & Hsplit & WL & WK). pose proof (written_ndots _ _ _ WL) as DL.
    assert (Hdots : forall E i, In (LDots i) (alabs e (atoms E)) <-> has_dots E = true /\ i < e) by (apply (in_dots L L e [] DL DL (rank_zero L _ e Hk)); cbn; lia).
    assert (G : forall E, plain E -> has_dots L = has_dots E -> (In a (alabs e (atoms E)) <-> (exists s, a = LName s /\ In s (keys E) /\ s <> ell_name) \/ (exists i, a = LDots i /\ has_dots L = true /\ i < e))).
    { intros E P D. destruct a as [s|i|j m].
      - rewrite in_name by exact P. split; [intros X; left; eauto|intros [(s' & X & Y)|(i & X & _)]; [injection X as <-; exact Y|discriminate]].
      - rewrite Hdots, <- D. split; [intros X; right; eauto|intros [(s' & X & _)|(k & X & Y)]; [discriminate|injection X as <-; exact Y]].
      - split; [intros X; exfalso; exact (no_num _ _ _ _ X)|intros [(s' & X & _)|(k & X & _)]; discriminate]. }
    rewrite C1, C2, C3, C4. split; [|split; [|split]]; apply G; auto; congruence.
  Qed.

  Lemma sum_after_mix p0 p1 p2 wt sizes0 sizes1 sizes2 L K R W (M1 M2 : einmix (tensor A)) e len (x w : tensor A) :
    NoDup (map fst sizes0) -> no_reserved sizes0 -> call_ok U Reducing p0 sizes0 (gshape len (left_groups e K)) K R e len ->
    reads U p1 L K -> reads U p2 L R -> written U wt W -> plain L -> plain K -> plain R -> plain W -> NoDup (map fst sizes1) -> NoDup (map fst sizes2) ->
    EinMix U os os' p1 wt None sizes1 = Ok M1 -> EinMix U os os' p2 wt None sizes2 = Ok M2 -> wf x -> rank_fits L (length (shp x)) e ->
    fits len (left_groups e L) (right_groups e L K) (shp x) sizes1 -> fits len (left_groups e L) (right_groups e L R) (shp x) sizes2 ->
    no_division sizes1 len (left_groups e L) -> no_division sizes2 len (left_groups e L) -> e < 8 ->
    wf w -> map Z.of_nat (shp w) = em_weight M1 ->
    em_weight M2 = em_weight M1 /\
    exists y z, call_einmix r lib iadd M1 w None x = Ok y /\ reduce r (One y) p0 (RStr (lit "sum")) sizes0 = Ok z /\ call_einmix r lib iadd M2 w None x = Ok z.
  Proof.
    intros Hn0 Hres Hcall R1 R2 WW PL PK PR PW Hn1 Hn2 HM1 HM2 Wx Hk Hf1 Hf2 Hd1 Hd2 He Ww Sw. pose proof (ro_unicode _ Hok) as HU.
    pose proof (layer_ok r Hok os os' Hos p1 wt None sizes1 L K W R1 WW PL PK PW Hn1 M1 HM1) as O1.
    pose proof (layer_ok r Hok os os' Hos p2 wt None sizes2 L R W R2 WW PL PR PW Hn2 M2 HM2) as O2.
    destruct (layer_NoDup r Hok os os' Hos p1 wt None sizes1 L K W R1 WW PL PK PW Hn1 M1 HM1 e) as [_ Nk].
    destruct (layer_NoDup r Hok os os' Hos p2 wt None sizes2 L R W R2 WW PL PR PW Hn2 M2 HM2 e) as [Nl Nr].
    destruct (co_ident _ _ _ _ _ _ _ _ _ Hcall) as (NR & I1). destruct (mo_numbers _ _ _ _ _ _ O1) as [NL NK].
    assert (Dd : has_dots K = has_dots R) by (rewrite <- (mo_dots _ _ _ _ _ _ O2), <- (mo_dots _ _ _ _ _ _ O1); reflexivity).
    pose proof (mo_dots _ _ _ _ _ _ O1) as DL.
    assert (Ek : right_groups e L K = left_groups e K) by (apply right_as_left; auto).
    assert (Er : right_groups e K R = right_groups e L R) by (apply right_of; congruence).
    pose proof (weight_is r Hok os os' Hos p1 wt None sizes1 L K W M1 e len _ R1 WW PL PK PW Hn1 HM1 Hf1) as Ew1.
    pose proof (weight_is r Hok os os' Hos p2 wt None sizes2 L R W M2 e len _ R2 WW PL PR PW Hn2 HM2 Hf2) as Ew2.
    pose proof (fun a => name_of p1 p2 wt None None sizes1 sizes2 L L K R W M1 M2 e _ a R1 R2 WW PL PK PL PR PW Hn1 Hn2 HM1 HM2 Hk eq_refl) as Names. rewrite Ek in Names, Nk.
    split; [congruence|].
    destruct (call_mixes add mul zero one (sp_comm _ _ _ Hsp) (sp_assoc _ _ _ Hsp) mul_one lib HC iadd HI r Hok os os' Hos Hos' p1 wt None sizes1 L K W R1 WW PL PK PW Hn1 M1 HM1 e len x w Wx Ww Hk Hf1 Hd1 (fun _ => He) Sw None eq_refl) as (y & Ey & My).
    rewrite Ek in My. pose proof (proj1 My) as Wy. pose proof (proj1 (proj2 My)) as Sy. rewrite <- Sy in Hcall.
    destruct (sum_accepts p0 sizes0 y K R e len Hn0 Hres Wy Hcall Nk) as (z & Ez & Mz). rewrite Er in Mz.
    assert (Hw2 : map Z.of_nat (shp w) = em_weight M2) by congruence.
    destruct (call_mixes add mul zero one (sp_comm _ _ _ Hsp) (sp_assoc _ _ _ Hsp) mul_one lib HC iadd HI r Hok os os' Hos Hos' p2 wt None sizes2 L R W R2 WW PL PR PW Hn2 M2 HM2 e len x w Wx Ww Hk Hf2 Hd2 (fun _ => He) Hw2 None eq_refl) as (z2 & Ez2 & Mz2).
    exists y, z. split; [exact Ey|]. split; [exact Ez|].
    assert (Hw : shp w = map len (weight_axes W)) by (apply (map_inj Z.of_nat Nat2Z.inj); congruence).
    cbn [option_map] in Ez2.
    assert (S1 : incl (concat (right_groups e L R)) (concat (left_groups e K))).
    { intros a. destruct (Names a) as (_ & N2 & _ & N4). rewrite N2, N4. intros [(s & -> & X & Y)|X]; [left; eauto|right; exact X]. }
    assert (S2 : incl (missing (left_groups e K) (right_groups e L R)) (concat (left_groups e L))).
    { intros a X. apply in_missing in X as [X Y]. destruct (Names a) as (N1 & N2 & _ & N4). rewrite N1. rewrite N2 in X. rewrite N4 in Y. destruct X as [(s & -> & X & E)|X]; [|tauto].
      left. exists s. split; [reflexivity|]. split; [|exact E]. apply (mo_names _ _ _ _ _ _ O1) in X. apply in_app_or in X as [X|X]; [exact X|].
      apply (mo_needed _ _ _ _ _ _ O2) in X. apply in_app_or in X as [X|X]; [exact X|]. exfalso. apply Y. left. eauto. }
    rewrite <- (mixes_unique add mul zero _ _ _ _ _ _ _ _ _ _ Nr Mz2 (after_sum add mul zero Hsp len _ _ _ _ Hsum W K R x w y z Wx (eq_sym (proj1 Hf2)) Ww Hw Nl Nk
      (weight_incl r Hok os os' Hos p2 wt None sizes2 L R W M2 e R2 WW PL PR PW Hn2 HM2) S1 S2 My Mz)). exact Ez2.
  Qed.

  Context (dist_r : forall a b c, mul (add a b) c = add (mul a c) (mul b c)) (zero_l : forall a, mul zero a = zero).
  Lemma sum_before_mix p0 p1 p2 wt sizes0 sizes1 sizes2 L K R W (M1 M2 : einmix (tensor A)) e len (x w : tensor A) :
    NoDup (map fst sizes0) -> no_reserved sizes0 -> call_ok U Reducing p0 sizes0 (shp x) L K e len ->
    (forall s, In s (keys L) -> In s (keys R) -> In s (keys K)) ->
    reads U p1 K R -> reads U p2 L R -> written U wt W -> plain L -> plain K -> plain R -> plain W -> NoDup (map fst sizes1) -> NoDup (map fst sizes2) ->
    EinMix U os os' p1 wt None sizes1 = Ok M1 -> EinMix U os os' p2 wt None sizes2 = Ok M2 -> wf x ->
    fits len (left_groups e K) (right_groups e K R) (gshape len (left_groups e K)) sizes1 -> fits len (left_groups e L) (right_groups e L R) (shp x) sizes2 ->
    no_division sizes1 len (left_groups e K) -> no_division sizes2 len (left_groups e L) -> e < 8 ->
    wf w -> map Z.of_nat (shp w) = em_weight M1 ->
    em_weight M2 = em_weight M1 /\
    exists s y, reduce r (One x) p0 (RStr (lit "sum")) sizes0 = Ok s /\ call_einmix r lib iadd M1 w None s = Ok y /\ call_einmix r lib iadd M2 w None x = Ok y.
  Proof.
    intros Hn0 Hres Hcall Hkeep R1 R2 WW PL PK PR PW Hn1 Hn2 HM1 HM2 Wx Hf1 Hf2 Hd1 Hd2 He Ww Sw. pose proof (ro_unicode _ Hok) as HU.
    pose proof (layer_ok r Hok os os' Hos p1 wt None sizes1 K R W R1 WW PK PR PW Hn1 M1 HM1) as O1.
    pose proof (layer_ok r Hok os os' Hos p2 wt None sizes2 L R W R2 WW PL PR PW Hn2 M2 HM2) as O2.
    destruct (layer_NoDup r Hok os os' Hos p1 wt None sizes1 K R W R1 WW PK PR PW Hn1 M1 HM1 e) as [Nk _].
    destruct (layer_NoDup r Hok os os' Hos p2 wt None sizes2 L R W R2 WW PL PR PW Hn2 M2 HM2 e) as [Nl Nr].
    pose proof (co_rank _ _ _ _ _ _ _ _ _ Hcall) as Hk. destruct (co_ident _ _ _ _ _ _ _ _ _ Hcall) as (NK & I1).
    assert (Dd : has_dots L = has_dots K) by (rewrite (mo_dots _ _ _ _ _ _ O2), (mo_dots _ _ _ _ _ _ O1); reflexivity).
    destruct (mo_numbers _ _ _ _ _ _ O1) as [_ NR]. destruct (mo_numbers _ _ _ _ _ _ O2) as [NL _].
    assert (Ek : right_groups e L K = left_groups e K) by (apply right_as_left; auto).
    assert (Er : right_groups e K R = right_groups e L R) by (apply right_of; congruence).
    assert (Hk' : rank_fits K (length (gshape len (left_groups e K))) e).
    { eapply next_rank; [exact R1| |].
      - pose proof (mo_flat _ _ _ _ _ _ O1) as F. apply no_grouped_iff; auto. eapply keys_NoDup_L; eauto.
      - rewrite <- Dd. intros E. apply (rank_zero _ _ _ Hk E). }
    pose proof (weight_is r Hok os os' Hos p1 wt None sizes1 K R W M1 e len _ R1 WW PK PR PW Hn1 HM1 Hf1) as Ew1.
    pose proof (weight_is r Hok os os' Hos p2 wt None sizes2 L R W M2 e len _ R2 WW PL PR PW Hn2 HM2 Hf2) as Ew2.
    pose proof (fun a => name_of p2 p1 wt None None sizes2 sizes1 L K R R W M2 M1 e _ a R2 R1 WW PL PR PK PR PW Hn2 Hn1 HM2 HM1 Hk Dd) as Names.
    split; [congruence|].
    destruct (sum_accepts p0 sizes0 x L K e len Hn0 Hres Wx Hcall Nl) as (s & Es & Ms). rewrite Ek in Ms.
    pose proof (proj1 Ms) as Ws. pose proof (proj1 (proj2 Ms)) as Ss. rewrite <- Ss in Hk', Hf1.
    destruct (call_mixes add mul zero one (sp_comm _ _ _ Hsp) (sp_assoc _ _ _ Hsp) mul_one lib HC iadd HI r Hok os os' Hos Hos' p1 wt None sizes1 K R W R1 WW PK PR PW Hn1 M1 HM1 e len s w Ws Ww Hk' Hf1 Hd1 (fun _ => He) Sw None eq_refl) as (y & Ey & My).
    assert (Sw2 : map Z.of_nat (shp w) = em_weight M2) by congruence.
    destruct (call_mixes add mul zero one (sp_comm _ _ _ Hsp) (sp_assoc _ _ _ Hsp) mul_one lib HC iadd HI r Hok os os' Hos Hos' p2 wt None sizes2 L R W R2 WW PL PR PW Hn2 M2 HM2 e len x w Wx Ww Hk Hf2 Hd2 (fun _ => He) Sw2 None eq_refl) as (y2 & Ey2 & My2).
    exists s, y. split; [exact Es|]. split; [exact Ey|].
    pose proof (weight_incl r Hok os os' Hos p1 wt None sizes1 K R W M1 e R1 WW PK PR PW Hn1 HM1) as HW. rewrite Er in My, HW.
    assert (Hw : shp w = map len (weight_axes W)) by (apply (map_inj Z.of_nat Nat2Z.inj); congruence).
    assert (S1 : incl (concat (left_groups e K)) (concat (left_groups e L))).
    { intros a. destruct (Names a) as (N1 & _ & N3 & _). rewrite N1, N3. intros [(n & -> & X & Y)|X]; [left; eauto|right; exact X]. }
    assert (S2 : forall a, In a (missing (left_groups e L) (left_groups e K)) -> ~ In a (concat (right_groups e L R))).
    { intros a X Y. apply in_missing in X as [X Z]. destruct (Names a) as (N1 & N2 & N3 & _). rewrite N1 in X. rewrite N2 in Y. rewrite N3 in Z. apply Z.
      destruct X as [(n & -> & X & E)|X]; [|right; exact X]. left. exists n. split; [reflexivity|]. split; [|exact E]. destruct Y as [(n' & E' & Y & _)|(i & E' & _)]; [|discriminate]. injection E' as <-. apply Hkeep; assumption. }
    rewrite <- (mixes_unique add mul zero _ _ _ _ _ _ _ _ _ _ Nr My2 (before_sum add mul zero Hsp len _ _ _ _ Hsum dist_r zero_l W R x s w y Wx (eq_sym (proj1 Hf2)) Ww Hw Nl Nk HW S1 S2 Ms My)). exact Ey2.
  Qed.
End Layers.
