(** * A rearrange before or after an EinMix layer *)
From Coq Require Import Permutation.
From Verif Require Import Py Tensor TensorFacts ListFacts SpecSem SpecGrammar SpecEinsum SpecPattern SpecForms SpecOps SpecElements SpecAdjoint SpecLinear Parsing Compile Recipe Ops Backends Api
  ParseFacts ParseFacts2 ParseFacts3 StepFacts FrontFacts FrontFacts2 FrontFacts3 MainFacts MainFacts2 ReduceFacts MainFacts3 CallFacts RelabelFacts ApiFacts ApiFacts2 ApiFacts3 RedFacts Laws
  EinsumFacts3 EinsumLaws2 AdjointFacts Layers Einsum LayerFacts EinMix SpecEinMix MixFacts MixFacts2 MixFacts3 MixFacts4 MixFacts5 MixFacts6 MixFacts7 MixFacts8 MixFacts9 MixLaws MixLaws2 SpecMixGrad MixGradFacts SpecMixFuse
  MixFuseFacts MixFuseFacts2 MixFuseFacts3.
From Verif Require Import SpecShape PackLaws EquivalentFacts.

Section Moves.
  Context {A : Type} (add mul : A -> A -> A) (zero : A) (Hsp : sums_and_products add mul zero).
  Context (len : label -> nat) (gl gm gr : list (list label)).
  Notation val := (val zero).

  Lemma missing_in_gr : (forall a, In a (concat gm) <-> In a (concat gr)) -> missing gl gr = missing gl gm.
  Proof.
    intros H. unfold missing. apply filter_ext. intros a. f_equal. apply eq_true_iff_eq. rewrite !existsb_exists.
    split; intros (b & Hb & E); exists b; (split; [apply H, Hb|exact E]).
  Qed.

  Lemma before_mixes W R (x s w y : tensor A) b : NoDup (concat gl) -> NoDup (concat gm) -> (forall a, In a (concat gl) <-> In a (concat gm)) ->
    incl (weight_axes W) (concat gl ++ concat gr) -> wf x -> shp x = gshape len gl -> wf w -> shp w = map len (weight_axes W) ->
    moves gl gm len x s -> mixes add mul zero gm gr W R len s w b y -> mixes add mul zero gl gr W R len x w b y.
  Proof.
    intros Nl Nm Same HW Wx Sx Ww Sw (Ws & Ss & Hs) Hy. split; [apply Hy|]. split; [apply Hy|]. intros ix Hix.
    set (ms := missing gl gr).
    assert (N3 : NoDup ms) by (apply NoDup_filter; auto).
    assert (Hall : forall jx, (forall a, ~ In a ms -> jx a = ix a) -> (forall a, In a ms -> jx a < len a) -> within len jx (concat gl ++ concat gr)).
    { intros jx E1 E2 a Ha. destruct (in_dec label_eq_dec a ms) as [X|X]; [apply E2, X|]. rewrite E1 by exact X. apply Hix. destruct (in_dec label_eq_dec a (concat gr)) as [Y|Y]; [exact Y|].
      exfalso. apply X, in_missing. apply in_app_or in Ha. tauto. }
    assert (Hassign : forall v0, inb (map len ms) v0 = true -> within len (assign label_eqb ix ms v0) (concat gl ++ concat gr)).
    { intros v0 Hv0. apply Hall; [intros a Ha; apply (assign_out label_eqb label_eqb_eq), Ha|]. intros a Ha. exact (within_assign label_eqb label_eqb_eq len ix ms v0 N3 Hv0 a Ha). }
    exists (map (fun v0 => val (get x (gindex len (assign label_eqb ix ms v0) gl))) (indices (map len ms))), (map (fun v0 => val (get w (map (assign label_eqb ix ms v0) (weight_axes W)))) (indices (map len ms))).
    split; [|split].
    { apply elements_there; auto. intros v0 Hv0 a Ha. apply (Hassign v0 Hv0). apply in_or_app. auto. }
    { unfold weight_elements. rewrite map_map. apply map_ext_in. intros v0 Hv0. apply indices_In in Hv0. fold (weight_axes W).
      destruct (get_wf w (map (assign label_eqb ix ms v0) (weight_axes W)) Ww) as [a Ha]; [|rewrite Ha; reflexivity]. rewrite Sw. apply (proj2 (inb_within len _ _)).
      intros a Ha. apply (Hassign v0 Hv0), HW, Ha. }
    cbn zeta. rewrite map2_both.
    pose proof (mixes_over add mul zero len gm gr W R s w y b ix Hy Hix) as Ht. cbn zeta in Ht. fold (weight_axes W) in Ht.
    assert (Et : fold_right add zero (map (fun v0 => mul (val (get x (gindex len (assign label_eqb ix ms v0) gl))) (val (get w (map (assign label_eqb ix ms v0) (weight_axes W))))) (indices (map len ms))) =
      over add zero len (missing gm gr) ix (fun jx => mul (val (get s (gindex len jx gm))) (val (get w (map jx (weight_axes W)))))).
    { change (over add zero len ms ix (fun jx => mul (val (get x (gindex len jx gl))) (val (get w (map jx (weight_axes W))))) =
        over add zero len (missing gm gr) ix (fun jx => mul (val (get s (gindex len jx gm))) (val (get w (map jx (weight_axes W)))))).
      rewrite (over_perm add mul zero Hsp len (missing gm gr) ms).
      - apply over_ext; [exact N3|]. intros jx E1 E2. rewrite <- Hs; [reflexivity|]. pose proof (Hall jx E1 E2) as X. intros a Ha. apply X, in_or_app. left. apply in_app_or in Ha as [Ha|Ha]; [exact Ha|apply Same, Ha].
      - intros i j E. unfold gindex. rewrite (map_ext i j) by exact E. f_equal. f_equal. f_equal. apply map_ext. intros g. rewrite (map_ext i j) by exact E. reflexivity.
      - apply NoDup_filter; exact Nm.
      - apply NoDup_Permutation; [apply NoDup_filter; exact Nm|exact N3|]. intros a. unfold ms. rewrite !in_missing, Same. tauto. }
    rewrite Et. exact Ht.
  Qed.

  (** [c] is the bias of the layer after the rearrange *)
  Definition moved_bias (K R : expr) (b c : option (expr * tensor A)) : Prop :=
    match b, c with
    | None, None => True
    | Some (B, b0), Some (B', c0) => forall ix, within len ix (concat gr) -> get c0 (bias_index B' R ix) = get b0 (bias_index B K ix)
    | _, _ => False
    end.
  Lemma after_mixes W K R (x w y z : tensor A) b c : (forall a, In a (concat gm) <-> In a (concat gr)) -> moved_bias K R b c ->
    mixes add mul zero gl gm W K len x w b y -> moves gm gr len y z -> mixes add mul zero gl gr W R len x w c z.
  Proof.
    intros Same Hb (Wy & Sy & Hy) (Wz & Sz & Hz). split; [exact Wz|]. split; [exact Sz|]. intros ix Hix. rewrite (missing_in_gr Same).
    assert (Hix' : within len ix (concat gm)) by (intros a Ha; apply Hix, Same, Ha).
    destruct (Hy ix Hix') as (xs & ws & E1 & E2 & E). exists xs, ws. split; [exact E1|]. split; [exact E2|]. cbn zeta in *.
    rewrite Hz by (intros a Ha; apply Hix; apply in_app_or in Ha as [Ha|Ha]; [apply Same, Ha|exact Ha]).
    destruct b as [[B b0]|], c as [[B' c0]|]; try contradiction; [|exact E]. destruct E as (v & Ev & E). exists v. rewrite (Hb ix Hix). auto.
  Qed.
End Moves.

Section Layers.
  Context {A : Type} (add mul : A -> A -> A) (zero one : A).
  Context (Hsp : sums_and_products add mul zero) (mul_one : forall a, mul a one = a).
  Context (lib : pystr -> list (tensor A) -> result (tensor A)) (HC : einsum_contract add mul zero one lib).
  Context (iadd : tensor A -> tensor A -> result (tensor A)) (HI : iadd_contract add iadd).
  Context (r : runtime A) (Hok : runtime_ok r) (os os' : nat -> orders) (Hos : forall n, orders_ok (os n)) (Hos' : forall n, orders_ok (os' n)).
  Notation U := (rt_unicode r).

  (** the same layer twice, but for the groups: the axes of two sides *)
  Lemma same_axes p1 p2 wt bt1 bt2 sizes1 sizes2 L L' R R' W (M1 M2 : einmix (tensor A)) e n : reads U p1 L R -> reads U p2 L' R' -> written U wt W -> plain L -> plain R -> plain L' -> plain R' -> plain W ->
    NoDup (map fst sizes1) -> NoDup (map fst sizes2) -> EinMix U os os' p1 wt bt1 sizes1 = Ok M1 -> EinMix U os os' p2 wt bt2 sizes2 = Ok M2 -> rank_fits L n e ->
    (incl (keys L) (keys L') -> incl (keys L') (keys L) -> has_dots L = has_dots L' -> forall a, In a (concat (left_groups e L)) <-> In a (concat (left_groups e L'))) /\
    (incl (keys R) (keys R') -> incl (keys R') (keys R) -> has_dots R = has_dots R' -> forall a, In a (concat (right_groups e L R)) <-> In a (concat (right_groups e L' R'))).
  Proof.
    intros R1 R2 WW PL PR PL' PR' PW Hn1 Hn2 HM1 HM2 Hk. pose proof (ro_unicode _ Hok) as HU.
    destruct (layer_axes r Hok os os' Hos p1 wt bt1 sizes1 L R W M1 e R1 WW PL PR PW Hn1 HM1) as [C1 C2].
    destruct (layer_axes r Hok os os' Hos p2 wt bt2 sizes2 L' R' W M2 e R2 WW PL' PR' PW Hn2 HM2) as [C3 C4].
    pose proof (proj1 (reads_split U HU p1 L R) R1) as (l & rr & Hsplit & WL & WK). pose proof (written_ndots _ _ _ WL) as DL.
    assert (Hdots : forall E i, In (LDots i) (alabs e (atoms E)) <-> has_dots E = true /\ i < e) by (apply (in_dots L L e [] DL DL (rank_zero L _ e Hk)); cbn; lia).
    assert (G : forall E E', plain E -> plain E' -> incl (keys E) (keys E') -> incl (keys E') (keys E) -> has_dots E = has_dots E' -> forall a, In a (alabs e (atoms E)) <-> In a (alabs e (atoms E'))).
    { intros E E' P P' I1 I2 D [s|i|j m].
      - rewrite !in_name by assumption. split; intros [X Y]; auto.
      - rewrite !Hdots, D. tauto.
      - split; intros X; exfalso; exact (no_num _ _ _ _ X). }
    rewrite C1, C2, C3, C4. split; apply G; assumption.
  Qed.

  Lemma weight_incl p wt bt sizes L R W (M : einmix (tensor A)) e : reads U p L R -> written U wt W -> plain L -> plain R -> plain W -> NoDup (map fst sizes) -> EinMix U os os' p wt bt sizes = Ok M ->
    incl (weight_axes W) (concat (left_groups e L) ++ concat (right_groups e L R)).
  Proof.
    intros Hr WW PL PR PW Hn HM. destruct (layer_axes r Hok os os' Hos p wt bt sizes L R W M e Hr WW PL PR PW Hn HM) as [-> ->].
    pose proof (layer_ok r Hok os os' Hos p wt bt sizes L R W Hr WW PL PR PW Hn M HM) as O.
    intros a Ha. apply in_map_iff in Ha as (s & <- & Hs). pose proof (no_ell_W W PW (mo_weight _ _ _ _ _ _ O) s Hs) as Ne.
    pose proof (mo_needed _ _ _ _ _ _ O s Hs) as X. apply in_or_app. apply in_app_or in X as [X|X]; [left|right]; apply in_name; auto.
  Qed.

  Definition bias_args (bt : option pystr) (M : einmix (tensor A)) (b : option (expr * tensor A)) : Prop :=
    match bt with
    | None => b = None
    | Some text => exists B b0, b = Some (B, b0) /\ written U text B /\ wf b0 /\ Some (map Z.of_nat (shp b0)) = em_bias M
    end.
  Lemma bias_args_of p wt bt sizes L R W (M : einmix (tensor A)) b : reads U p L R -> written U wt W -> plain L -> plain R -> plain W -> NoDup (map fst sizes) -> EinMix U os os' p wt bt sizes = Ok M ->
    bias_of (em_bias M) b -> exists c, b = option_map snd c /\ bias_args bt M c.
  Proof.
    intros Hr WW PL PR PW Hn HM Hb. pose proof (layer_bias r Hok os os' Hos p wt bt sizes L R W Hr WW PL PR PW Hn M HM) as LB. unfold bias_args. destruct bt as [text|].
    - destruct LB as (B & s & WB & Eb). rewrite Eb in Hb. destruct Hb as (b0 & -> & Wb & Sb). exists (Some (B, b0)). split; [reflexivity|]. exists B, b0. rewrite Eb, Sb. auto.
    - rewrite LB in Hb. exists None. split; [exact Hb|reflexivity].
  Qed.

  Lemma rearrange_before p0 p1 p2 wt bt sizes0 sizes1 sizes2 L K R W (M1 M2 : einmix (tensor A)) e len (x w : tensor A) b :
    NoDup (map fst sizes0) -> no_reserved sizes0 -> call_ok U Rearranging p0 sizes0 (shp x) L K e len ->
    reads U p1 K R -> reads U p2 L R -> written U wt W -> plain L -> plain K -> plain R -> plain W -> NoDup (map fst sizes1) -> NoDup (map fst sizes2) ->
    EinMix U os os' p1 wt bt sizes1 = Ok M1 -> EinMix U os os' p2 wt bt sizes2 = Ok M2 -> wf x ->
    fits len (left_groups e K) (right_groups e K R) (gshape len (left_groups e K)) sizes1 -> fits len (left_groups e L) (right_groups e L R) (shp x) sizes2 ->
    no_division sizes1 len (left_groups e K) -> no_division sizes2 len (left_groups e L) -> e < 8 ->
    wf w -> map Z.of_nat (shp w) = em_weight M1 -> bias_of (em_bias M1) b ->
    em_weight M2 = em_weight M1 /\ em_bias M2 = em_bias M1 /\
    exists s y, rearrange r (One x) p0 sizes0 = Ok s /\ call_einmix r lib iadd M1 w b s = Ok y /\ call_einmix r lib iadd M2 w b x = Ok y.
  Proof.
    intros Hn0 Hres Hcall R1 R2 WW PL PK PR PW Hn1 Hn2 HM1 HM2 Wx Hf1 Hf2 Hd1 Hd2 He Ww Sw Bb. pose proof (ro_unicode _ Hok) as HU.
    pose proof (layer_ok r Hok os os' Hos p1 wt bt sizes1 K R W R1 WW PK PR PW Hn1 M1 HM1) as O1.
    pose proof (layer_ok r Hok os os' Hos p2 wt bt sizes2 L R W R2 WW PL PR PW Hn2 M2 HM2) as O2.
    destruct (layer_NoDup r Hok os os' Hos p1 wt bt sizes1 K R W R1 WW PK PR PW Hn1 M1 HM1 e) as [Nk _].
    destruct (layer_NoDup r Hok os os' Hos p2 wt bt sizes2 L R W R2 WW PL PR PW Hn2 M2 HM2 e) as [Nl Nr].
    pose proof (co_rank _ _ _ _ _ _ _ _ _ Hcall) as Hk. destruct (co_ident _ _ _ _ _ _ _ _ _ Hcall) as (NL & NK & I1 & I2).
    assert (Dd : has_dots L = has_dots K) by (rewrite (mo_dots _ _ _ _ _ _ O2), (mo_dots _ _ _ _ _ _ O1); reflexivity).
    destruct (mo_numbers _ _ _ _ _ _ O1) as [_ NR].
    assert (Ek : right_groups e L K = left_groups e K) by (apply right_as_left; auto).
    assert (Er : right_groups e K R = right_groups e L R) by (apply right_of; congruence).
    assert (Hk' : rank_fits K (length (gshape len (left_groups e K))) e).
    { eapply next_rank; [exact R1| |].
      - pose proof (mo_flat _ _ _ _ _ _ O1) as F. apply no_grouped_iff; auto. eapply keys_NoDup_L; eauto.
      - rewrite <- Dd. intros E. apply (rank_zero _ _ _ Hk E). }
    pose proof (weight_is r Hok os os' Hos p1 wt bt sizes1 K R W M1 e len _ R1 WW PK PR PW Hn1 HM1 Hf1) as Ew1.
    pose proof (weight_is r Hok os os' Hos p2 wt bt sizes2 L R W M2 e len _ R2 WW PL PR PW Hn2 HM2 Hf2) as Ew2.
    assert (Eb : em_bias M2 = em_bias M1).
    { pose proof (layer_bias r Hok os os' Hos p1 wt bt sizes1 K R W R1 WW PK PR PW Hn1 M1 HM1) as LB1. pose proof (layer_bias r Hok os os' Hos p2 wt bt sizes2 L R W R2 WW PL PR PW Hn2 M2 HM2) as LB2.
      destruct bt as [text|]; [|congruence]. destruct LB1 as (B & s1 & WB & _).
      rewrite (bias_is r Hok os os' Hos p1 wt text sizes1 K R W B M1 e len _ R1 WW PK PR PW Hn1 HM1 Hf1 WB). apply (bias_is r Hok os os' Hos p2 wt text sizes2 L R W B M2 e len _ R2 WW PL PR PW Hn2 HM2 Hf2 WB). }
    split; [congruence|]. split; [exact Eb|].
    destruct (proj2 (rearrange_accepts r Hok x p0 sizes0 Hn0 Wx)) as (s & Es); [split; [exact Hres|]; eauto|].
    pose proof (proj1 (rearrange_iff r Hok x p0 sizes0 L K e len s Hn0 Wx Hres Hcall) Es) as Ms. rewrite Ek in Ms.
    destruct (bias_args_of p1 wt bt sizes1 K R W M1 b R1 WW PK PR PW Hn1 HM1 Bb) as (c & -> & Ba).
    assert (Ba2 : bias_args bt M2 c) by (unfold bias_args in *; rewrite Eb; exact Ba).
    pose proof (proj1 Ms) as Ws. pose proof (proj1 (proj2 Ms)) as Ss. rewrite <- Ss in Hk', Hf1.
    destruct (call_mixes add mul zero one (sp_comm _ _ _ Hsp) (sp_assoc _ _ _ Hsp) mul_one lib HC iadd HI r Hok os os' Hos Hos' p1 wt bt sizes1 K R W R1 WW PK PR PW Hn1 M1 HM1 e len s w Ws Ww Hk' Hf1 Hd1 (fun _ => He) Sw c Ba) as (y & Ey & My).
    assert (Sw2 : map Z.of_nat (shp w) = em_weight M2) by congruence.
    destruct (call_mixes add mul zero one (sp_comm _ _ _ Hsp) (sp_assoc _ _ _ Hsp) mul_one lib HC iadd HI r Hok os os' Hos Hos' p2 wt bt sizes2 L R W R2 WW PL PR PW Hn2 M2 HM2 e len x w Wx Ww Hk Hf2 Hd2 (fun _ => He) Sw2 c Ba2) as (y2 & Ey2 & My2).
    exists s, y. split; [exact Es|]. split; [exact Ey|]. rewrite Er in My.
    assert (Hw : shp w = map len (weight_axes W)) by (apply (map_inj Z.of_nat Nat2Z.inj); congruence).
    rewrite <- (mixes_unique add mul zero _ _ _ _ _ _ _ _ _ _ Nr My2 (before_mixes add mul zero Hsp len _ _ _ W R x s w y c Nl Nk
      (proj1 (same_axes p2 p1 wt bt bt sizes2 sizes1 L K R R W M2 M1 e _ R2 R1 WW PL PR PK PR PW Hn2 Hn1 HM2 HM1 Hk) I1 I2 Dd)
      (weight_incl p2 wt bt sizes2 L R W M2 e R2 WW PL PR PW Hn2 HM2) Wx (eq_sym (proj1 Hf2)) Ww Hw Ms My)). exact Ey2.
  Qed.

  Lemma rearrange_names q ns ms (f : pystr -> nat) (x : tensor A) : reads U q (axes_named ns) (axes_named ms) -> wf x -> shp x = map f ns -> incl ns ms -> incl ms ns ->
    exists y, rearrange r (One x) q [] = Ok y /\ wf y /\ shp y = map f ms /\ forall ix, (forall s, In s ns -> ix s < f s) -> get y (map ix ms) = get x (map ix ns).
  Proof.
    intros Hr Wx Sx I1 I2.
    destruct (names_call r Hok Rearranging q (shp x) ns (axes_named ms) Hr) as (EL & Nn & len & Elen & Hc).
    { rewrite Sx, map_length. reflexivity. }
    { unfold ident_ok. rewrite !keys_names. split; [apply names_no_numbers|]. split; [apply names_no_numbers|]. auto. }
    { apply names_no_dots. }
    { rewrite names_right, concat_single. intros a Ha. apply in_map_iff in Ha as (s & <- & _). exact I. }
    assert (Nr : no_reserved []) by (intros s []).
    destruct (proj2 (rearrange_accepts r Hok x q [] (NoDup_nil _) Wx)) as (y & Ey); [split; [exact Nr|]; eauto|].
    destruct (proj1 (rearrange_iff r Hok x q [] _ _ 0 len y (NoDup_nil _) Wx Nr Hc) Ey) as (Wy & Sy & Gy).
    assert (Hlen : forall s, In s ns -> len (LName s) = f s).
    { rewrite Sx, map_map in Elen. intros s Hs. exact (proj1 map_ext_in_iff Elen s Hs). }
    assert (Gi : forall ix names, gindex len ix (map (fun n => [LName n]) names) = map ix (map LName names)).
    { intros ix names. unfold gindex. rewrite !map_map. apply map_ext. intros s. cbn. lia. }
    rewrite names_right, EL in *. exists y. split; [exact Ey|]. split; [exact Wy|]. split.
    - rewrite Sy. unfold gshape. rewrite map_map. apply map_ext_in. intros s Hs. cbn. rewrite Hlen by auto. lia.
    - intros ix Hix. specialize (Gy (fun a => match a with LName s => ix s | _ => 0 end)). rewrite !Gi, !map_map in Gy. apply Gy. rewrite !concat_single.
      intros a Ha. apply in_app_or in Ha as [Ha|Ha]; apply in_map_iff in Ha as (s & <- & Hs); cbn; rewrite Hlen; auto.
  Qed.

  Lemma rearrange_after p0 p1 p2 q wt bt sizes0 sizes1 sizes2 L K R W (M1 M2 : einmix (tensor A)) e len (x w : tensor A) b :
    NoDup (map fst sizes0) -> no_reserved sizes0 -> call_ok U Rearranging p0 sizes0 (gshape len (left_groups e K)) K R e len ->
    reads U p1 L K -> reads U p2 L R -> written U wt W -> plain L -> plain K -> plain R -> plain W -> NoDup (map fst sizes1) -> NoDup (map fst sizes2) ->
    EinMix U os os' p1 wt bt sizes1 = Ok M1 -> EinMix U os os' p2 wt bt sizes2 = Ok M2 -> wf x -> rank_fits L (length (shp x)) e ->
    fits len (left_groups e L) (right_groups e L K) (shp x) sizes1 -> fits len (left_groups e L) (right_groups e L R) (shp x) sizes2 ->
    no_division sizes1 len (left_groups e L) -> no_division sizes2 len (left_groups e L) -> e < 8 ->
    wf w -> map Z.of_nat (shp w) = em_weight M1 -> bias_of (em_bias M1) b ->
    (bt <> None -> reads U q (axes_named (written_names K)) (axes_named (written_names R))) ->
    em_weight M2 = em_weight M1 /\
    exists c y z, match b with None => c = None | Some b0 => exists c0, c = Some c0 /\ rearrange r (One b0) q [] = Ok c0 end /\ bias_of (em_bias M2) c /\
      call_einmix r lib iadd M1 w b x = Ok y /\ rearrange r (One y) p0 sizes0 = Ok z /\ call_einmix r lib iadd M2 w c x = Ok z.
  Proof.
    intros Hn0 Hres Hcall R1 R2 WW PL PK PR PW Hn1 Hn2 HM1 HM2 Wx Hk Hf1 Hf2 Hd1 Hd2 He Ww Sw Bb Hq. pose proof (ro_unicode _ Hok) as HU.
    pose proof (layer_ok r Hok os os' Hos p1 wt bt sizes1 L K W R1 WW PL PK PW Hn1 M1 HM1) as O1.
    pose proof (layer_ok r Hok os os' Hos p2 wt bt sizes2 L R W R2 WW PL PR PW Hn2 M2 HM2) as O2.
    destruct (layer_NoDup r Hok os os' Hos p2 wt bt sizes2 L R W R2 WW PL PR PW Hn2 M2 HM2 e) as [Nl Nr].
    destruct (co_ident _ _ _ _ _ _ _ _ _ Hcall) as (NK & NR & I1 & I2). destruct (mo_numbers _ _ _ _ _ _ O1) as [NL _].
    assert (Dd : has_dots K = has_dots R) by (rewrite <- (mo_dots _ _ _ _ _ _ O2), <- (mo_dots _ _ _ _ _ _ O1); reflexivity).
    pose proof (mo_dots _ _ _ _ _ _ O1) as DL.
    assert (Ek : right_groups e L K = left_groups e K) by (apply right_as_left; auto).
    assert (Er : right_groups e K R = right_groups e L R) by (apply right_of; congruence).
    pose proof (weight_is r Hok os os' Hos p1 wt bt sizes1 L K W M1 e len _ R1 WW PL PK PW Hn1 HM1 Hf1) as Ew1.
    pose proof (weight_is r Hok os os' Hos p2 wt bt sizes2 L R W M2 e len _ R2 WW PL PR PW Hn2 HM2 Hf2) as Ew2.
    assert (Same : forall a, In a (concat (left_groups e K)) <-> In a (concat (right_groups e L R))).
    { rewrite <- Ek. exact (proj2 (same_axes p1 p2 wt bt bt sizes1 sizes2 L L K R W M1 M2 e _ R1 R2 WW PL PK PL PR PW Hn1 Hn2 HM1 HM2 Hk) I1 I2 Dd). }
    split; [congruence|].
    destruct (bias_args_of p1 wt bt sizes1 L K W M1 b R1 WW PL PK PW Hn1 HM1 Bb) as (b' & -> & Ba).
    destruct (call_mixes add mul zero one (sp_comm _ _ _ Hsp) (sp_assoc _ _ _ Hsp) mul_one lib HC iadd HI r Hok os os' Hos Hos' p1 wt bt sizes1 L K W R1 WW PL PK PW Hn1 M1 HM1 e len x w Wx Ww Hk Hf1 Hd1 (fun _ => He) Sw b' Ba) as (y & Ey & My).
    rewrite Ek in My. pose proof (proj1 My) as Wy. pose proof (proj1 (proj2 My)) as Sy. rewrite <- Sy in Hcall.
    destruct (proj2 (rearrange_accepts r Hok y p0 sizes0 Hn0 Wy)) as (z & Ez); [split; [exact Hres|]; eauto|].
    pose proof (proj1 (rearrange_iff r Hok y p0 sizes0 K R e len z Hn0 Wy Hres Hcall) Ez) as Mz. rewrite Er in Mz.
    assert (Hw2 : map Z.of_nat (shp w) = em_weight M2) by congruence.
    assert (C : exists c', match option_map snd b' with None => option_map snd c' = None | Some b0 => exists c0, option_map snd c' = Some c0 /\ rearrange r (One b0) q [] = Ok c0 end /\
      bias_args bt M2 c' /\ moved_bias len (right_groups e L R) K R b' c').
    { unfold bias_args in *. destruct bt as [text|].
      - destruct Ba as (B & b0 & -> & WB & Wb & Sb).
        rewrite (bias_is r Hok os os' Hos p1 wt text sizes1 L K W B M1 e len _ R1 WW PL PK PW Hn1 HM1 Hf1 WB) in Sb. injection Sb as Sb. apply (map_inj Z.of_nat Nat2Z.inj) in Sb.
        assert (IN : forall E E', incl (keys E) (keys E') -> incl (written_names E) (written_names E')).
        { intros E E' H s Hs. apply filter_In in Hs as [Hs N]. apply filter_In. auto. }
        destruct (rearrange_names q (written_names K) (written_names R) (fun s => if str_mem s (keys B) then len (LName s) else 1) b0) as (c0 & Ec & Wc & Sc & Gc); auto; [apply Hq; discriminate|].
        exists (Some (B, c0)). cbn [option_map snd]. split; [exists c0; auto|]. split.
        + exists B, c0. split; [reflexivity|]. split; [exact WB|]. split; [exact Wc|]. rewrite (bias_is r Hok os os' Hos p2 wt text sizes2 L R W B M2 e len _ R2 WW PL PR PW Hn2 HM2 Hf2 WB). rewrite Sc. reflexivity.
        + intros ix Hix. unfold bias_index. apply (Gc (fun s => if str_mem s (keys B) then ix (LName s) else 0)). intros s Hs. destruct (str_mem s (keys B)); [|lia].
          apply Hix. destruct (layer_axes r Hok os os' Hos p2 wt (Some text) sizes2 L R W M2 e R2 WW PL PR PW Hn2 HM2) as [_ ->]. apply in_name; [exact PR|].
          apply filter_In in Hs as [Hs N]. split; [apply I1, Hs|]. intros ->. rewrite (proj2 (str_eqb_eq _ _) eq_refl) in N. discriminate.
      - subst b'. exists None. cbn. auto. }
    destruct C as (c' & C1 & C2 & C3). exists (option_map snd c'), y, z. split; [exact C1|].
    destruct (call_mixes add mul zero one (sp_comm _ _ _ Hsp) (sp_assoc _ _ _ Hsp) mul_one lib HC iadd HI r Hok os os' Hos Hos' p2 wt bt sizes2 L R W R2 WW PL PR PW Hn2 M2 HM2 e len x w Wx Ww Hk Hf2 Hd2 (fun _ => He) Hw2 c' C2) as (z2 & Ez2 & Mz2).
    split; [|split; [exact Ey|split; [exact Ez|]]].
    - unfold bias_args in C2. destruct bt as [text|].
      + destruct C2 as (B & c0 & -> & _ & Wc & <-). cbn. exists c0. auto.
      + subst c'. pose proof (layer_bias r Hok os os' Hos p2 wt None sizes2 L R W R2 WW PL PR PW Hn2 M2 HM2) as ->. reflexivity.
    - rewrite <- (mixes_unique add mul zero _ _ _ _ _ _ _ _ _ _ Nr Mz2 (after_mixes add mul zero len _ _ _ W K R x w y z b' c' Same C3 My Mz)). exact Ez2.
  Qed.
End Layers.
