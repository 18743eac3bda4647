(** * Two EinMix layers in a row: the weight by einsum, and the layers *)
From Coq Require Import Permutation.
From Verif Require Import Py Tensor TensorFacts ListFacts SpecSem SpecGrammar SpecEinsum SpecPattern SpecForms SpecOps SpecElements SpecAdjoint SpecLinear Parsing Compile Recipe Ops Backends Api
  ParseFacts ParseFacts2 ParseFacts3 StepFacts FrontFacts FrontFacts2 FrontFacts3 MainFacts MainFacts2 ReduceFacts MainFacts3 CallFacts RelabelFacts ApiFacts ApiFacts2 ApiFacts3 RedFacts Laws
  EinsumFacts EinsumFacts3 EinsumFacts4 EinsumLaws2 AdjointFacts Layers Einsum LayerFacts EinMix SpecEinMix MixFacts MixFacts2 MixFacts3 MixFacts4 MixFacts5 MixFacts6 MixFacts7 MixFacts8 MixFacts9 MixLaws MixLaws2
  SpecMixGrad MixGradFacts SpecMixFuse MixFuseFacts.

Definition enames (l : list pystr) : list entry := map EName l.
Lemma to_term_enames l : to_term (enames l) = map Some l.
Proof. unfold to_term, enames. rewrite map_map. reflexivity. Qed.
Lemma term_names_some l : term_names (map (@Some pystr) l) = l.
Proof. induction l as [|s l IH]; [reflexivity|]. cbn. f_equal. exact IH. Qed.
Lemma term_dots_some l : term_dots (map (@Some pystr) l) = 0.
Proof. induction l as [|s l IH]; [reflexivity|]. exact IH. Qed.
Lemma term_labs_some e l : term_labs e (map (@Some pystr) l) = map SpecEinsum.LName l.
Proof. induction l as [|s l IH]; [reflexivity|]. cbn. f_equal. exact IH. Qed.

Section Weight.
  Context {A : Type} (add mul : A -> A -> A) (zero one : A).
  Context (Hsp : sums_and_products add mul zero) (mul_one : forall a, mul a one = a).
  Context (lib : pystr -> list (tensor A) -> result (tensor A)) (HC : einsum_contract add mul zero one lib).
  Context (U : unicode) (HU : unicode_ok U).
  Notation val := (val zero).
  Context (len : label -> nat).
  Definition len' (l : lab pystr) : nat := match l with SpecEinsum.LName s => len (LName s) | LDot _ => 0 end.
  Definition ix' (ix : label -> nat) (l : lab pystr) : nat := match l with SpecEinsum.LName s => ix (LName s) | LDot _ => 0 end.
  Notation axes := (map LName).
  Notation labs := (map SpecEinsum.LName).

  Lemma len_labs (l : list pystr) : map len' (labs l) = map len (axes l).
  Proof. rewrite !map_map. reflexivity. Qed.
  Lemma assign_labs ix l v s : assign (lab_eqb str_eqb) (ix' ix) (labs l) v (SpecEinsum.LName s) = assign label_eqb ix (axes l) v (LName s).
  Proof.
    unfold assign. rewrite (index_of_map str_eqb (lab_eqb str_eqb) SpecEinsum.LName s l) by reflexivity.
    rewrite (index_of_map str_eqb label_eqb LName s l); [reflexivity|]. intros y _. destruct (str_eqb s y) eqn:E.
    - apply str_eqb_eq in E. subst. apply label_eqb_eq. reflexivity.
    - destruct (label_eqb (LName s) (LName y)) eqn:X; [|reflexivity]. apply label_eqb_eq in X. injection X as ->. rewrite str_eqb_refl in E. discriminate.
  Qed.
  Lemma operand_labs_named (l : list pystr) (t : tensor A) : operand_labs (map Some l) t = labs l.
  Proof. apply term_labs_some. Qed.
  Lemma operand_named (l : list pystr) (t : tensor A) : wf t -> shp t = map len (axes l) -> operand_fits len' (map Some l) t.
  Proof.
    intros W S. split; [exact W|]. split; [rewrite term_dots_some; lia|]. rewrite operand_labs_named, S, map_map.
    clear. induction l as [|s l IH]; cbn; constructor; [reflexivity|exact IH].
  Qed.
  Lemma element_named (l : list pystr) (t : tensor A) mids ix v : shp t = map len (axes l) -> (forall s, In s l -> assign label_eqb ix (axes mids) v (LName s) < len (LName s)) ->
    element_at zero (assign (lab_eqb str_eqb) (ix' ix) (labs mids) v) (map Some l) t = val (get t (map (assign label_eqb ix (axes mids) v) (axes l))).
  Proof.
    intros S H. unfold element_at, AdjointFacts.val. rewrite operand_labs_named, S.
    replace (map2 _ (labs l) (map len (axes l))) with (map (assign label_eqb ix (axes mids) v) (axes l)); [reflexivity|]. clear S.
    induction l as [|s l IH]; [reflexivity|]. cbn [map map2]. f_equal; [|apply IH; intros s' Hs'; apply H; right; exact Hs'].
    rewrite assign_labs. destruct (len (LName s) =? 1) eqn:E; [|reflexivity]. apply Nat.eqb_eq in E. specialize (H s (or_introl eq_refl)). lia.
  Qed.

  Lemma einsum_two p a b c mids (u v : tensor A) : einsum_reads U p [enames a; enames b] (enames c) -> length (distinct (a ++ b)) <= 52 ->
    wf u -> shp u = map len (axes a) -> wf v -> shp v = map len (axes b) -> NoDup c -> incl c (a ++ b) ->
    NoDup mids -> (forall s, In s mids <-> In s (a ++ b) /\ ~ In s c) ->
    exists w, einsum_with U lib [inl u; inl v; inr p] = Ok w /\ wf w /\ shp w = map len (axes c) /\
      forall ix, within len ix (axes c) -> get w (map ix (axes c)) = Some (over add zero len (axes mids) ix (fun jx => mul (val (get u (map jx (axes a)))) (val (get v (map jx (axes b)))))).
  Proof.
    intros Hr H52 Wu Su Wv Sv Nc Hc Nm Hm.
    assert (En : all_names [enames a; enames b] = a ++ b).
    { unfold all_names. cbn [flat_map]. rewrite app_nil_r, <- !to_term_names, !to_term_enames, !term_names_some. reflexivity. }
    destruct (einsum_formula U HU add mul zero one (sp_comm _ _ _ Hsp) (sp_assoc _ _ _ Hsp) lib p [enames a; enames b] (enames c) [u; v] len') as (w & Ew & Fw).
    - exact HC.
    - exact Hr.
    - rewrite En. exact H52.
    - cbn [map]. rewrite !to_term_enames. split; [constructor; [apply operand_named; assumption|constructor; [apply operand_named; assumption|constructor]]|]. split; [rewrite term_names_some; exact Nc|].
      split; [cbn [flat_map]; rewrite app_nil_r, !term_names_some; exact Hc|]. split; [rewrite term_dots_some; lia|]. split.
      + cbn [concat]. rewrite app_nil_r, <- map_app. intros X. apply in_map_iff in X as (s & E & _). discriminate.
      + intros k Hk. exfalso. cbn [map2 list_max fold_right] in Hk. unfold spare in Hk. rewrite Su, Sv, !term_names_some, !map_length in Hk. lia.
    - exists w. split; [exact Ew|]. specialize (Fw (labs mids)). cbn [map] in Fw. rewrite !to_term_enames in Fw.
      assert (Eo : forall X : list (tensor A), out_labs [map Some a; map Some b] X (map Some c) = labs c) by (intros X; apply term_labs_some).
      assert (Ea : all_labs [map Some a; map Some b] [u; v] = labs (a ++ b)) by (unfold all_labs; cbn [map2 concat]; rewrite !operand_labs_named, app_nil_r, map_app; reflexivity).
      destruct Fw as (Ww & Sw & Gw).
      { split; [apply NoDup_map_inj; [congruence|exact Nm]|].
        assert (G : forall l, In l (labs mids) <-> In l (labs (a ++ b)) /\ ~ In l (labs c)).
        { intros l. split.
          - intros X. apply in_map_iff in X as (s & <- & Hs). apply Hm in Hs as [H1 H2]. split; [apply in_map, H1|]. intros X. apply in_map_iff in X as (s' & E & Hs'). injection E as ->. contradiction.
          - intros [X Y]. apply in_map_iff in X as (s & <- & Hs). apply in_map, Hm. split; [exact Hs|]. intros Z. apply Y, in_map, Z. }
        intros l. pose proof (G l) as G0. rewrite <- Ea, <- (Eo [u; v]) in G0. exact G0. }
      rewrite Eo in Sw, Gw. split; [exact Ww|]. split; [rewrite Sw; apply len_labs|]. intros ix Hix.
      specialize (Gw (ix' ix)). rewrite !map_map in Gw. rewrite map_map. change (fun x => ix' ix (SpecEinsum.LName x)) with (fun x => ix (LName x)) in Gw. rewrite Gw.
      + f_equal. unfold over. rewrite !map_map. change (map (fun x => len' (SpecEinsum.LName x)) mids) with (map (fun x => len (LName x)) mids). f_equal. apply map_ext_in. intros v0 Hv0. apply indices_In in Hv0.
        assert (Hin : forall s, In s (a ++ b) -> assign label_eqb ix (axes mids) v0 (LName s) < len (LName s)).
        { intros s Hs. destruct (in_dec str_eq_dec s c) as [X|X].
          - rewrite (assign_out label_eqb label_eqb_eq); [apply Hix, in_map, X|]. intros Y. apply in_map_iff in Y as (s' & E & Hs'). injection E as ->. apply Hm in Hs'. tauto.
          - apply (within_assign label_eqb label_eqb_eq len ix (axes mids) v0); [apply NoDup_map_inj; [congruence|exact Nm]|rewrite map_map; exact Hv0|]. apply in_map, Hm. auto. }
        unfold product_at. cbn [map2 fold_right]. rewrite mul_one, !element_named; try assumption; try reflexivity; intros s Hs; apply Hin, in_or_app; auto.
      + intros l Hl. apply in_map_iff in Hl as (s & <- & Hs). apply Hix, in_map, Hs.
  Qed.
End Weight.

Section Layers.
  Context {A : Type} (add mul : A -> A -> A) (zero one : A).
  Context (Hsp : sums_and_products add mul zero) (mul_comm : forall a b, mul a b = mul b a) (mul_assoc : forall a b c, mul a (mul b c) = mul (mul a b) c).
  Context (mul_one : forall a, mul a one = a).
  Context (lib : pystr -> list (tensor A) -> result (tensor A)) (HC : einsum_contract add mul zero one lib).
  Context (iadd : tensor A -> tensor A -> result (tensor A)) (HI : iadd_contract add iadd).
  Context (r : runtime A) (Hok : runtime_ok r) (os os' : nat -> orders) (Hos : forall n, orders_ok (os n)) (Hos' : forall n, orders_ok (os' n)).
  Notation U := (rt_unicode r).

  Lemma weight_is p wt bt sizes L R W (M : einmix (tensor A)) e len shape : reads U p L R -> written U wt W -> plain L -> plain R -> plain W -> NoDup (map fst sizes) ->
    EinMix U os os' p wt bt sizes = Ok M -> fits len (left_groups e L) (right_groups e L R) shape sizes ->
    em_weight M = map Z.of_nat (map len (weight_axes W)).
  Proof.
    intros Hr WW PL PR PW Hn HM Hf. pose proof (ro_unicode _ Hok) as HU.
    pose proof (proj1 (reads_split U HU p L R) Hr) as (l & rr & Hsplit & WL & WR).
    pose proof (einmix_made U HU os os' Hos p wt l rr bt sizes L R W Hsplit WL WR WW PL PR PW Hn M HM) as HMd.
    pose proof (md_ok _ _ _ _ _ _ _ _ _ _ _ _ _ HMd) as O.
    pose proof (proj2 (proj2 Hf)) as Hlen.
    unfold weight_axes. rewrite (md_weight _ _ _ _ _ _ _ _ _ _ _ _ _ HMd), !map_map. apply map_ext_in. intros s Hin. symmetry. apply Hlen, size_in, (mo_sized _ _ _ _ _ _ O), Hin.
  Qed.

  (** names of the axes *)
  Lemma layer_axes p wt bt sizes L R W (M : einmix (tensor A)) e : reads U p L R -> written U wt W -> plain L -> plain R -> plain W -> NoDup (map fst sizes) -> EinMix U os os' p wt bt sizes = Ok M ->
    concat (left_groups e L) = alabs e (atoms L) /\ concat (right_groups e L R) = alabs e (atoms R).
  Proof.
    intros Hr WW PL PR PW Hn HM. pose proof (ro_unicode _ Hok) as HU.
    pose proof (proj1 (reads_split U HU p L R) Hr) as (l & rr & Hsplit & WL & WR).
    pose proof (einmix_made U HU os os' Hos p wt l rr bt sizes L R W Hsplit WL WR WW PL PR PW Hn M HM) as HMd.
    split; [exact (concat_gl _ _ _ _ _ _ _ _ _ _ _ _ PL M HMd e)|exact (concat_gr _ _ _ _ _ _ _ _ _ _ _ _ PR M HMd e)].
  Qed.

  (** the weight, and how the three layers fit together; the biases do not matter *)
  Lemma layers_weight p1 p2 p3 wt1 wt2 wt3 bt1 bt2 bt3 sizes1 sizes2 sizes3 L K R W1 W2 W3 (M1 M2 M3 : einmix (tensor A)) p e len (x u v : tensor A) :
    reads U p1 L K -> reads U p2 K R -> reads U p3 L R -> written U wt1 W1 -> written U wt2 W2 -> written U wt3 W3 ->
    plain L -> plain K -> plain R -> plain W1 -> plain W2 -> plain W3 -> NoDup (map fst sizes1) -> NoDup (map fst sizes2) -> NoDup (map fst sizes3) ->
    EinMix U os os' p1 wt1 bt1 sizes1 = Ok M1 -> EinMix U os os' p2 wt2 bt2 sizes2 = Ok M2 -> EinMix U os os' p3 wt3 bt3 sizes3 = Ok M3 ->
    (forall s, In s (keys L) -> In s (keys R) -> In s (keys K)) ->
    (forall s, In s (keys W3) <-> In s (keys W1 ++ keys W2) /\ In s (keys L ++ keys R)) ->
    einsum_reads U p [enames (keys W1); enames (keys W2)] (enames (keys W3)) ->
    wf x -> rank_fits L (length (shp x)) e ->
    fits len (left_groups e L) (right_groups e L K) (shp x) sizes1 -> fits len (left_groups e K) (right_groups e K R) (gshape len (left_groups e K)) sizes2 ->
    fits len (left_groups e L) (right_groups e L R) (shp x) sizes3 ->
    wf u -> map Z.of_nat (shp u) = em_weight M1 -> wf v -> map Z.of_nat (shp v) = em_weight M2 ->
    exists w, einsum_with U lib [inl u; inl v; inr p] = Ok w /\ wf w /\ map Z.of_nat (shp w) = em_weight M3 /\
      fused add mul zero (left_groups e L) (left_groups e K) (right_groups e L R) W1 W2 W3 len u v w /\ shp x = gshape len (left_groups e L) /\
      rank_fits K (length (gshape len (left_groups e K))) e /\ right_groups e L K = left_groups e K /\ right_groups e K R = right_groups e L R /\
      shp v = map len (weight_axes W2) /\
      NoDup (concat (left_groups e L)) /\ NoDup (concat (left_groups e K)) /\ NoDup (concat (right_groups e L R)) /\
      incl (weight_axes W2) (concat (left_groups e K) ++ concat (right_groups e L R)) /\ incl (weight_axes W3) (concat (left_groups e L) ++ concat (right_groups e L R)) /\
      (forall a, In a (concat (left_groups e L)) -> In a (concat (right_groups e L R)) -> In a (concat (left_groups e K))).
  Proof.
    intros R1 R2 R3 WW1 WW2 WW3 PL PK PR PW1 PW2 PW3 Hn1 Hn2 Hn3 HM1 HM2 HM3 Hlr HW3 Hp Wx Hk Hf1 Hf2 Hf3 Wu Su Wv Sv. pose proof (ro_unicode _ Hok) as HU.
    pose proof (layer_ok r Hok os os' Hos p1 wt1 bt1 sizes1 L K W1 R1 WW1 PL PK PW1 Hn1 M1 HM1) as O1.
    pose proof (layer_ok r Hok os os' Hos p2 wt2 bt2 sizes2 K R W2 R2 WW2 PK PR PW2 Hn2 M2 HM2) as O2.
    pose proof (layer_ok r Hok os os' Hos p3 wt3 bt3 sizes3 L R W3 R3 WW3 PL PR PW3 Hn3 M3 HM3) as O3.
    destruct (layer_NoDup r Hok os os' Hos p1 wt1 bt1 sizes1 L K W1 R1 WW1 PL PK PW1 Hn1 M1 HM1 e) as [Nl Nk].
    destruct (layer_NoDup r Hok os os' Hos p3 wt3 bt3 sizes3 L R W3 R3 WW3 PL PR PW3 Hn3 M3 HM3 e) as [_ Nr].
    pose proof (mo_dots _ _ _ _ _ _ O1) as Dd1. pose proof (mo_dots _ _ _ _ _ _ O2) as Dd2. destruct (mo_numbers _ _ _ _ _ _ O1) as [NL NK]. destruct (mo_numbers _ _ _ _ _ _ O2) as [_ NR].
    assert (Ek : right_groups e L K = left_groups e K) by (apply right_as_left; auto).
    assert (Er : right_groups e K R = right_groups e L R) by (apply right_of; congruence).
    assert (Hk' : rank_fits K (length (gshape len (left_groups e K))) e).
    { eapply next_rank; [exact R2| |].
      - pose proof (mo_flat _ _ _ _ _ _ O2) as F. apply no_grouped_iff; auto. eapply keys_NoDup_L; eauto.
      - rewrite <- Dd1. intros E. apply (rank_zero _ _ _ Hk E). }
    pose proof (weight_is p1 wt1 bt1 sizes1 L K W1 M1 e len _ R1 WW1 PL PK PW1 Hn1 HM1 Hf1) as Ew1. rewrite <- Su in Ew1. apply (map_inj Z.of_nat Nat2Z.inj) in Ew1.
    pose proof (weight_is p2 wt2 bt2 sizes2 K R W2 M2 e len _ R2 WW2 PK PR PW2 Hn2 HM2 Hf2) as Ew2. rewrite <- Sv in Ew2. apply (map_inj Z.of_nat Nat2Z.inj) in Ew2.
    pose proof (weight_is p3 wt3 bt3 sizes3 L R W3 M3 e len _ R3 WW3 PL PR PW3 Hn3 HM3 Hf3) as Ew3.
    destruct (layer_axes p1 wt1 bt1 sizes1 L K W1 M1 e R1 WW1 PL PK PW1 Hn1 HM1) as [CL CK]. rewrite Ek in CK.
    destruct (layer_axes p3 wt3 bt3 sizes3 L R W3 M3 e R3 WW3 PL PR PW3 Hn3 HM3) as [_ CR].
    assert (E1 : forall s, In s (keys W1) -> s <> ell_name) by (intros s; apply (no_ell_W W1 PW1 (mo_weight _ _ _ _ _ _ O1))).
    assert (E2 : forall s, In s (keys W2) -> s <> ell_name) by (intros s; apply (no_ell_W W2 PW2 (mo_weight _ _ _ _ _ _ O2))).
    assert (E3 : forall s, In s (keys W3) -> s <> ell_name) by (intros s; apply (no_ell_W W3 PW3 (mo_weight _ _ _ _ _ _ O3))).
    pose proof (proj1 (reads_split U HU p1 L K) R1) as (l & rr & Hsplit & WL & WK). pose proof (written_ndots _ _ _ WL) as DL.
    assert (Hdots : forall E i, In (LDots i) (alabs e (atoms E)) <-> has_dots E = true /\ i < e) by (apply (in_dots L L e [] DL DL (rank_zero L _ e Hk)); cbn; lia).
    (* the axes between the layers *)
    set (mids := filter (fun s => negb (str_mem s (keys W3))) (distinct (keys W1 ++ keys W2))).
    assert (Nm : NoDup mids) by (apply NoDup_filter, distinct_NoDup).
    assert (Hm : forall s, In s mids <-> In s (keys W1 ++ keys W2) /\ ~ In s (keys W3)).
    { intros s. unfold mids. rewrite filter_In, distinct_In, negb_true_iff, <- not_true_iff_false, str_mem_In. tauto. }
    assert (H52 : length (distinct (keys W1 ++ keys W2)) <= 52).
    { pose proof (mo_letters _ _ _ _ _ _ O1) as L1. pose proof (mo_letters _ _ _ _ _ _ O2) as L2.
      assert (X : length (distinct (keys W1 ++ keys W2)) <= length (nodup str_eq_dec (written_names L ++ written_names K ++ written_names W1) ++ nodup str_eq_dec (written_names K ++ written_names R ++ written_names W2))).
      { apply NoDup_incl_length; [apply distinct_NoDup|]. intros s Hs. rewrite distinct_In in Hs. apply in_or_app. apply in_app_or in Hs as [Hs|Hs]; [left|right]; apply nodup_In, in_or_app; right; apply in_or_app; right; apply in_names_of; auto. }
      rewrite app_length in X. lia. }
    destruct (einsum_two add mul zero one Hsp mul_one lib HC U HU len p (keys W1) (keys W2) (keys W3) mids u v Hp H52 Wu Ew1 Wv Ew2 (written_NoDup _ _ _ WW3) (fun s H => proj1 (proj1 (HW3 s) H)) Nm Hm) as (w & Eeq & Ww & Sw & Gw).
    assert (Hbetween : forall a, In a (others (concat (left_groups e K)) (concat (left_groups e L) ++ concat (right_groups e L R))) <-> In a (map LName mids)).
    { intros a. rewrite in_others, in_app_iff, CL, CK, CR. split.
      - intros [Ha Hno]. destruct a as [s|i|j n0].
        + apply in_map, Hm. apply in_name in Ha; [|exact PK]. rewrite !in_name in Hno by assumption. split.
          * apply in_or_app. left. pose proof (mo_names _ _ _ _ _ _ O1 s (proj1 Ha)) as X. apply in_app_or in X. tauto.
          * intros X. apply HW3 in X as [_ X]. apply in_app_or in X. tauto.
        + exfalso. apply Hno. left. apply Hdots in Ha. apply Hdots. rewrite Dd1. exact Ha.
        + exfalso. exact (no_num _ _ _ _ Ha).
      - intros Ha. apply in_map_iff in Ha as (s & <- & Hs). apply Hm in Hs as [Hs Hno].
        assert (Ne : s <> ell_name) by (apply in_app_or in Hs as [Hs|Hs]; auto).
        assert (Hno' : ~ In s (keys L ++ keys R)) by (intros X; apply Hno, HW3; auto). rewrite in_app_iff in Hno'.
        rewrite !in_name by assumption. split; [|tauto]. split; [|exact Ne].
        apply in_app_or in Hs as [Hs|Hs]; [pose proof (mo_needed _ _ _ _ _ _ O1 s Hs) as X|pose proof (mo_needed _ _ _ _ _ _ O2 s Hs) as X]; apply in_app_or in X; tauto. }
    assert (Hfused : fused add mul zero (left_groups e L) (left_groups e K) (right_groups e L R) W1 W2 W3 len u v w).
    { split; [exact Ww|]. split; [exact Sw|]. intros ix Hix. cbv zeta. set (bt' := others (concat (left_groups e K)) (concat (left_groups e L) ++ concat (right_groups e L R))) in *.
      assert (Nb : NoDup bt') by (apply others_NoDup; rewrite <- Ek; exact Nk).
      assert (Hin : forall v0, inb (map len bt') v0 = true -> forall s, In s (keys W1 ++ keys W2) -> assign label_eqb ix bt' v0 (LName s) < len (LName s)).
      { intros v0 Hv0 s Hs. destruct (in_dec str_eq_dec s (keys W3)) as [X|X].
        - rewrite (assign_out label_eqb label_eqb_eq); [apply Hix, in_map, X|]. rewrite Hbetween. intros Y. apply in_map_iff in Y as (s' & E & Hs'). injection E as ->. apply Hm in Hs'. tauto.
        - apply (within_assign label_eqb label_eqb_eq len ix bt' v0 Nb Hv0), Hbetween, in_map, Hm. auto. }
      assert (There : forall (t : tensor A) T, wf t -> shp t = map len (weight_axes T) -> incl (keys T) (keys W1 ++ keys W2) ->
        weight_elements t T len bt' ix = map Some (map (fun v0 => val zero (get t (map (assign label_eqb ix bt' v0) (weight_axes T)))) (indices (map len bt')))).
      { intros t T Wt St Ht. unfold weight_elements. rewrite map_map. apply map_ext_in. intros v0 Hv0. apply indices_In in Hv0. fold (weight_axes T).
        destruct (get_wf t (map (assign label_eqb ix bt' v0) (weight_axes T)) Wt) as [a Ha]; [|rewrite Ha; reflexivity]. rewrite St. apply (proj2 (inb_within len _ _)).
        intros a Ha. apply in_map_iff in Ha as (s & <- & Hs). apply (Hin v0 Hv0), Ht, Hs. }
      eexists. eexists. split; [apply There; [exact Wu|exact Ew1|intros s Hs; apply in_or_app; auto]|]. split; [apply There; [exact Wv|exact Ew2|intros s Hs; apply in_or_app; auto]|].
      rewrite map2_both. unfold weight_axes at 1. rewrite (Gw ix Hix). f_equal.
      change (over add zero len (map LName mids) ix (fun jx => mul (val zero (get u (map jx (weight_axes W1)))) (val zero (get v (map jx (weight_axes W2))))) = over add zero len bt' ix (fun jx => mul (val zero (get u (map jx (weight_axes W1)))) (val zero (get v (map jx (weight_axes W2)))))).
      assert (Nlm : NoDup (map LName mids)) by (apply NoDup_map_inj; [congruence|exact Nm]).
      apply (over_perm add mul zero Hsp); [intros i j E; rewrite !(map_ext i j) by exact E; reflexivity|exact Nlm|]. apply NoDup_Permutation; [exact Nlm|exact Nb|]. intros a. symmetry. apply Hbetween. }
    assert (Sw' : map Z.of_nat (shp w) = em_weight M3) by (rewrite Ew3, Sw; reflexivity).
    assert (Sx : shp x = gshape len (left_groups e L)) by (symmetry; exact (proj1 Hf1)).
    assert (Hin1 : forall T, (forall s0, In s0 (keys T) -> s0 <> ell_name) -> forall X Y, plain X -> plain Y -> incl (keys T) (keys X ++ keys Y) -> incl (weight_axes T) (alabs e (atoms X) ++ alabs e (atoms Y))).
    { intros T HT X Y PX PY HI' a Ha. apply in_map_iff in Ha as (s0 & <- & Hs0). pose proof (HI' s0 Hs0) as Z0. apply in_or_app. apply in_app_or in Z0 as [Z0|Z0]; [left|right]; apply in_name; auto. }
    assert (HV : incl (weight_axes W2) (concat (left_groups e K) ++ concat (right_groups e L R))) by (rewrite CK, CR; apply Hin1; auto; apply (mo_needed _ _ _ _ _ _ O2)).
    assert (HW : incl (weight_axes W3) (concat (left_groups e L) ++ concat (right_groups e L R))) by (rewrite CL, CR; apply Hin1; auto; apply (mo_needed _ _ _ _ _ _ O3)).
    assert (Hlr' : forall a, In a (concat (left_groups e L)) -> In a (concat (right_groups e L R)) -> In a (concat (left_groups e K))).
    { rewrite CL, CK, CR. intros a Ha Hb. destruct a as [s0|i|j n0]; [|apply Hdots in Ha; apply Hdots; rewrite <- Dd1; exact Ha|exfalso; exact (no_num _ _ _ _ Ha)].
      apply in_name in Ha; [|exact PL]. apply in_name in Hb; [|exact PR]. apply in_name; [exact PK|]. split; [apply Hlr; tauto|tauto]. }
    rewrite Ek in Nk. exists w. split; [exact Eeq|]. split; [exact Ww|]. split; [exact Sw'|]. split; [exact Hfused|]. split; [exact Sx|]. split; [exact Hk'|]. split; [exact Ek|]. split; [exact Er|].
    split; [exact Ew2|]. split; [exact Nl|]. split; [exact Nk|]. split; [exact Nr|]. split; [exact HV|]. split; [exact HW|exact Hlr'].
  Qed.

  Lemma layers_fused p1 p2 p3 wt1 wt2 wt3 bt sizes1 sizes2 sizes3 L K R W1 W2 W3 M1 M2 M3 p e len (x u v : tensor A) b :
    reads U p1 L K -> reads U p2 K R -> reads U p3 L R -> written U wt1 W1 -> written U wt2 W2 -> written U wt3 W3 ->
    plain L -> plain K -> plain R -> plain W1 -> plain W2 -> plain W3 -> NoDup (map fst sizes1) -> NoDup (map fst sizes2) -> NoDup (map fst sizes3) ->
    EinMix U os os' p1 wt1 None sizes1 = Ok M1 -> EinMix U os os' p2 wt2 bt sizes2 = Ok M2 -> EinMix U os os' p3 wt3 bt sizes3 = Ok M3 ->
    (forall s, In s (keys L) -> In s (keys R) -> In s (keys K)) ->
    (forall s, In s (keys W3) <-> In s (keys W1 ++ keys W2) /\ In s (keys L ++ keys R)) ->
    einsum_reads U p [enames (keys W1); enames (keys W2)] (enames (keys W3)) ->
    wf x -> rank_fits L (length (shp x)) e ->
    fits len (left_groups e L) (right_groups e L K) (shp x) sizes1 -> fits len (left_groups e K) (right_groups e K R) (gshape len (left_groups e K)) sizes2 ->
    fits len (left_groups e L) (right_groups e L R) (shp x) sizes3 ->
    no_division sizes1 len (left_groups e L) -> no_division sizes2 len (left_groups e K) -> no_division sizes3 len (left_groups e L) ->
    e < 8 -> wf u -> map Z.of_nat (shp u) = em_weight M1 -> wf v -> map Z.of_nat (shp v) = em_weight M2 -> bias_of (em_bias M2) b -> bias_of (em_bias M3) b ->
    exists w s y, einsum_with U lib [inl u; inl v; inr p] = Ok w /\ map Z.of_nat (shp w) = em_weight M3 /\
      call_einmix r lib iadd M1 u None x = Ok s /\ call_einmix r lib iadd M2 v b s = Ok y /\ call_einmix r lib iadd M3 w b x = Ok y.
  Proof.
    intros R1 R2 R3 WW1 WW2 WW3 PL PK PR PW1 PW2 PW3 Hn1 Hn2 Hn3 HM1 HM2 HM3 Hlr HW3 Hp Wx Hk Hf1 Hf2 Hf3 Hd1 Hd2 Hd3 He Wu Su Wv Sv Bb Bb3.
    destruct (layers_weight p1 p2 p3 wt1 wt2 wt3 None bt bt sizes1 sizes2 sizes3 L K R W1 W2 W3 M1 M2 M3 p e len x u v R1 R2 R3 WW1 WW2 WW3 PL PK PR PW1 PW2 PW3 Hn1 Hn2 Hn3 HM1 HM2 HM3 Hlr HW3 Hp Wx Hk Hf1 Hf2 Hf3 Wu Su Wv Sv)
      as (w & Eeq & Ww & Sw' & Hfused & Sx & Hk' & Ek & Er & Ew2 & Nl & Nk & Nr & HV & HW & Hlr').
    destruct (call_mixes add mul zero one (sp_comm _ _ _ Hsp) (sp_assoc _ _ _ Hsp) mul_one lib HC iadd HI r Hok os os' Hos Hos' p1 wt1 None sizes1 L K W1 R1 WW1 PL PK PW1 Hn1 M1 HM1 e len x u Wx Wu Hk Hf1 Hd1 (fun _ => He) Su None eq_refl) as (s & Es & Ms).
    rewrite Ek in Ms. pose proof (proj1 Ms) as Ws. pose proof (proj1 (proj2 Ms)) as Ss. rewrite <- Ss in Hk', Hf2.
    exists w, s. destruct b as [b|].
    - pose proof (layer_bias r Hok os os' Hos p2 wt2 bt sizes2 K R W2 R2 WW2 PK PR PW2 Hn2 M2 HM2) as LB. destruct bt as [text|]; [|rewrite LB in Bb; discriminate].
      destruct LB as (B & sb & WB & Eb). rewrite Eb in Bb. destruct Bb as (b0 & E0 & Wb & Sb). injection E0 as <-.
      destruct (em_bias M3) as [sb3|] eqn:Eb3; [|discriminate]. destruct Bb3 as (b0 & E0 & _ & Sb3). injection E0 as <-.
      destruct (call_mixes add mul zero one (sp_comm _ _ _ Hsp) (sp_assoc _ _ _ Hsp) mul_one lib HC iadd HI r Hok os os' Hos Hos' p2 wt2 (Some text) sizes2 K R W2 R2 WW2 PK PR PW2 Hn2 M2 HM2 e len s v Ws Wv Hk' Hf2 Hd2 (fun _ => He) Sv (Some (B, b))) as (y & Ey & My).
      { exists B, b. split; [reflexivity|]. split; [exact WB|]. split; [exact Wb|]. rewrite Eb, Sb. reflexivity. }
      destruct (call_mixes add mul zero one (sp_comm _ _ _ Hsp) (sp_assoc _ _ _ Hsp) mul_one lib HC iadd HI r Hok os os' Hos Hos' p3 wt3 (Some text) sizes3 L R W3 R3 WW3 PL PR PW3 Hn3 M3 HM3 e len x w Wx Ww Hk Hf3 Hd3 (fun _ => He) Sw' (Some (B, b))) as (y3 & Ey3 & My3).
      { exists B, b. split; [reflexivity|]. split; [exact WB|]. split; [exact Wb|]. rewrite Eb3, Sb3. reflexivity. }
      rewrite Er in My. exists y. split; [exact Eeq|]. split; [exact Sw'|]. split; [exact Es|]. split; [exact Ey|]. rewrite <- (mixes_unique add mul zero _ _ _ _ _ _ _ _ _ _ Nr My3 (fused_mixes add mul zero Hsp mul_comm mul_assoc len _ _ _ W1 W2 W3 K R Nl Nk Hlr' HV HW x u v w s y _ Wx Sx Ms My Hfused)). exact Ey3.
    - pose proof (layer_bias r Hok os os' Hos p2 wt2 bt sizes2 K R W2 R2 WW2 PK PR PW2 Hn2 M2 HM2) as LB.
      destruct bt as [text|]; [destruct LB as (B & sb & WB & Eb); rewrite Eb in Bb; destruct Bb as (b0 & E0 & _); discriminate|].
      destruct (call_mixes add mul zero one (sp_comm _ _ _ Hsp) (sp_assoc _ _ _ Hsp) mul_one lib HC iadd HI r Hok os os' Hos Hos' p2 wt2 None sizes2 K R W2 R2 WW2 PK PR PW2 Hn2 M2 HM2 e len s v Ws Wv Hk' Hf2 Hd2 (fun _ => He) Sv None eq_refl) as (y & Ey & My).
      destruct (call_mixes add mul zero one (sp_comm _ _ _ Hsp) (sp_assoc _ _ _ Hsp) mul_one lib HC iadd HI r Hok os os' Hos Hos' p3 wt3 None sizes3 L R W3 R3 WW3 PL PR PW3 Hn3 M3 HM3 e len x w Wx Ww Hk Hf3 Hd3 (fun _ => He) Sw' None eq_refl) as (y3 & Ey3 & My3).
      rewrite Er in My. exists y. split; [exact Eeq|]. split; [exact Sw'|]. split; [exact Es|]. split; [exact Ey|]. rewrite <- (mixes_unique add mul zero _ _ _ _ _ _ _ _ _ _ Nr My3 (fused_mixes add mul zero Hsp mul_comm mul_assoc len _ _ _ W1 W2 W3 K R Nl Nk Hlr' HV HW x u v w s y _ Wx Sx Ms My Hfused)). exact Ey3.
  Qed.
End Layers.
