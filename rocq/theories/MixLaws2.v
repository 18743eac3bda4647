(** * EinMix: linear in the input and in the weight; the transposed layer *)
From Coq Require Import Permutation.
From Verif Require Import Py Tensor TensorFacts ListFacts SpecSem SpecGrammar SpecEinsum SpecPattern SpecForms SpecOps SpecElements SpecAdjoint SpecLinear Parsing Compile Recipe Ops Backends Api
  ParseFacts ParseFacts2 ParseFacts3 StepFacts FrontFacts FrontFacts2 FrontFacts3 MainFacts MainFacts2 ReduceFacts MainFacts3 CallFacts RelabelFacts ApiFacts ApiFacts2 ApiFacts3 RedFacts Laws
  EinsumFacts3 EinsumLaws2 AdjointFacts Layers Einsum LayerFacts EinMix SpecEinMix MixFacts MixFacts2 MixFacts3 MixFacts4 MixFacts5 MixFacts6 MixFacts7 MixFacts8 MixFacts9 MixLaws.

Section Formula.
  Context {A : Type} (add mul : A -> A -> A) (zero : A).
  Notation sum := (fold_right add zero).
  Implicit Types (x y w : tensor A).

  (** lists of values that are there *)
  Lemma map_zip {X} (f g h : X -> option A) (op : A -> A -> A) (l : list X) : (forall i, h i = match f i, g i with Some a, Some b => Some (op a b) | _, _ => None end) ->
    forall xs us, map f l = map Some xs -> map g l = map Some us -> map h l = map Some (map2 op xs us).
  Proof.
    intros H. induction l as [|i l IH]; intros [|a xs] [|b us] E1 E2; try discriminate; [reflexivity|]. cbn in *. injection E1 as Ea E1. injection E2 as Eb E2.
    rewrite H, Ea, Eb. f_equal. apply IH; auto.
  Qed.
  Lemma map_each {X} (f h : X -> option A) (op : A -> A) (l : list X) : (forall i, h i = option_map op (f i)) ->
    forall xs, map f l = map Some xs -> map h l = map Some (map op xs).
  Proof.
    intros H. induction l as [|i l IH]; intros [|a xs] E1; try discriminate; [reflexivity|]. cbn in *. injection E1 as Ea E1. rewrite H, Ea. cbn. f_equal. apply IH; auto.
  Qed.
  Lemma t_map_wf (h : A -> A) x : wf x -> wf (t_map h x).
  Proof. unfold wf, t_map. cbn. rewrite map_length. auto. Qed.
  Lemma t_map_get (h : A -> A) x i : get (t_map h x) i = option_map h (get x i).
  Proof. unfold get, t_map. cbn. destruct (inb (shp x) i); [|reflexivity]. rewrite nth_error_map. reflexivity. Qed.
  Lemma same_lengths {X} (f g : X -> option A) l (xs us : list A) : map f l = map Some xs -> map g l = map Some us -> length xs = length us.
  Proof. intros E1 E2. apply (f_equal (@length _)) in E1, E2. rewrite !map_length in *. congruence. Qed.

  Definition zip_bias (b c : option (expr * tensor A)) : option (expr * tensor A) :=
    match b, c with Some (B, b), Some (_, c) => Some (B, t_zip add b c) | _, _ => None end.
  (** two biases over the same axes *)
  Definition alike (b c : option (expr * tensor A)) : Prop :=
    match b, c with
    | None, None => True
    | Some (B, b), Some (C, c) => B = C /\ wf b /\ wf c /\ shp b = shp c
    | _, _ => False
    end.

  Section Zip.
    Context (add_comm : forall a b, add a b = add b a) (add_assoc : forall a b c, add a (add b c) = add (add a b) c) (add_zero : forall a, add zero a = a).
    Lemma exchange a b c d : add (add a b) (add c d) = add (add a c) (add b d).
    Proof. rewrite <- !add_assoc. f_equal. rewrite !add_assoc. f_equal. apply add_comm. Qed.
    Lemma sum_both (f : A -> A -> A) : forall xs us ws, length xs = length ws -> length us = length ws ->
      (forall a b c, f (add a b) c = add (f a c) (f b c)) -> sum (map2 f (map2 add xs us) ws) = add (sum (map2 f xs ws)) (sum (map2 f us ws)).
    Proof.
      induction xs as [|a xs IH]; intros [|b us] [|c ws] E1 E2 Hf; try discriminate; cbn; [symmetry; apply add_zero|].
      rewrite IH, Hf by (cbn in *; auto; lia). apply exchange.
    Qed.
    Lemma sum_both' (f : A -> A -> A) : forall ws xs us, length xs = length ws -> length us = length ws ->
      (forall a b c, f c (add a b) = add (f c a) (f c b)) -> sum (map2 f ws (map2 add xs us)) = add (sum (map2 f ws xs)) (sum (map2 f ws us)).
    Proof.
      induction ws as [|c ws IH]; intros [|a xs] [|b us] E1 E2 Hf; try discriminate; cbn; [symmetry; apply add_zero|].
      rewrite IH, Hf by (cbn in *; auto; lia). apply exchange.
    Qed.
    (** the last step: results and biases *)
    Lemma zip_last (y y' : tensor A) R gr len ix b c t t' : wf y -> wf y' -> shp y = gshape len gr -> shp y' = gshape len gr -> alike b c -> 
      (match b with None => get y (gindex len ix gr) = Some t | Some (B, b) => exists k, get b (bias_index B R ix) = Some k /\ get y (gindex len ix gr) = Some (add t k) end) ->
      (match c with None => get y' (gindex len ix gr) = Some t' | Some (B, b) => exists k, get b (bias_index B R ix) = Some k /\ get y' (gindex len ix gr) = Some (add t' k) end) ->
      match zip_bias b c with
      | None => get (t_zip add y y') (gindex len ix gr) = Some (add t t')
      | Some (B, b) => exists k, get b (bias_index B R ix) = Some k /\ get (t_zip add y y') (gindex len ix gr) = Some (add (add t t') k)
      end.
    Proof.
      intros Wy Wy' Sy Sy' Al H1 H2. destruct b as [[Bb b]|], c as [[Bc c]|]; cbn in *; try contradiction.
      - destruct Al as (-> & Wb & Wc & Sbc). destruct H1 as (k & Ek & H1), H2 as (k' & Ek' & H2). exists (add k k').
        rewrite !t_zip_get by (auto; congruence). rewrite Ek, Ek', H1, H2. split; [reflexivity|]. f_equal. apply exchange.
      - rewrite t_zip_get by (auto; congruence). rewrite H1, H2. reflexivity.
    Qed.

    Lemma mixes_inputs gl gr W R len x u w b c y y' : (forall a b c, mul (add a b) c = add (mul a c) (mul b c)) ->
      wf x -> wf u -> shp x = shp u -> alike b c ->
      mixes add mul zero gl gr W R len x w b y -> mixes add mul zero gl gr W R len u w c y' ->
      mixes add mul zero gl gr W R len (t_zip add x u) w (zip_bias b c) (t_zip add y y').
    Proof.
      intros Hd Wx Wu Sx Al (Wy & Sy & Gy) (Wy' & Sy' & Gy'). split; [apply t_zip_wf; auto; congruence|]. split; [exact Sy|].
      intros ix Hi. destruct (Gy ix Hi) as (xs & ws & E1 & E2 & E3). destruct (Gy' ix Hi) as (us & ws' & F1 & F2 & F3).
      rewrite E2 in F2. apply map_Some_eq in F2. subst ws'. exists (map2 add xs us), ws. split; [|split; [exact E2|]].
      - unfold elements in *. eapply map_zip; [|exact E1|exact F1]. intros v. apply t_zip_get; auto.
      - cbn zeta in *. unfold elements, weight_elements in *. rewrite sum_both; [|eapply same_lengths; eauto|eapply same_lengths; eauto|exact Hd].
        exact (zip_last y y' R gr len ix b c _ _ Wy Wy' Sy Sy' Al E3 F3).
    Qed.
    Lemma mixes_weights gl gr W R len x w v b c y y' : (forall a b c, mul c (add a b) = add (mul c a) (mul c b)) ->
      wf w -> wf v -> shp w = shp v -> alike b c ->
      mixes add mul zero gl gr W R len x w b y -> mixes add mul zero gl gr W R len x v c y' ->
      mixes add mul zero gl gr W R len x (t_zip add w v) (zip_bias b c) (t_zip add y y').
    Proof.
      intros Hd Wx Wu Sx Al (Wy & Sy & Gy) (Wy' & Sy' & Gy'). split; [apply t_zip_wf; auto; congruence|]. split; [exact Sy|].
      intros ix Hi. destruct (Gy ix Hi) as (xs & ws & E1 & E2 & E3). destruct (Gy' ix Hi) as (xs' & vs & F1 & F2 & F3).
      rewrite E1 in F1. apply map_Some_eq in F1. subst xs'. exists xs, (map2 add ws vs). split; [exact E1|split].
      - unfold weight_elements in *. eapply map_zip; [|exact E2|exact F2]. intros i. apply t_zip_get; auto.
      - cbn zeta in *. unfold elements, weight_elements in *. rewrite sum_both'; [|eapply same_lengths; eauto|eapply same_lengths; eauto|exact Hd].
        exact (zip_last y y' R gr len ix b c _ _ Wy Wy' Sy Sy' Al E3 F3).
    Qed.
  End Zip.

  (** scaling *)
  Section Scale.
    Context (h : A -> A) (Hh : scaling add zero h).
    Definition map_bias (b : option (expr * tensor A)) : option (expr * tensor A) := option_map (fun '(B, b) => (B, t_map h b)) b.
    Lemma sum_scaled l : sum (map h l) = h (sum l).
    Proof. induction l as [|a l IH]; cbn; [symmetry; apply (sc_zero _ _ _ Hh)|]. rewrite IH. symmetry. apply (sc_add _ _ _ Hh). Qed.
    Lemma map2_scaled xs : forall ws, (forall a b, mul (h a) b = h (mul a b)) -> map2 mul (map h xs) ws = map h (map2 mul xs ws).
    Proof. induction xs as [|a xs IH]; intros [|b ws] H; try reflexivity. cbn. rewrite H, IH by exact H. reflexivity. Qed.
    Lemma map2_scaled' xs : forall ws, (forall a b, mul a (h b) = h (mul a b)) -> map2 mul xs (map h ws) = map h (map2 mul xs ws).
    Proof. induction xs as [|a xs IH]; intros [|b ws] H; try reflexivity. cbn. rewrite H, IH by exact H. reflexivity. Qed.
    Lemma scale_last (y : tensor A) R gr len ix b t :
      (match b with None => get y (gindex len ix gr) = Some t | Some (B, b) => exists k, get b (bias_index B R ix) = Some k /\ get y (gindex len ix gr) = Some (add t k) end) ->
      match map_bias b with
      | None => get (t_map h y) (gindex len ix gr) = Some (h t)
      | Some (B, b) => exists k, get b (bias_index B R ix) = Some k /\ get (t_map h y) (gindex len ix gr) = Some (add (h t) k)
      end.
    Proof.
      intros H1. destruct b as [[B b]|]; cbn in *.
      - destruct H1 as (k & Ek & H1). exists (h k). rewrite !t_map_get, Ek, H1. split; [reflexivity|]. cbn. f_equal. apply (sc_add _ _ _ Hh).
      - rewrite t_map_get, H1. reflexivity.
    Qed.
    Lemma mixes_scaled gl gr W R len x w b y : (forall a b, mul (h a) b = h (mul a b)) ->
      mixes add mul zero gl gr W R len x w b y -> mixes add mul zero gl gr W R len (t_map h x) w (map_bias b) (t_map h y).
    Proof.
      intros Hd (Wy & Sy & Gy). split; [apply t_map_wf, Wy|]. split; [exact Sy|].
      intros ix Hi. destruct (Gy ix Hi) as (xs & ws & E1 & E2 & E3). exists (map h xs), ws. split; [|split; [exact E2|]].
      - unfold elements in *. eapply map_each; [|exact E1]. intros v. apply t_map_get; auto.
      - cbn zeta in *. rewrite map2_scaled by exact Hd. rewrite sum_scaled. apply scale_last, E3.
    Qed.
    Lemma mixes_scaled' gl gr W R len x w b y : (forall a b, mul a (h b) = h (mul a b)) ->
      mixes add mul zero gl gr W R len x w b y -> mixes add mul zero gl gr W R len x (t_map h w) (map_bias b) (t_map h y).
    Proof.
      intros Hd (Wy & Sy & Gy). split; [apply t_map_wf, Wy|]. split; [exact Sy|].
      intros ix Hi. destruct (Gy ix Hi) as (xs & ws & E1 & E2 & E3). exists xs, (map h ws). split; [exact E1|split].
      - unfold weight_elements in *. eapply map_each; [|exact E2]. intros v. apply t_map_get; auto.
      - cbn zeta in *. rewrite map2_scaled' by exact Hd. rewrite sum_scaled. apply scale_last, E3.
    Qed.
  End Scale.
End Formula.

Lemma shape_eq (l m : list nat) : map Z.of_nat l = map Z.of_nat m -> l = m.
Proof.
  revert m. induction l as [|a l IH]; intros [|b m] H; try discriminate; [reflexivity|]. injection H as H1 H2. f_equal; [lia|auto].
Qed.

Section Layer.
  Context {A : Type} (add mul : A -> A -> A) (zero one : A).
  Context (add_comm : forall a b, add a b = add b a) (add_assoc : forall a b c, add a (add b c) = add (add a b) c) (mul_one : forall a, mul a one = a).
  Context (lib : pystr -> list (tensor A) -> result (tensor A)) (HC : einsum_contract add mul zero one lib).
  Context (iadd : tensor A -> tensor A -> result (tensor A)) (HI : iadd_contract add iadd).
  Context (r : runtime A) (Hok : runtime_ok r) (os os' : nat -> orders) (Hos : forall n, orders_ok (os n)) (Hos' : forall n, orders_ok (os' n)).
  Notation U := (rt_unicode r).
  Context (p wt : pystr) (bt : option pystr) (sizes : list (pystr * Z)) (L R W : expr).
  Context (Hr : reads U p L R) (WW : written U wt W) (PL : plain L) (PR : plain R) (PW : plain W) (Hns : NoDup (map fst sizes)).
  Context (M : einmix (tensor A)) (HM : EinMix U os os' p wt bt sizes = Ok M).

  Lemma layer_ok : mix_ok U bt sizes L R W.
  Proof.
    pose proof (ro_unicode _ Hok) as HU. pose proof (proj1 (reads_split U HU p L R) Hr) as (l & rr & Hs & WL & WR).
    exact (md_ok _ _ _ _ _ _ _ _ _ _ _ _ _ (einmix_made U HU os os' Hos p wt l rr bt sizes L R W Hs WL WR WW PL PR PW Hns M HM)).
  Qed.
  Lemma layer_bias : match bt with None => em_bias M = None | Some t => exists B s, written U t B /\ em_bias M = Some s end.
  Proof.
    pose proof (ro_unicode _ Hok) as HU. pose proof (proj1 (reads_split U HU p L R) Hr) as (l & rr & Hs & WL & WR).
    pose proof (md_bias _ _ _ _ _ _ _ _ _ _ _ _ _ (einmix_made U HU os os' Hos p wt l rr bt sizes L R W Hs WL WR WW PL PR PW Hns M HM)) as H.
    destruct bt as [t|]; [|exact H]. destruct H as (B & F & E). exists B. eexists. split; [apply (bf_written _ _ _ _ _ F)|exact E].
  Qed.
  Lemma layer_NoDup e : NoDup (concat (left_groups e L)) /\ NoDup (concat (right_groups e L R)).
  Proof.
    split; [unfold left_groups|unfold right_groups]; rewrite concat_groups; apply atoms_labels_NoDup.
    - unfold has_dots. destruct (existsb is_dots (atoms L)); auto.
    - exact (keys_NoDup_L U p L R Hr).
    - rewrite (mo_dots _ _ _ _ _ _ layer_ok). unfold has_dots. destruct (existsb is_dots (atoms R)); auto.
    - exact (keys_NoDup_R U p L R Hr).
  Qed.

  Context (e : nat) (len : label -> nat) (shape : list nat).
  Notation gl := (left_groups e L).
  Notation gr := (right_groups e L R).
  Context (Hrank : rank_fits L (length shape) e) (Hfits : fits len gl gr shape sizes).
  Context (Hdiv : forall g, In g gl -> filter (unknown (map fst sizes)) g <> [] -> prodn (map len (filter (fun a => negb (unknown (map fst sizes) a)) g)) <> 0).
  Context (He : em_pre M <> None \/ em_post M <> None -> e < 8).

  Lemma layer_calls : exists B, forall x w b, wf x -> shp x = shape -> wf w -> map Z.of_nat (shp w) = em_weight M -> bias_of (em_bias M) b ->
    exists y, call_einmix r lib iadd M w b x = Ok y /\ mixes add mul zero gl gr W R len x w (option_map (pair B) b) y.
  Proof.
    pose proof layer_bias as Hb. destruct bt as [t|] eqn:Ebt.
    - destruct Hb as (B & s & WB & Eb). exists B. intros x w b Wx Sx Ww Sw Bb. rewrite Eb in Bb. destruct Bb as (b0 & -> & Wb & Sb). subst shape.
      apply (call_mixes add mul zero one add_comm add_assoc mul_one lib HC iadd HI r Hok os os' Hos Hos' p wt (Some t) sizes L R W Hr WW PL PR PW Hns M HM e len x w Wx Ww Hrank Hfits Hdiv He Sw (Some (B, b0))).
      exists B, b0. split; [reflexivity|]. split; [exact WB|]. split; [exact Wb|]. rewrite Eb, Sb. reflexivity.
    - exists []. intros x w b Wx Sx Ww Sw Bb. rewrite Hb in Bb. cbn in Bb. subst b shape.
      apply (call_mixes add mul zero one add_comm add_assoc mul_one lib HC iadd HI r Hok os os' Hos Hos' p wt None sizes L R W Hr WW PL PR PW Hns M HM e len x w Wx Ww Hrank Hfits Hdiv He Sw None). reflexivity.
  Qed.

  Lemma bias_zip_of s b c : bias_of s b -> bias_of s c -> bias_of s (bias_zip add b c) /\ forall B, alike (option_map (pair B) b) (option_map (pair B) c) /\
    option_map (pair B) (bias_zip add b c) = zip_bias add (option_map (pair B) b) (option_map (pair B) c).
  Proof.
    destruct s as [s|]; cbn.
    - intros (b0 & -> & Wb & Sb) (c0 & -> & Wc & Sc). assert (S : shp b0 = shp c0) by (apply shape_eq; congruence). split.
      + exists (t_zip add b0 c0). split; [reflexivity|]. split; [apply t_zip_wf; auto|exact Sb].
      + intros B. split; [|reflexivity]. cbn. auto.
    - intros -> ->. split; [reflexivity|]. intros B. split; [exact I|reflexivity].
  Qed.

  Context (add_zero : forall a, add zero a = a).

  Lemma einmix_inputs (Hd : forall a b c, mul (add a b) c = add (mul a c) (mul b c)) x u w b c : wf x -> wf u -> shp x = shape -> shp u = shape ->
    wf w -> map Z.of_nat (shp w) = em_weight M -> bias_of (em_bias M) b -> bias_of (em_bias M) c ->
    exists y y', call_einmix r lib iadd M w b x = Ok y /\ call_einmix r lib iadd M w c u = Ok y' /\
      call_einmix r lib iadd M w (bias_zip add b c) (t_zip add x u) = Ok (t_zip add y y').
  Proof.
    intros Wx Wu Sx Su Ww Sw Bb Bc. destruct layer_calls as [B H]. destruct (bias_zip_of _ b c Bb Bc) as [Bz Ba]. destruct (Ba B) as [Al Ez].
    destruct (H x w b Wx Sx Ww Sw Bb) as (y & Ey & My). destruct (H u w c Wu Su Ww Sw Bc) as (y' & Ey' & My').
    assert (Wz : wf (t_zip add x u)) by (apply t_zip_wf; auto; congruence).
    destruct (H (t_zip add x u) w _ Wz Sx Ww Sw Bz) as (z & Ez' & Mz).
    exists y, y'. split; [exact Ey|]. split; [exact Ey'|]. rewrite Ez'. f_equal. eapply mixes_unique; [apply (layer_NoDup e)|exact Mz|]. rewrite Ez.
    apply mixes_inputs; auto. congruence.
  Qed.
  Lemma einmix_weights (Hd : forall a b c, mul c (add a b) = add (mul c a) (mul c b)) x w v b c : wf x -> shp x = shape ->
    wf w -> map Z.of_nat (shp w) = em_weight M -> wf v -> map Z.of_nat (shp v) = em_weight M -> bias_of (em_bias M) b -> bias_of (em_bias M) c ->
    exists y y', call_einmix r lib iadd M w b x = Ok y /\ call_einmix r lib iadd M v c x = Ok y' /\
      call_einmix r lib iadd M (t_zip add w v) (bias_zip add b c) x = Ok (t_zip add y y').
  Proof.
    intros Wx Sx Ww Sw Wv Sv Bb Bc. destruct layer_calls as [B H]. destruct (bias_zip_of _ b c Bb Bc) as [Bz Ba]. destruct (Ba B) as [Al Ez].
    destruct (H x w b Wx Sx Ww Sw Bb) as (y & Ey & My). destruct (H x v c Wx Sx Wv Sv Bc) as (y' & Ey' & My').
    assert (S : shp w = shp v) by (apply shape_eq; congruence).
    assert (Wz : wf (t_zip add w v)) by (apply t_zip_wf; auto).
    destruct (H x (t_zip add w v) _ Wx Sx Wz Sw Bz) as (z & Ez' & Mz).
    exists y, y'. split; [exact Ey|]. split; [exact Ey'|]. rewrite Ez'. f_equal. eapply mixes_unique; [apply (layer_NoDup e)|exact Mz|]. rewrite Ez.
    apply mixes_weights; auto.
  Qed.

  Lemma bias_map_of (h : A -> A) s b : bias_of s b -> bias_of s (option_map (t_map h) b) /\ forall B, option_map (pair B) (option_map (t_map h) b) = map_bias h (option_map (pair B) b).
  Proof.
    destruct s as [s|]; cbn; [|intros ->; split; reflexivity]. intros (b0 & -> & Wb & Sb). split; [|reflexivity].
    exists (t_map h b0). split; [reflexivity|]. split; [apply t_map_wf, Wb|exact Sb].
  Qed.
  Lemma einmix_scaled (h : A -> A) x w b : scaling add zero h -> (forall a b, mul (h a) b = h (mul a b)) -> wf x -> shp x = shape ->
    wf w -> map Z.of_nat (shp w) = em_weight M -> bias_of (em_bias M) b ->
    exists y, call_einmix r lib iadd M w b x = Ok y /\ call_einmix r lib iadd M w (option_map (t_map h) b) (t_map h x) = Ok (t_map h y).
  Proof.
    intros Hh Hd Wx Sx Ww Sw Bb. destruct layer_calls as [B H]. destruct (bias_map_of h _ b Bb) as [Bz Ez].
    destruct (H x w b Wx Sx Ww Sw Bb) as (y & Ey & My).
    destruct (H (t_map h x) w _ (t_map_wf h x Wx) Sx Ww Sw Bz) as (z & Ez' & Mz).
    exists y. split; [exact Ey|]. rewrite Ez'. f_equal. eapply mixes_unique; [apply (layer_NoDup e)|exact Mz|]. rewrite Ez. apply mixes_scaled; auto.
  Qed.
  Lemma einmix_scaled' (h : A -> A) x w b : scaling add zero h -> (forall a b, mul a (h b) = h (mul a b)) -> wf x -> shp x = shape ->
    wf w -> map Z.of_nat (shp w) = em_weight M -> bias_of (em_bias M) b ->
    exists y, call_einmix r lib iadd M w b x = Ok y /\ call_einmix r lib iadd M (t_map h w) (option_map (t_map h) b) x = Ok (t_map h y).
  Proof.
    intros Hh Hd Wx Sx Ww Sw Bb. destruct layer_calls as [B H]. destruct (bias_map_of h _ b Bb) as [Bz Ez].
    destruct (H x w b Wx Sx Ww Sw Bb) as (y & Ey & My).
    destruct (H x (t_map h w) _ Wx Sx (t_map_wf h w Ww) Sw Bz) as (z & Ez' & Mz).
    exists y. split; [exact Ey|]. rewrite Ez'. f_equal. eapply mixes_unique; [apply (layer_NoDup e)|exact Mz|]. rewrite Ez. apply mixes_scaled'; auto.
  Qed.
End Layer.

(** ** Transposed layers *)
Section Dot.
  Context {A : Type} (add mul : A -> A -> A) (zero : A) (Hsp : sums_and_products add mul zero).
  Context (mul_comm : forall a b, mul a b = mul b a) (mul_assoc : forall a b c, mul a (mul b c) = mul (mul a b) c).
  Notation sum := (fold_right add zero).
  Notation dot := (inner add mul zero).
  Notation val := (val zero).

  Lemma both_values {X} (f g : X -> option A) l : forall xs ws, map f l = map Some xs -> map g l = map Some ws ->
    map2 mul xs ws = map (fun v => mul (val (f v)) (val (g v))) l.
  Proof.
    induction l as [|v l IH]; intros [|a xs] [|b ws] E1 E2; try discriminate; [reflexivity|]. cbn in *. injection E1 as Ea E1. injection E2 as Eb E2.
    rewrite Ea, Eb, (IH xs ws E1 E2). reflexivity.
  Qed.

  Definition product gl gr (W : expr) len (x w z : tensor A) (ix : label -> nat) : A :=
    mul (mul (val (get x (gindex len ix gl))) (val (get w (map ix (map LName (keys W)))))) (val (get z (gindex len ix gr))).
  Lemma product_ext gl gr W len x w z i j : (forall a, i a = j a) -> product gl gr W len x w z i = product gl gr W len x w z j.
  Proof. intros E. unfold product. rewrite !(gindex_same len i j) by auto. rewrite (map_ext i j) by exact E. reflexivity. Qed.

  Lemma sum_indices_app (F : list nat -> A) l m : sum (map F (indices (l ++ m))) = sum (map (fun i => sum (map (fun j => F (i ++ j)) (indices m))) (indices l)).
  Proof.
    rewrite indices_app, flat_map_concat_map, concat_map, map_map, <- flat_map_concat_map, (sum_flat_map add mul zero Hsp). f_equal. apply map_ext. intros i.
    rewrite map_map. reflexivity.
  Qed.

  Lemma mix_dot gl gr W R len x w y z : NoDup (concat gl) -> NoDup (concat gr) -> mixes add mul zero gl gr W R len x w None y -> wf z -> shp z = gshape len gr ->
    dot y z = sum (map (fun v => product gl gr W len x w z (assign label_eqb (fun _ => 0) (concat gr ++ missing gl gr) v)) (indices (map len (concat gr ++ missing gl gr)))).
  Proof.
    intros Nl Nr (Wy & Sy & Gy) Wz Sz. rewrite (dot_groups add mul zero gr len y z (fun _ => 0)) by auto. set (ms := missing gl gr).
    assert (Nm : NoDup ms) by (apply NoDup_filter; auto).
    assert (D : forall a, In a (concat gr) -> ~ In a ms) by (intros a Ha Hm; apply in_missing in Hm; tauto).
    rewrite map_app, sum_indices_app. f_equal.
    apply map_ext_in. intros i Hin. apply indices_In in Hin. pose proof (inb_length _ _ Hin) as Li. rewrite map_length in Li.
    set (ix := assign label_eqb (fun _ => 0) (concat gr) i).
    pose proof (within_assign label_eqb label_eqb_eq len (fun _ => 0) _ i Nr Hin : within len ix (concat gr)) as Wi.
    destruct (Gy ix Wi) as (xs & ws & E1 & E2 & E3). cbn zeta in E3. rewrite E3. cbn [AdjointFacts.val]. unfold elements, weight_elements in E1, E2.
    rewrite (both_values _ _ _ xs ws E1 E2), mul_comm, <- (mul_sum add mul zero Hsp). f_equal.
    apply map_ext_in. intros j Hj. apply indices_In in Hj.
    assert (E : forall a, assign label_eqb (fun _ => 0) (concat gr ++ ms) (i ++ j) a = assign label_eqb ix ms j a).
    { intros a. apply (assign_app label_eqb label_eqb_eq); auto. }
    rewrite (product_ext gl gr W len x w z _ _ E). unfold product. rewrite mul_comm. f_equal. f_equal. f_equal. apply gindex_same. intros a Ha. symmetry. apply (assign_out label_eqb label_eqb_eq). auto.
  Qed.

  Lemma mixes_adjoint gl gr W R R' len x w y z t : NoDup (concat gl) -> NoDup (concat gr) -> wf x -> shp x = gshape len gl -> wf z -> shp z = gshape len gr ->
    mixes add mul zero gl gr W R len x w None y -> mixes add mul zero gr gl W R' len z w None t -> dot y z = dot x t.
  Proof.
    intros Nl Nr Wx Sx Wz Sz My Mt. rewrite (mix_dot gl gr W R len x w y z Nl Nr My Wz Sz).
    assert (Et : dot x t = dot t x).
    { unfold inner, t_zip. cbn [dat]. f_equal. assert (G : forall l m : list A, map2 mul l m = map2 mul m l).
      { induction l as [|a l IH]; intros [|b m]; try reflexivity. cbn. rewrite mul_comm, IH. reflexivity. } apply G. }
    rewrite Et, (mix_dot gr gl W R' len z w t x Nr Nl Mt Wx Sx).
    assert (P : Permutation (concat gr ++ missing gl gr) (concat gl ++ missing gr gl)).
    { assert (NN : forall a b : list (list label), NoDup (concat a) -> NoDup (concat b) -> NoDup (concat a ++ missing b a)).
      { intros a b Ha Hb. apply NoDup_app_iff. split; [exact Ha|]. split; [apply NoDup_filter, Hb|]. intros c Hc Hm. apply in_missing in Hm. tauto. }
      apply NoDup_Permutation; auto. intros a. rewrite !in_app_iff, !in_missing. destruct (in_dec label_eq_dec a (concat gl)), (in_dec label_eq_dec a (concat gr)); tauto. }
    assert (NN : NoDup (concat gr ++ missing gl gr)).
    { apply NoDup_app_iff. split; [exact Nr|]. split; [apply NoDup_filter, Nl|]. intros c Hc Hm. apply in_missing in Hm. tauto. }
    etransitivity.
    { eapply sum_permutation; [apply (sp_comm _ _ _ Hsp)|apply (sp_assoc _ _ _ Hsp)|].
      apply (reorder_map (product gl gr W len x w z) len (fun _ => 0) _ _ NN P). intros i j E. apply product_ext, E. }
    f_equal. apply map_ext. intros v. unfold product. set (ix := assign _ _ _ _). generalize (val (get x (gindex len ix gl))) as a, (val (get w (map ix (map LName (keys W))))) as b, (val (get z (gindex len ix gr))) as c.
    intros a b c. rewrite (mul_comm (mul a b) c), (mul_comm a b), mul_assoc. reflexivity.
  Qed.
End Dot.

Section Transposed.
  Context {A : Type} (add mul : A -> A -> A) (zero one : A).
  Context (Hsp : sums_and_products add mul zero) (mul_comm : forall a b, mul a b = mul b a) (mul_assoc : forall a b c, mul a (mul b c) = mul (mul a b) c).
  Context (mul_one : forall a, mul a one = a).
  Context (lib : pystr -> list (tensor A) -> result (tensor A)) (HC : einsum_contract add mul zero one lib).
  Context (iadd : tensor A -> tensor A -> result (tensor A)) (HI : iadd_contract add iadd).
  Context (r : runtime A) (Hok : runtime_ok r) (os os' : nat -> orders) (Hos : forall n, orders_ok (os n)) (Hos' : forall n, orders_ok (os' n)).
  Notation U := (rt_unicode r).

  Lemma transposed p p' wt wt' sizes sizes' L R W M M' e len (x z w : tensor A) :
    reads U p L R -> reads U p' R L -> written U wt W -> written U wt' W -> plain L -> plain R -> plain W -> NoDup (map fst sizes) -> NoDup (map fst sizes') ->
    EinMix U os os' p wt None sizes = Ok M -> EinMix U os os' p' wt' None sizes' = Ok M' ->
    wf x -> rank_fits L (length (shp x)) e -> fits len (left_groups e L) (right_groups e L R) (shp x) sizes ->
    wf z -> fits len (left_groups e R) (right_groups e R L) (shp z) sizes' ->
    (forall g, In g (left_groups e L) -> filter (unknown (map fst sizes)) g <> [] -> prodn (map len (filter (fun a => negb (unknown (map fst sizes) a)) g)) <> 0) ->
    (forall g, In g (left_groups e R) -> filter (unknown (map fst sizes')) g <> [] -> prodn (map len (filter (fun a => negb (unknown (map fst sizes') a)) g)) <> 0) ->
    e < 8 -> wf w -> map Z.of_nat (shp w) = em_weight M -> em_weight M' = em_weight M ->
    exists y t, call_einmix r lib iadd M w None x = Ok y /\ call_einmix r lib iadd M' w None z = Ok t /\ shp y = shp z /\ shp t = shp x /\
      inner add mul zero y z = inner add mul zero x t.
  Proof.
    intros Hr Hr' WW WW' PL PR PW Hn Hn' HM HM' Wx Hk Hf Wz Hf' Hd Hd' He Ww Sw Sw'. pose proof (ro_unicode _ Hok) as HU.
    pose proof (layer_ok r Hok os os' Hos p wt None sizes L R W Hr WW PL PR PW Hn M HM) as O.
    pose proof (layer_ok r Hok os os' Hos p' wt' None sizes' R L W Hr' WW' PR PL PW Hn' M' HM') as O'.
    pose proof (layer_NoDup r Hok os os' Hos p wt None sizes L R W Hr WW PL PR PW Hn M HM e) as [Nl Nr].
    pose proof (mo_dots _ _ _ _ _ _ O) as Dd. destruct (mo_numbers _ _ _ _ _ _ O) as [NL NR].
    assert (Er : right_groups e L R = left_groups e R) by (apply right_as_left; auto).
    assert (El : right_groups e R L = left_groups e L) by (apply right_as_left; auto).
    assert (Sz : shp z = gshape len (left_groups e R)) by (symmetry; exact (proj1 Hf')).
    assert (Sx : shp x = gshape len (left_groups e L)) by (symmetry; exact (proj1 Hf)).
    assert (Hk' : rank_fits R (length (shp z)) e).
    { rewrite Sz. eapply next_rank; [exact Hr'| |].
      - pose proof (mo_flat _ _ _ _ _ _ O') as F. apply no_grouped_iff; auto. eapply keys_NoDup_L; eauto.
      - rewrite <- Dd. intros E. apply (rank_zero _ _ _ Hk E). }
    destruct (call_mixes add mul zero one (sp_comm _ _ _ Hsp) (sp_assoc _ _ _ Hsp) mul_one lib HC iadd HI r Hok os os' Hos Hos' p wt None sizes L R W Hr WW PL PR PW Hn M HM e len x w Wx Ww Hk Hf Hd (fun _ => He) Sw None eq_refl) as (y & Ey & My).
    rewrite <- Sw' in Sw.
    destruct (call_mixes add mul zero one (sp_comm _ _ _ Hsp) (sp_assoc _ _ _ Hsp) mul_one lib HC iadd HI r Hok os os' Hos Hos' p' wt' None sizes' R L W Hr' WW' PR PL PW Hn' M' HM' e len z w Wz Ww Hk' Hf' Hd' (fun _ => He) Sw None eq_refl) as (t & Et & Mt).
    rewrite Er in My, Nr. rewrite El in Mt. exists y, t. split; [exact Ey|]. split; [exact Et|].
    split; [rewrite Sz; apply My|]. split; [rewrite Sx; apply Mt|].
    exact (mixes_adjoint add mul zero Hsp mul_comm mul_assoc _ _ W R L len x w y z t Nl Nr Wx Sx Wz Sz My Mt).
  Qed.
End Transposed.
