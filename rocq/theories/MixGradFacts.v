(** * Gradients of the parameters of EinMix *)
From Coq Require Import Permutation.
From Verif Require Import Py Tensor TensorFacts ListFacts SpecSem SpecGrammar SpecEinsum SpecPattern SpecForms SpecOps SpecElements SpecAdjoint SpecLinear Parsing Compile Recipe Ops Backends Api
  ParseFacts ParseFacts2 ParseFacts3 StepFacts FrontFacts FrontFacts2 FrontFacts3 MainFacts MainFacts2 ReduceFacts MainFacts3 CallFacts RelabelFacts ApiFacts ApiFacts2 ApiFacts3 RedFacts Laws
  EinsumFacts3 EinsumLaws2 AdjointFacts Layers Einsum LayerFacts EinMix SpecEinMix MixFacts MixFacts2 MixFacts3 MixFacts4 MixFacts5 MixFacts6 MixFacts7 MixFacts8 MixFacts9 MixLaws MixLaws2 SpecMixGrad.

Lemma in_others axs own a : In a (others axs own) <-> In a axs /\ ~ In a own.
Proof.
  unfold others. rewrite filter_In, negb_true_iff, <- not_true_iff_false, existsb_exists. split; intros [H1 H2]; (split; [exact H1|]); intros X; apply H2.
  - exists a. split; [exact X|apply label_eqb_eq; reflexivity].
  - destruct X as [b [Hb E]]. apply label_eqb_eq in E. subst. exact Hb.
Qed.
Lemma others_NoDup axs own : NoDup axs -> NoDup (others axs own).
Proof. apply NoDup_filter. Qed.

Section Factor.
  Context {A : Type} (add mul : A -> A -> A) (zero : A) (Hsp : sums_and_products add mul zero).
  Notation sum := (fold_right add zero).
  Notation dot := (inner add mul zero).
  Notation val := (val zero).

  Context (len : label -> nat) (N : list label) (gs : list (list label)) (HN : NoDup N) (Hg : NoDup (concat gs)) (Hi : incl (concat gs) N).
  Context (F : (label -> nat) -> A) (HF : forall i j, (forall a, In a N -> i a = j a) -> F i = F j).
  Notation rest := (others N (concat gs)).

  Lemma rest_split a : In a N -> In a (concat gs) \/ In a rest.
  Proof. intros H. destruct (in_dec label_eq_dec a (concat gs)) as [X|X]; [left; exact X|right; apply in_others; auto]. Qed.
  Lemma rest_within ix v : within len ix (concat gs) -> inb (map len rest) v = true -> within len (assign label_eqb ix rest v) N.
  Proof.
    intros Hw Hv a Ha. destruct (in_dec label_eq_dec a rest) as [X|X].
    - apply (within_assign label_eqb label_eqb_eq len ix rest v); auto. apply others_NoDup, HN.
    - rewrite (assign_out label_eqb label_eqb_eq) by exact X. apply Hw. destruct (rest_split a Ha); tauto.
  Qed.

  Definition total (ix : label -> nat) : A := sum (map (fun v => F (assign label_eqb ix rest v)) (indices (map len rest))).
  Lemma total_ext i j : (forall a, In a (concat gs) -> i a = j a) -> total i = total j.
  Proof.
    intros E. unfold total. f_equal. apply map_ext. intros v. apply HF. intros a Ha. unfold assign.
    destruct (index_of label_eqb a rest) as [k|] eqn:Ek; [reflexivity|]. apply E. destruct (rest_split a Ha) as [X|X]; [exact X|].
    destruct (index_of_In label_eqb label_eqb_eq a _ X) as [k Ek']. congruence.
  Qed.

  Lemma factor p g : wf p -> wf g -> shp p = gshape len gs -> shp g = gshape len gs ->
    (forall ix, within len ix (concat gs) -> get g (gindex len ix gs) = Some (total ix)) ->
    sum (map (fun v => mul (val (get p (gindex len (assign label_eqb (fun _ => 0) N v) gs))) (F (assign label_eqb (fun _ => 0) N v))) (indices (map len N))) = dot p g.
  Proof.
    intros Wp Wg Sp Sg G.
    set (h := fun ix => mul (val (get p (gindex len ix gs))) (F ix)).
    assert (Hh : forall i j, (forall a, i a = j a) -> h i = h j).
    { intros i j E. unfold h. rewrite (gindex_same len i j) by auto. rewrite (HF i j) by auto. reflexivity. }
    assert (P : Permutation N (concat gs ++ rest)).
    { apply NoDup_Permutation; [exact HN| |].
      - apply NoDup_app_iff. split; [exact Hg|]. split; [apply others_NoDup, HN|]. intros a Ha Hr. apply in_others in Hr. tauto.
      - intros a. rewrite in_app_iff. split; [apply rest_split|]. intros [X|X]; [apply Hi, X|apply in_others in X; tauto]. }
    transitivity (sum (map (fun v => h (assign label_eqb (fun _ => 0) (concat gs ++ rest) v)) (indices (map len (concat gs ++ rest))))).
    { eapply sum_permutation; [apply (sp_comm _ _ _ Hsp)|apply (sp_assoc _ _ _ Hsp)|]. apply (reorder_map h len (fun _ => 0) _ _ HN P Hh). }
    rewrite map_app, (sum_indices_app add mul zero Hsp), (dot_groups add mul zero gs len p g (fun _ => 0) Hg Wp Wg Sp Sg). f_equal.
    apply map_ext_in. intros i Hin. apply indices_In in Hin. pose proof (inb_length _ _ Hin) as Li. rewrite map_length in Li.
    set (ix := assign label_eqb (fun _ => 0) (concat gs) i).
    assert (Wi : within len ix (concat gs)) by (apply (within_assign label_eqb label_eqb_eq len (fun _ => 0) _ i Hg Hin)).
    rewrite (G ix Wi). cbn [AdjointFacts.val]. unfold total. rewrite <- (mul_sum add mul zero Hsp). f_equal. apply map_ext_in. intros j Hj.
    assert (E : forall a, assign label_eqb (fun _ => 0) (concat gs ++ rest) (i ++ j) a = assign label_eqb ix rest j a).
    { intros a. apply (assign_app label_eqb label_eqb_eq); [exact Li|]. intros X Y. apply in_others in Y. tauto. }
    rewrite (Hh _ _ E). unfold h. f_equal. f_equal. f_equal. apply gindex_same. intros a Ha. apply (assign_out label_eqb label_eqb_eq). intros Y. apply in_others in Y. tauto.
  Qed.
End Factor.

Section Both.
  Context {A : Type} (add mul : A -> A -> A) (zero : A) (Hsp : sums_and_products add mul zero).
  Context (mul_comm : forall a b, mul a b = mul b a) (mul_assoc : forall a b c, mul a (mul b c) = mul (mul a b) c).
  Notation sum := (fold_right add zero).
  Notation dot := (inner add mul zero).
  Notation val := (val zero).

  Lemma sum_plus {X} (f g : X -> A) l : sum (map (fun i => add (f i) (g i)) l) = add (sum (map f l)) (sum (map g l)).
  Proof.
    induction l as [|a l IH]; cbn; [symmetry; apply (sp_zero _ _ _ Hsp)|]. rewrite IH.
    rewrite !(sp_assoc _ _ _ Hsp). f_equal. rewrite <- !(sp_assoc _ _ _ Hsp). f_equal. apply (sp_comm _ _ _ Hsp).
  Qed.

  (** the groups of the two parameters *)
  Definition weight_groups (W : expr) : list (list label) := map (fun s => [LName s]) (keys W).
  Definition bias_groups (B R : expr) : list (list label) := map (fun s => if str_mem s (keys B) then [LName s] else []) (written_names R).
  Lemma concat_weight W : concat (weight_groups W) = weight_axes W.
  Proof. unfold weight_groups, weight_axes. induction (keys W) as [|s l IH]; [reflexivity|]. cbn. rewrite IH. reflexivity. Qed.
  Lemma gshape_weight len W : gshape len (weight_groups W) = map len (weight_axes W).
  Proof. unfold gshape, weight_groups, weight_axes. rewrite !map_map. apply map_ext. intros s. cbn. lia. Qed.
  Lemma gindex_weight len ix W : gindex len ix (weight_groups W) = map ix (weight_axes W).
  Proof. unfold gindex, weight_groups, weight_axes. rewrite !map_map. apply map_ext. intros s. cbn. lia. Qed.
  Lemma concat_bias B R : concat (bias_groups B R) = bias_axes B R.
  Proof.
    unfold bias_groups, bias_axes. induction (written_names R) as [|s l IH]; [reflexivity|]. cbn. destruct (str_mem s (keys B)); cbn; rewrite IH; reflexivity.
  Qed.
  Lemma gshape_bias len B R : gshape len (bias_groups B R) = map (fun s => if str_mem s (keys B) then len (LName s) else 1) (written_names R).
  Proof. unfold gshape, bias_groups. rewrite map_map. apply map_ext. intros s. destruct (str_mem s (keys B)); cbn; lia. Qed.
  Lemma gindex_bias len ix B R : gindex len ix (bias_groups B R) = bias_index B R ix.
  Proof. unfold gindex, bias_groups, bias_index. rewrite map_map. apply map_ext. intros s. destruct (str_mem s (keys B)); cbn; lia. Qed.

  Lemma map2_both {X} (f g : X -> A) l : map2 mul (map f l) (map g l) = map (fun v => mul (f v) (g v)) l.
  Proof. induction l as [|v l IH]; [reflexivity|]. cbn. rewrite IH. reflexivity. Qed.
  (** elements that are there *)
  Lemma elements_there (x : tensor A) len gl axs ix : wf x -> shp x = gshape len gl ->
    (forall v, inb (map len axs) v = true -> within len (assign label_eqb ix axs v) (concat gl)) ->
    elements x len gl axs ix = map Some (map (fun v => val (get x (gindex len (assign label_eqb ix axs v) gl))) (indices (map len axs))).
  Proof.
    intros Wx Sx Hw. unfold elements. rewrite map_map. apply map_ext_in. intros v Hv. apply indices_In in Hv.
    destruct (get_wf x (gindex len (assign label_eqb ix axs v) gl) Wx) as [a Ha]; [rewrite Sx; apply inb_gindex; auto|]. rewrite Ha. reflexivity.
  Qed.

  Lemma weight_part gl gr W len (x z w : tensor A) : NoDup (concat gl) -> NoDup (concat gr) -> NoDup (keys W) -> incl (weight_axes W) (concat gr ++ missing gl gr) ->
    wf x -> shp x = gshape len gl -> wf z -> shp z = gshape len gr -> wf w -> shp w = map len (weight_axes W) ->
    exists g, weight_gradient add mul zero gl gr W len x z g /\
      sum (map (fun v => product mul zero gl gr W len x w z (assign label_eqb (fun _ => 0) (concat gr ++ missing gl gr) v)) (indices (map len (concat gr ++ missing gl gr)))) = dot w g.
  Proof.
    intros Nl Nr NW HW Wx Sx Wz Sz Ww Sw. set (N := concat gr ++ missing gl gr) in *.
    assert (HN : NoDup N).
    { apply NoDup_app_iff. split; [exact Nr|]. split; [apply NoDup_filter, Nl|]. intros c Hc Hm. apply in_missing in Hm. tauto. }
    assert (Il : incl (concat gl) N).
    { intros a Ha. apply in_or_app. destruct (in_dec label_eq_dec a (concat gr)) as [X|X]; [auto|right; apply in_missing; auto]. }
    assert (Ir : incl (concat gr) N) by (intros a Ha; apply in_or_app; auto).
    set (gs := weight_groups W). assert (Cg : concat gs = weight_axes W) by apply concat_weight.
    assert (Hg : NoDup (concat gs)) by (rewrite Cg; unfold weight_axes; apply NoDup_map_inj; [congruence|exact NW]).
    assert (Hi : incl (concat gs) N) by (rewrite Cg; exact HW).
    set (F := fun ix => mul (val (get x (gindex len ix gl))) (val (get z (gindex len ix gr)))).
    assert (HF : forall i j, (forall a, In a N -> i a = j a) -> F i = F j).
    { intros i j E. unfold F. rewrite (gindex_same len i j gl), (gindex_same len i j gr) by auto. reflexivity. }
    destruct (filled len gs (total add zero len N gs F) Hg (total_ext add zero len N gs F HF)) as (g & Wg & Sg & Gg).
    exists g. split.
    - split; [exact Wg|]. split; [rewrite Sg; apply gshape_weight|]. intros ix Hix. cbv zeta.
      assert (Hr : forall v, inb (map len (others N (weight_axes W))) v = true -> within len (assign label_eqb ix (others N (weight_axes W)) v) N).
      { rewrite <- Cg. intros v. apply (rest_within len N gs HN). rewrite Cg. exact Hix. }
      eexists. eexists. split; [apply elements_there; [exact Wx|exact Sx|]; intros v Hv a Ha; exact (Hr v Hv a (Il a Ha))|].
      split; [apply elements_there; [exact Wz|exact Sz|]; intros v Hv a Ha; exact (Hr v Hv a (Ir a Ha))|].
      rewrite <- (gindex_weight len ix W). fold gs. rewrite (Gg ix) by (rewrite Cg; exact Hix). f_equal. unfold total. rewrite Cg. f_equal.
      unfold F. symmetry. apply map2_both.
    - rewrite <- (factor add mul zero Hsp len N gs HN Hg Hi F HF w g Ww Wg); [|rewrite Sw; symmetry; apply gshape_weight|exact Sg|exact Gg].
      f_equal. apply map_ext. intros v. unfold product, F. set (ix := assign _ _ _ _). unfold gs. rewrite gindex_weight. fold (weight_axes W).
      rewrite (mul_comm (val (get x (gindex len ix gl)))), mul_assoc. reflexivity.
  Qed.

  Lemma bias_part gr B R len (z b : tensor A) : NoDup (concat gr) -> NoDup (bias_axes B R) -> incl (bias_axes B R) (concat gr) ->
    wf z -> shp z = gshape len gr -> wf b -> shp b = map (fun s => if str_mem s (keys B) then len (LName s) else 1) (written_names R) ->
    exists g, bias_gradient add zero gr B R len z g /\
      sum (map (fun v => mul (val (get b (bias_index B R (assign label_eqb (fun _ => 0) (concat gr) v)))) (val (get z (gindex len (assign label_eqb (fun _ => 0) (concat gr) v) gr))))
             (indices (map len (concat gr)))) = dot b g.
  Proof.
    intros Nr NB HB Wz Sz Wb Sb. set (N := concat gr) in *. set (gs := bias_groups B R). assert (Cg : concat gs = bias_axes B R) by apply concat_bias.
    assert (Hg : NoDup (concat gs)) by (rewrite Cg; exact NB).
    assert (Hi : incl (concat gs) N) by (rewrite Cg; exact HB).
    set (F := fun ix => val (get z (gindex len ix gr))).
    assert (HF : forall i j, (forall a, In a N -> i a = j a) -> F i = F j).
    { intros i j E. unfold F. rewrite (gindex_same len i j gr) by auto. reflexivity. }
    destruct (filled len gs (total add zero len N gs F) Hg (total_ext add zero len N gs F HF)) as (g & Wg & Sg & Gg).
    exists g. split.
    - split; [exact Wg|]. split; [rewrite Sg; apply gshape_bias|]. intros ix Hix.
      assert (Hr : forall v, inb (map len (others N (bias_axes B R))) v = true -> within len (assign label_eqb ix (others N (bias_axes B R)) v) N).
      { rewrite <- Cg. intros v. apply (rest_within len N gs Nr). rewrite Cg. exact Hix. }
      eexists. split; [apply elements_there; [exact Wz|exact Sz|]; exact Hr|].
      rewrite <- (gindex_bias len ix B R). fold gs. rewrite (Gg ix) by (rewrite Cg; exact Hix). f_equal. unfold total. rewrite Cg. reflexivity.
    - rewrite <- (factor add mul zero Hsp len N gs Nr Hg Hi F HF b g Wb Wg); [|rewrite Sb; symmetry; apply gshape_bias|exact Sg|exact Gg].
      f_equal. apply map_ext. intros v. unfold F, gs. rewrite gindex_bias. reflexivity.
  Qed.

  (** a layer with bias: the sum and the bias apart *)
  Lemma mix_dot_bias gl gr W R B len x w b y z : NoDup (concat gl) -> NoDup (concat gr) -> mixes add mul zero gl gr W R len x w (Some (B, b)) y -> wf z -> shp z = gshape len gr ->
    dot y z = add
      (sum (map (fun v => product mul zero gl gr W len x w z (assign label_eqb (fun _ => 0) (concat gr ++ missing gl gr) v)) (indices (map len (concat gr ++ missing gl gr)))))
      (sum (map (fun v => mul (val (get b (bias_index B R (assign label_eqb (fun _ => 0) (concat gr) v)))) (val (get z (gindex len (assign label_eqb (fun _ => 0) (concat gr) v) gr))))
             (indices (map len (concat gr))))).
  Proof.
    intros Nl Nr (Wy & Sy & Gy) Wz Sz. rewrite (dot_groups add mul zero gr len y z (fun _ => 0)) by auto. set (ms := missing gl gr).
    assert (Nm : NoDup ms) by (apply NoDup_filter; auto).
    assert (D : forall a, In a (concat gr) -> ~ In a ms) by (intros a Ha Hm; apply in_missing in Hm; tauto).
    rewrite map_app, (sum_indices_app add mul zero Hsp), <- sum_plus. f_equal.
    apply map_ext_in. intros i Hin. apply indices_In in Hin. pose proof (inb_length _ _ Hin) as Li. rewrite map_length in Li.
    set (ix := assign label_eqb (fun _ => 0) (concat gr) i).
    pose proof (within_assign label_eqb label_eqb_eq len (fun _ => 0) _ i Nr Hin : within len ix (concat gr)) as Wi.
    destruct (Gy ix Wi) as (xs & ws & E1 & E2 & E3). cbn zeta in E3. destruct E3 as (c & Ec & E3). rewrite E3, Ec. cbn [AdjointFacts.val]. unfold elements, weight_elements in E1, E2.
    rewrite (both_values mul zero _ _ _ xs ws E1 E2), mul_comm, (sp_distr _ _ _ Hsp), (mul_comm _ c). f_equal. rewrite <- (mul_sum add mul zero Hsp). f_equal.
    apply map_ext_in. intros j Hj. apply indices_In in Hj.
    assert (E : forall a, assign label_eqb (fun _ => 0) (concat gr ++ ms) (i ++ j) a = assign label_eqb ix ms j a).
    { intros a. apply (assign_app label_eqb label_eqb_eq); auto. }
    rewrite (product_ext mul zero gl gr W len x w z _ _ E). unfold product. rewrite mul_comm. f_equal. f_equal. f_equal. apply gindex_same. intros a Ha. symmetry. apply (assign_out label_eqb label_eqb_eq). auto.
  Qed.
End Both.

Section Unique.
  Context {A : Type} (add mul : A -> A -> A) (zero : A).
  Lemma weight_gradient_unique gl gr W len (x z g g' : tensor A) : NoDup (keys W) ->
    weight_gradient add mul zero gl gr W len x z g -> weight_gradient add mul zero gl gr W len x z g' -> g = g'.
  Proof.
    intros Nw (Wg & Sg & Gg) (Wg' & Sg' & Gg').
    assert (N : NoDup (concat (weight_groups W))) by (rewrite concat_weight; apply NoDup_map_inj; [congruence|exact Nw]).
    apply (grepr_unique label_eqb label_eqb_eq g g' (weight_groups W) len (fun ix => getr g (gindex len ix (weight_groups W))) N).
    - split; [exact Wg|]. split; [rewrite gshape_weight; exact Sg|reflexivity].
    - split; [exact Wg'|]. split; [rewrite gshape_weight; exact Sg'|]. intros ix Hix. rewrite concat_weight in Hix. unfold getr. f_equal. rewrite !gindex_weight.
      destruct (Gg ix Hix) as (xs & zs & E1 & E2 & E3). destruct (Gg' ix Hix) as (xs' & zs' & F1 & F2 & F3). rewrite E1 in F1. rewrite E2 in F2. apply map_Some_eq in F1, F2. subst. congruence.
  Qed.
  Lemma bias_gradient_unique gr B R len (z g g' : tensor A) : NoDup (keys R) ->
    bias_gradient add zero gr B R len z g -> bias_gradient add zero gr B R len z g' -> g = g'.
  Proof.
    intros Nr (Wg & Sg & Gg) (Wg' & Sg' & Gg').
    assert (N : NoDup (concat (bias_groups B R))) by (rewrite concat_bias; unfold bias_axes; apply NoDup_map_inj; [congruence|do 2 apply NoDup_filter; exact Nr]).
    apply (grepr_unique label_eqb label_eqb_eq g g' (bias_groups B R) len (fun ix => getr g (gindex len ix (bias_groups B R))) N).
    - split; [exact Wg|]. split; [rewrite gshape_bias; exact Sg|reflexivity].
    - split; [exact Wg'|]. split; [rewrite gshape_bias; exact Sg'|]. intros ix Hix. rewrite concat_bias in Hix. unfold getr. f_equal. rewrite !gindex_bias.
      destruct (Gg ix Hix) as (zs & E2 & E3). destruct (Gg' ix Hix) as (zs' & F2 & F3). rewrite E2 in F2. apply map_Some_eq in F2. subst. congruence.
  Qed.
  Lemma inner_zip (Hsp : sums_and_products add mul zero) (mul_comm : forall a b, mul a b = mul b a) (y y' z : tensor A) : length (dat y) = length (dat y') -> length (dat y) = length (dat z) ->
    inner add mul zero (t_zip add y y') z = add (inner add mul zero y z) (inner add mul zero y' z).
  Proof.
    unfold inner, t_zip. cbn [dat]. generalize (dat y) (dat y') (dat z). clear y y' z. induction l as [|a l IH]; intros [|b m] [|c n] H1 H2; try discriminate; cbn.
    - symmetry. apply (sp_zero _ _ _ Hsp).
    - injection H1 as H1. injection H2 as H2. rewrite (IH m n H1 H2), (mul_comm (add a b) c), (sp_distr _ _ _ Hsp), (mul_comm c a), (mul_comm c b).
      pose proof (sp_comm _ _ _ Hsp) as C. pose proof (sp_assoc _ _ _ Hsp) as S. rewrite <- !S. f_equal. rewrite !S. f_equal. apply C.
  Qed.
End Unique.

Section Layer.
  Context {A : Type} (add mul : A -> A -> A) (zero one : A).
  Context (Hsp : sums_and_products add mul zero) (mul_comm : forall a b, mul a b = mul b a) (mul_assoc : forall a b c, mul a (mul b c) = mul (mul a b) c).
  Context (mul_one : forall a, mul a one = a).
  Context (lib : pystr -> list (tensor A) -> result (tensor A)) (HC : einsum_contract add mul zero one lib).
  Context (iadd : tensor A -> tensor A -> result (tensor A)) (HI : iadd_contract add iadd).
  Context (r : runtime A) (Hok : runtime_ok r) (os os' : nat -> orders) (Hos : forall n, orders_ok (os n)) (Hos' : forall n, orders_ok (os' n)).
  Notation U := (rt_unicode r).

  Lemma parameter_gradients p wt bt sizes L R W M e len (x z w : tensor A) b :
    reads U p L R -> written U wt W -> plain L -> plain R -> plain W -> NoDup (map fst sizes) ->
    EinMix U os os' p wt bt sizes = Ok M ->
    wf x -> rank_fits L (length (shp x)) e -> fits len (left_groups e L) (right_groups e L R) (shp x) sizes ->
    (forall g, In g (left_groups e L) -> filter (unknown (map fst sizes)) g <> [] -> prodn (map len (filter (fun a => negb (unknown (map fst sizes) a)) g)) <> 0) ->
    (em_pre M <> None \/ em_post M <> None -> e < 8) ->
    wf w -> map Z.of_nat (shp w) = em_weight M -> bias_of (em_bias M) b ->
    exists y, call_einmix r lib iadd M w b x = Ok y /\ (wf z -> shp z = shp y -> exists gw,
      weight_gradient add mul zero (left_groups e L) (right_groups e L R) W len x z gw /\ shp gw = shp w /\
      match b with
      | None => inner add mul zero y z = inner add mul zero w gw
      | Some b => exists text B gb, bt = Some text /\ written U text B /\ bias_gradient add zero (right_groups e L R) B R len z gb /\ shp gb = shp b /\
          inner add mul zero y z = add (inner add mul zero w gw) (inner add mul zero b gb)
      end).
  Proof.
    intros Hr WW PL PR PW Hn HM Wx Hk Hf Hd He Ww Sw Bb. pose proof (ro_unicode _ Hok) as HU.
    pose proof (proj1 (reads_split U HU p L R) Hr) as (l & rr & Hsplit & WL & WR).
    pose proof (einmix_made U HU os os' Hos p wt l rr bt sizes L R W Hsplit WL WR WW PL PR PW Hn M HM) as HMd.
    pose proof (md_ok _ _ _ _ _ _ _ _ _ _ _ _ _ HMd) as O. pose proof (md_parse _ _ _ _ _ _ _ _ _ _ _ _ _ HMd) as Hpo.
    pose proof (layer_NoDup r Hok os os' Hos p wt bt sizes L R W Hr WW PL PR PW Hn M HM e) as [Nl Nr].
    assert (Sx : shp x = gshape len (left_groups e L)) by (symmetry; exact (proj1 Hf)).
    pose proof (proj2 (proj2 Hf)) as Hlen.
    assert (Sw' : shp w = map len (weight_axes W)).
    { apply (map_inj Z.of_nat Nat2Z.inj). unfold weight_axes. rewrite Sw, (md_weight _ _ _ _ _ _ _ _ _ _ _ _ _ HMd), !map_map. apply map_ext_in. intros s Hin. symmetry. apply Hlen, size_in, (mo_sized _ _ _ _ _ _ O), Hin. }
    pose proof (concat_gl _ _ _ _ _ _ _ _ _ _ _ _ PL M HMd e) as CL. pose proof (concat_gr _ _ _ _ _ _ _ _ _ _ _ _ PR M HMd e) as CR.
    assert (HW : incl (weight_axes W) (concat (right_groups e L R) ++ missing (left_groups e L) (right_groups e L R))).
    { intros a Ha. apply in_map_iff in Ha as (s & <- & Hin). apply in_or_app.
      assert (Hs' : s <> ell_name) by exact (no_ell_W W PW (mo_weight _ _ _ _ _ _ O) s Hin).
      destruct (in_dec str_eq_dec s (keys R)) as [X|X].
      - left. rewrite CR. apply in_name; [exact PR|auto].
      - right. apply in_missing. rewrite CL, CR. split; [|intros Y; apply in_name in Y; [tauto|exact PR]].
        apply in_name; [exact PL|]. split; [|exact Hs']. pose proof (mo_needed _ _ _ _ _ _ O s Hin) as Y. apply in_app_or in Y. tauto. }
    pose proof (md_bias _ _ _ _ _ _ _ _ _ _ _ _ _ HMd) as Hmb. destruct b as [b|].
    - destruct bt as [text|]; [|rewrite Hmb in Bb; discriminate]. destruct Hmb as (B & HB & EB). rewrite EB in Bb. destruct Bb as (b0 & E0 & Wb & Sb). injection E0 as <-.
      destruct (call_mixes add mul zero one (sp_comm _ _ _ Hsp) (sp_assoc _ _ _ Hsp) mul_one lib HC iadd HI r Hok os os' Hos Hos' p wt (Some text) sizes L R W Hr WW PL PR PW Hn M HM e len x w Wx Ww Hk Hf Hd He Sw (Some (B, b))) as (y & Ey & My).
      { exists B, b. split; [reflexivity|]. split; [apply (bf_written _ _ _ _ _ HB)|]. split; [exact Wb|]. rewrite EB, Sb. reflexivity. }
      exists y. split; [exact Ey|]. intros Wz Sz. pose proof (proj1 (proj2 My)) as Sy. rewrite Sy in Sz.
      destruct (weight_part add mul zero Hsp mul_comm mul_assoc _ _ W len x z w Nl Nr (written_NoDup _ _ _ WW) HW Wx Sx Wz Sz Ww Sw') as (gw & Gw & Ew).
      assert (Sb' : shp b = map (fun s => if str_mem s (keys B) then len (LName s) else 1) (written_names R)).
      { apply (map_inj Z.of_nat Nat2Z.inj). rewrite Sb, map_map. apply map_ext_in. intros s Hin. unfold bias_dim. destruct (str_mem s (keys B)) eqn:Em; [|reflexivity].
        apply str_mem_In in Em. symmetry. apply Hlen, size_in, (bf_sized _ _ _ _ _ HB), Em. }
      destruct (bias_part add mul zero Hsp (right_groups e L R) B R len z b Nr) as (gb & Gb & Eb); try assumption.
      { unfold bias_axes. apply NoDup_map_inj; [congruence|]. do 2 apply NoDup_filter. exact (written_NoDup _ _ _ WR). }
      { intros a Ha. apply in_map_iff in Ha as (s & <- & Hin). apply filter_In in Hin as [Hin _]. apply filter_In in Hin as [Hin Hs']. rewrite CR. apply in_name; [exact PR|]. split; [exact Hin|].
        intros ->. rewrite str_eqb_refl in Hs'. discriminate. }
      exists gw. split; [exact Gw|]. split; [rewrite Sw'; apply Gw|]. exists text, B, gb. split; [reflexivity|]. split; [apply (bf_written _ _ _ _ _ HB)|]. split; [exact Gb|].
      split; [rewrite Sb'; apply Gb|].
      rewrite (mix_dot_bias add mul zero Hsp mul_comm _ _ W R B len x w b y z Nl Nr My Wz Sz), Ew, Eb. reflexivity.
    - destruct bt as [text|]; [destruct Hmb as (B & HB & EB); rewrite EB in Bb; destruct Bb as (b0 & E0 & _); discriminate|].
      destruct (call_mixes add mul zero one (sp_comm _ _ _ Hsp) (sp_assoc _ _ _ Hsp) mul_one lib HC iadd HI r Hok os os' Hos Hos' p wt None sizes L R W Hr WW PL PR PW Hn M HM e len x w Wx Ww Hk Hf Hd He Sw None eq_refl) as (y & Ey & My).
      exists y. split; [exact Ey|]. intros Wz Sz. pose proof (proj1 (proj2 My)) as Sy. rewrite Sy in Sz.
      destruct (weight_part add mul zero Hsp mul_comm mul_assoc _ _ W len x z w Nl Nr (written_NoDup _ _ _ WW) HW Wx Sx Wz Sz Ww Sw') as (gw & Gw & Ew).
      exists gw. split; [exact Gw|]. split; [rewrite Sw'; apply Gw|]. rewrite (mix_dot add mul zero Hsp mul_comm _ _ W R len x w y z Nl Nr My Wz Sz), Ew. reflexivity.
  Qed.
  Lemma parameter_change p wt bt sizes L R W M e len (x z w v : tensor A) b c :
    reads U p L R -> written U wt W -> plain L -> plain R -> plain W -> NoDup (map fst sizes) ->
    EinMix U os os' p wt bt sizes = Ok M ->
    wf x -> rank_fits L (length (shp x)) e -> fits len (left_groups e L) (right_groups e L R) (shp x) sizes ->
    (forall g, In g (left_groups e L) -> filter (unknown (map fst sizes)) g <> [] -> prodn (map len (filter (fun a => negb (unknown (map fst sizes) a)) g)) <> 0) ->
    (em_pre M <> None \/ em_post M <> None -> e < 8) ->
    wf w -> map Z.of_nat (shp w) = em_weight M -> wf v -> map Z.of_nat (shp v) = em_weight M -> bias_of (em_bias M) b -> bias_of (em_bias M) c ->
    exists y y', call_einmix r lib iadd M w b x = Ok y /\ call_einmix r lib iadd M (t_zip add w v) (bias_zip add b c) x = Ok y' /\ shp y' = shp y /\
      (wf z -> shp z = shp y -> forall gw, weight_gradient add mul zero (left_groups e L) (right_groups e L R) W len x z gw ->
      match c with
      | None => inner add mul zero y' z = add (inner add mul zero y z) (inner add mul zero v gw)
      | Some c => forall text B gb, bt = Some text -> written U text B -> bias_gradient add zero (right_groups e L R) B R len z gb ->
          inner add mul zero y' z = add (inner add mul zero y z) (add (inner add mul zero v gw) (inner add mul zero c gb))
      end).
  Proof.
    intros Hr WW PL PR PW Hn HM Wx Hk Hf Hd He Ww Sw Wv Sv Bb Bc. pose proof (ro_unicode _ Hok) as HU.
    destruct (einmix_weights add mul zero one (sp_comm _ _ _ Hsp) (sp_assoc _ _ _ Hsp) mul_one lib HC iadd HI r Hok os os' Hos Hos' p wt bt sizes L R W Hr WW PL PR PW Hn M HM e len (shp x) Hk Hf Hd He
      (sp_zero _ _ _ Hsp) (fun a b c => sp_distr _ _ _ Hsp c a b) x w v b c Wx eq_refl Ww Sw Wv Sv Bb Bc) as (y & y2 & Ey & Ey2 & Ez).
    exists y, (t_zip add y y2). split; [exact Ey|]. split; [exact Ez|]. split; [reflexivity|]. intros Wz Sz gw Gw.
    destruct (layer_calls add mul zero one (sp_comm _ _ _ Hsp) (sp_assoc _ _ _ Hsp) mul_one lib HC iadd HI r Hok os os' Hos Hos' p wt bt sizes L R W Hr WW PL PR PW Hn M HM e len (shp x) Hk Hf Hd He) as [B0 Hcalls].
    destruct (Hcalls x w b Wx eq_refl Ww Sw Bb) as (y_ & Ey_ & My). rewrite Ey in Ey_. injection Ey_ as <-.
    destruct (Hcalls x v c Wx eq_refl Wv Sv Bc) as (y_ & Ey_ & My2). rewrite Ey2 in Ey_. injection Ey_ as <-.
    assert (S : shp y2 = shp y) by (destruct My as (_ & -> & _), My2 as (_ & -> & _); reflexivity).
    assert (Wy : wf y) by apply My. assert (Wy2 : wf y2) by apply My2.
    rewrite (inner_zip add mul zero Hsp mul_comm); [|unfold wf in *; congruence|unfold wf in *; congruence].
    destruct (parameter_gradients p wt bt sizes L R W M e len x z v c Hr WW PL PR PW Hn HM Wx Hk Hf Hd He Wv Sv Bc) as (y_ & Ey_ & H). rewrite Ey2 in Ey_. injection Ey_ as <-.
    destruct H as (gw' & Gw' & _ & H); [exact Wz|congruence|].
    rewrite (weight_gradient_unique add mul zero _ _ _ _ _ _ _ _ (written_NoDup _ _ _ WW) Gw Gw') in *.
    destruct c as [c|]; [|rewrite H; reflexivity]. intros text B gb Et HB Gb. destruct H as (text' & B' & gb' & Et' & HB' & Gb' & _ & H).
    assert (text' = text) as -> by congruence. assert (B' = B) as -> by exact (written_fun _ _ _ _ _ _ HU HB' HB).
    pose proof (proj1 (reads_split U HU p L R) Hr) as (l & rr & Hsplit & WL & WR).
    rewrite (bias_gradient_unique add zero _ _ _ _ _ _ _ (written_NoDup _ _ _ WR) Gb Gb'), H. reflexivity.
  Qed.
End Layer.

Lemma gradients_unique {A} U (add mul : A -> A -> A) (zero : A) gl gr text text' W B R len (x z g g' : tensor A) : written U text W -> written U text' R ->
  (weight_gradient add mul zero gl gr W len x z g -> weight_gradient add mul zero gl gr W len x z g' -> g = g') /\
  (bias_gradient add zero gr B R len z g -> bias_gradient add zero gr B R len z g' -> g = g').
Proof.
  intros HW HR. split.
  - apply weight_gradient_unique, (written_NoDup _ _ _ HW).
  - apply bias_gradient_unique, (written_NoDup _ _ _ HR).
Qed.

Lemma elements_agree {A} (x : tensor A) len gl axs ix ix' : (forall a, In a (concat gl) -> In a axs \/ ix a = ix' a) -> elements x len gl axs ix = elements x len gl axs ix'.
Proof.
  intros H. unfold elements. apply map_ext. intros v. f_equal. apply gindex_same. intros a Ha. apply (assign_ext label_eqb label_eqb_eq). intros Hn.
  destruct (H a Ha) as [X|X]; [contradiction|exact X].
Qed.
