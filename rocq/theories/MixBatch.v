(** * EinMix: one more axis on both sides *)
From Verif Require Import Py Tensor TensorFacts ListFacts SpecSem SpecGrammar SpecEinsum SpecPattern SpecForms SpecOps SpecElements SpecBatch SpecBatches SpecLinear Parsing Compile Recipe Ops Backends Api
  ParseFacts ParseFacts2 ParseFacts3 StepFacts FrontFacts MainFacts UnitLaws BatchFacts PackBatch EinsumFacts3 Layers Einsum LayerFacts EinMix SpecEinMix MixFacts MixFacts5 MixFacts7 MixFacts8 MixFacts9 MixLaws MixLaws2.

Lemma slice_shp' {A} k i (T t : tensor A) s1 d s2 : slice_of k i T t -> shp T = s1 ++ d :: s2 -> length s1 = k -> shp t = s1 ++ s2 /\ i < d.
Proof. exact (slice_shp k i T t s1 d s2). Qed.

Section Formula.
  Context {A : Type} (add mul : A -> A -> A) (zero : A).
  Context (g1 g2 h1 h2 : list (list label)) (b : pystr) (len : label -> nat) (W R1 R2 : expr).
  Notation a := (LName b).
  Notation it := (Atom (AName b)).
  Hypothesis Hb : b <> ell_name.
  Hypothesis Hl : ~ In a (concat (g1 ++ g2)).
  Hypothesis Hr : ~ In a (concat (h1 ++ h2)).
  Hypothesis HW : ~ In b (keys W).

  Lemma written_names_more : written_names (R1 ++ it :: R2) = written_names R1 ++ b :: written_names R2.
  Proof.
    unfold written_names. rewrite more_keys_list, filter_app. cbn [filter]. destruct (str_eqb b ell_name) eqn:E; [apply str_eqb_eq in E; contradiction|reflexivity].
  Qed.
  Lemma written_names_less : written_names (R1 ++ R2) = written_names R1 ++ written_names R2.
  Proof. unfold written_names. now rewrite keys_split, filter_app. Qed.
  Lemma bias_index_more B ix : ~ In b (keys B) -> bias_index B (R1 ++ it :: R2) ix =
    firstn (length (written_names R1)) (bias_index B (R1 ++ R2) ix) ++ 0 :: skipn (length (written_names R1)) (bias_index B (R1 ++ R2) ix).
  Proof.
    intros HB. unfold bias_index. rewrite written_names_more, written_names_less, !map_app. cbn [map].
    replace (str_mem b (keys B)) with false by (symmetry; apply not_true_is_false; rewrite str_mem_In; exact HB).
    rewrite <- (map_length (fun s => if str_mem s (keys B) then ix (LName s) else 0) (written_names R1)). now rewrite ins_app.
  Qed.
  Lemma bias_index_put B ix i : ~ In b (keys B) -> bias_index B (R1 ++ R2) (put a ix i) = bias_index B (R1 ++ R2) ix.
  Proof.
    intros HB. unfold bias_index. apply map_ext. intros s. destruct (str_mem s (keys B)) eqn:E; [|reflexivity]. apply put_other. intros X. injection X as ->. apply str_mem_In in E. contradiction.
  Qed.
  Lemma weight_put (w : tensor A) axs ix i : weight_elements w W len axs (put a ix i) = weight_elements w W len axs ix.
  Proof.
    unfold weight_elements. apply map_ext. intros v. f_equal. apply map_ext_in. intros c Hc. unfold assign. destruct (index_of label_eqb c axs); [reflexivity|].
    apply put_other. intros ->. apply in_map_iff in Hc as (s & E & Hs). injection E as ->. contradiction.
  Qed.

  Lemma mixes_slice (X x Y y w : tensor A) i (c c' : option (expr * tensor A)) :
    slice_of (length g1) i X x -> shp x = gshape len (g1 ++ g2) -> i < len a ->
    slice_of (length h1) i Y y -> shp y = gshape len (h1 ++ h2) ->
    match c', c with
    | None, None => True
    | Some (B', t'), Some (B, t) => B' = B /\ ~ In b (keys B) /\ slice_of (length (written_names R1)) 0 t' t /\ length (shp t) = length (written_names (R1 ++ R2))
    | _, _ => False
    end ->
    mixes add mul zero (g1 ++ [a] :: g2) (h1 ++ [a] :: h2) W (R1 ++ it :: R2) len X w c' Y ->
    mixes add mul zero (g1 ++ g2) (h1 ++ h2) W (R1 ++ R2) len x w c y.
  Proof.
    intros SX Ex Hi SY Ey Hc (_ & _ & M). split; [apply SY|]. split; [exact Ey|]. intros ix Hix.
    destruct (M (put a ix i)) as (xs & ws & M1 & M2 & M3).
    { intros l Hin. rewrite in_more in Hin. destruct (label_eq_dec l a) as [->|Hne]; [now rewrite put_at|]. rewrite put_other by exact Hne. apply Hix. tauto. }
    exists xs, ws. rewrite missing_more in M1, M2 by assumption. cbn zeta in *.
    rewrite (elements_slice g1 g2 h1 h2 a len Hl X x) in M1; [|now rewrite put_at|exact Ex]. rewrite elements_put in M1 by exact Hl. rewrite weight_put in M2.
    split; [exact M1|]. split; [exact M2|].
    rewrite (get_slice a len h1 h2 Y y) in M3; [|now rewrite put_at|exact Ey]. rewrite gindex_put in M3 by exact Hr.
    destruct c' as [[B' t']|]; destruct c as [[B t]|]; try contradiction; [|exact M3].
    destruct Hc as (-> & HB & St & Lt). destruct M3 as (u & U1 & U2). exists u. split; [|exact U2].
    rewrite bias_index_more, bias_index_put in U1 by exact HB. destruct St as (_ & _ & _ & _ & G). rewrite G; [exact U1|].
    unfold bias_index. now rewrite map_length, Lt.
  Qed.
End Formula.

Section Layer.
  Context {A : Type} (add mul : A -> A -> A) (zero one : A).
  Context (add_comm : forall a b, add a b = add b a) (add_assoc : forall a b c, add a (add b c) = add (add a b) c) (mul_one : forall a, mul a one = a).
  Context (lib : pystr -> list (tensor A) -> result (tensor A)) (HC : einsum_contract add mul zero one lib).
  Context (iadd : tensor A -> tensor A -> result (tensor A)) (HI : iadd_contract add iadd).
  Context (r : runtime A) (Hok : runtime_ok r) (os os' : nat -> orders) (Hos : forall n, orders_ok (os n)) (Hos' : forall n, orders_ok (os' n)).
  Notation U := (rt_unicode r).
  Context (b p p' wt : pystr) (bt : option pystr) (sizes : list (pystr * Z)) (L1 L2 R1 R2 W : expr).
  Notation it := (Atom (AName b)).
  Notation L := (L1 ++ L2).
  Notation R := (R1 ++ R2).
  Notation L' := (L1 ++ it :: L2).
  Notation R' := (R1 ++ it :: R2).
  Context (Hb : b <> ell_name) (Hp : reads U p L R) (Hp' : reads U p' L' R') (Hsz : ~ In b (map fst sizes)).
  Context (WW : written U wt W) (PL : plain L) (PR : plain R) (PL' : plain L') (PR' : plain R') (PW : plain W) (Hns : NoDup (map fst sizes)).
  Context (M M' : einmix (tensor A)) (HM : EinMix U os os' p wt bt sizes = Ok M) (HM' : EinMix U os os' p' wt bt sizes = Ok M').
  Context (e : nat) (len : label -> nat).
  Notation g1 := (groups (has_dots L) e 0 L1).
  Notation g2 := (groups (has_dots L) e (nbig (atoms L1)) L2).
  Notation h1 := (groups (has_dots L) e (nbig (atoms L)) R1).
  Notation h2 := (groups (has_dots L) e (nbig (atoms L) + nbig (atoms R1)) R2).

  Theorem einmix_batch X x w (c c' : option (tensor A)) i :
    rank_fits L (length (shp x)) e -> fits len (left_groups e L') (right_groups e L' R') (shp X) sizes ->
    (forall g, In g (left_groups e L') -> filter (unknown (map fst sizes)) g <> [] -> prodn (map len (filter (fun a => negb (unknown (map fst sizes) a)) g)) <> 0) ->
    (em_pre M <> None \/ em_post M <> None -> e < 8) -> (em_pre M' <> None \/ em_post M' <> None -> e < 8) ->
    slice_of (length (left_groups e L1)) i X x -> wf w -> map Z.of_nat (shp w) = em_weight M' ->
    bias_of (em_bias M') c' -> bias_more (length (written_names R1)) c' c ->
    map Z.of_nat (shp w) = em_weight M /\ bias_of (em_bias M) c /\
    exists Y y, call_einmix r lib iadd M' w c' X = Ok Y /\ call_einmix r lib iadd M w c x = Ok y /\
      slice_of (length (right_groups e L R1)) i Y y /\ count_at (length (right_groups e L R1)) Y = count_at (length (left_groups e L1)) X.
  Proof.
    intros Hrk Hf Hd He He' SX Ww Sw Bc Bm.
    pose proof (ro_unicode _ Hok) as HU.
    pose proof (layer_ok r Hok os os' Hos p wt bt sizes L R W Hp WW PL PR PW Hns M HM) as OK.
    pose proof (layer_ok r Hok os os' Hos p' wt bt sizes L' R' W Hp' WW PL' PR' PW Hns M' HM') as OK'.
    assert (HbW : ~ In b (keys W)) by (intros H; apply Hsz, (mo_sized _ _ _ _ _ _ OK), H).
    assert (Hdots : has_dots R = true -> has_dots L = true) by (rewrite (mo_dots _ _ _ _ _ _ OK); auto).
    set (lz := fun s => Z.of_nat (len (LName s))).
    assert (Hz : forall s z, In (s, z) sizes -> lz s = z) by (intros s z H; apply (proj2 (proj2 Hf)), H).
    destruct (mix_shapes U HU os os' Hos p wt bt sizes Hns L R W Hp WW PL PR PW M HM lz Hz) as (S1 & _ & S2).
    destruct (mix_shapes U HU os os' Hos p' wt bt sizes Hns L' R' W Hp' WW PL' PR' PW M' HM' lz Hz) as (S1' & _ & S2').
    assert (Sw0 : map Z.of_nat (shp w) = em_weight M) by congruence. split; [exact Sw0|].
    assert (HBs : bias_of (em_bias M) c /\ exists B,
      match bt with None => option_map (pair B) c = None | Some t => exists B1 b0, option_map (pair B) c = Some (B1, b0) /\ written U t B1 /\ wf b0 /\ Some (map Z.of_nat (shp b0)) = em_bias M end /\
      match bt with None => option_map (pair B) c' = None | Some t => exists B1 b0, option_map (pair B) c' = Some (B1, b0) /\ written U t B1 /\ wf b0 /\ Some (map Z.of_nat (shp b0)) = em_bias M' end /\
      match option_map (pair B) c', option_map (pair B) c with
      | None, None => True
      | Some (B', t'), Some (B, t) => B' = B /\ ~ In b (keys B) /\ slice_of (length (written_names R1)) 0 t' t /\ length (shp t) = length (written_names (R1 ++ R2))
      | _, _ => False
      end).
    { destruct bt as [t|].
      - destruct S2 as (B & WB & EB). destruct S2' as (B' & WB' & EB'). assert (B' = B) as -> by exact (written_fun U _ _ t B' B HU WB' WB).
        rewrite EB' in Bc. destruct Bc as (b0' & -> & Wb' & Sb'). destruct c as [b0|]; [|destruct Bm]. destruct Bm as [Hone St].
        assert (HbB : ~ In b (keys B)).
        { destruct (mo_bias _ _ _ _ _ _ OK t eq_refl) as (B2 & BF). assert (B2 = B) as -> by exact (written_fun U _ _ t B2 B HU (bf_written _ _ _ _ _ BF) WB). intros H. apply Hsz, (bf_sized _ _ _ _ _ BF), H. }
        assert (Sb : map Z.of_nat (shp b0) = bias_dims lz B R).
        { unfold bias_dims in *. rewrite written_names_less. rewrite written_names_more in Sb' by exact Hb. rewrite map_app in *. cbn [map] in Sb'.
          apply map_eq_app in Sb' as (s1 & s2 & E & E1 & E2). apply map_eq_cons in E2 as (d & s2' & -> & _ & E2).
          destruct (slice_shp' (length (written_names R1)) 0 b0' b0 s1 d s2' St E) as [-> _]; [rewrite <- (map_length Z.of_nat s1), E1, map_length; reflexivity|]. rewrite map_app. congruence. }
        assert (Wb : wf b0) by apply St.
        split; [rewrite EB; exists b0; auto|]. exists B. cbn [option_map]. split; [exists B, b0; rewrite EB, Sb; auto|]. split; [exists B, b0'; rewrite EB', Sb'; auto|].
        split; [reflexivity|]. split; [exact HbB|]. split; [exact St|]. rewrite <- (map_length Z.of_nat (shp b0)), Sb. unfold bias_dims. now rewrite map_length.
      - rewrite S2' in Bc. cbn in Bc. subst c'. destruct c as [b0|]; [destruct Bm|]. rewrite S2. split; [reflexivity|]. exists []. cbn. auto. }
    destruct HBs as (Bc0 & B & K1 & K2 & K3). split; [exact Bc0|].
    rewrite (UnitLaws.left_pos r p L1 L2 R e Hp) in SX. pose proof (slice_shape _ _ _ _ SX) as [ESX Hi].
    assert (Hl1 : length g1 <= length (shp x)) by apply SX.
    pose proof Hf as (Hg0 & _). rewrite (left_more b L1 L2 Hb e) in Hg0. rewrite gshape_more in Hg0.
    assert (Hgl : length g1 <= length (gshape len (g1 ++ g2))) by (unfold gshape; rewrite map_length, app_length; lia).
    assert (Hgr : length h1 <= length (gshape len (h1 ++ h2))) by (unfold gshape; rewrite map_length, app_length; lia).
    assert (Hcnt : count_at (length g1) X = len (LName b)).
    { unfold count_at. rewrite <- Hg0. apply (proj1 (put_back _ _ _ Hgl)). }
    rewrite Hcnt in *.
    assert (Hf0 : fits len (left_groups e L) (right_groups e L R) (shp x) sizes).
    { rewrite left_less, right_less. apply (fits_less b L1 L2 R1 R2 sizes e len (shp x)); [|exact Hl1]. rewrite <- ESX, <- (left_more b L1 L2 Hb e), <- (right_more b L1 L2 R1 R2 Hb e). exact Hf. }
    assert (Hd0 : forall g, In g (left_groups e L) -> filter (unknown (map fst sizes)) g <> [] -> prodn (map len (filter (fun a => negb (unknown (map fst sizes) a)) g)) <> 0).
    { intros g Hg. apply Hd. rewrite (left_more b L1 L2 Hb e). apply in_groups_more. right. rewrite <- left_less. exact Hg. }
    assert (HR' : rank_fits L' (length (shp X)) e).
    { rewrite ESX, ins_length by exact Hl1. apply more_rank. exact Hrk. }
    assert (WX : wf X) by apply SX. assert (Wx : wf x) by apply SX.
    destruct (call_mixes add mul zero one add_comm add_assoc mul_one lib HC iadd HI r Hok os os' Hos Hos' p' wt bt sizes L' R' W Hp' WW PL' PR' PW Hns M' HM' e len X w WX Ww HR' Hf Hd He' Sw _ K2) as (Y & EY & MY).
    destruct (call_mixes add mul zero one add_comm add_assoc mul_one lib HC iadd HI r Hok os os' Hos Hos' p wt bt sizes L R W Hp WW PL PR PW Hns M HM e len x w Wx Ww Hrk Hf0 Hd0 He Sw0 _ K1) as (y & Ey & My).
    exists Y, y. replace (option_map snd (option_map (pair B) c')) with c' in EY by (destruct c'; reflexivity). replace (option_map snd (option_map (pair B) c)) with c in Ey by (destruct c; reflexivity).
    split; [exact EY|]. split; [exact Ey|].
    destruct (fresh_labels r b p' L1 L2 R1 R2 Hp' e Hdots) as [F1 F2].
    rewrite (left_more b L1 L2 Hb e), (right_more b L1 L2 R1 R2 Hb e) in MY. rewrite left_less, right_less in My.
    pose proof MY as (WY & SY & _). rewrite gshape_more in SY.
    destruct (slice_exists Y (length h1) (len (LName b)) _ i WY Hgr SY Hi) as (y0 & Sy0 & Ey0).
    replace y with y0.
    { split; [exact Sy0|]. rewrite (UnitLaws.left_pos r p L1 L2 R e Hp). transitivity (len (LName b)); [|symmetry; exact Hcnt].
      unfold count_at. rewrite SY. apply (proj1 (put_back _ _ _ Hgr)). }
    assert (Ex0 : shp x = gshape len (g1 ++ g2)) by (rewrite left_less in Hf0; symmetry; apply Hf0).
    pose proof (mixes_slice add mul zero _ _ _ _ b len W R1 R2 Hb F1 F2 HbW X x Y y0 w i _ _ SX Ex0 Hi Sy0 Ey0 K3 MY) as My0.
    eapply mixes_unique; [|exact My0|exact My]. rewrite <- right_less. apply (layer_NoDup r Hok os os' Hos p wt bt sizes L R W Hp WW PL PR PW Hns M HM e).
  Qed.
End Layer.
