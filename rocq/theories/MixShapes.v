(** * Shapes of the tensors that EinMix makes: proofs *)
From Verif Require Import Py Tensor ListFacts TensorFacts SpecSem SpecGrammar SpecPattern SpecForms SpecEinsum SpecOps SpecCalls SpecElements SpecLayers SpecEinMix ElementFacts Parsing Compile Recipe Ops Backends Api Layers Einsum EinMix Dtypes
  Footprint LayerFootprint SpecFootprint SpecLayerFootprint ParseFacts ParseFacts2 ParseFacts3 StepFacts RecipeFacts ApplyFacts FrontFacts FrontFacts2 FrontFacts3 MainFacts MainFacts2 MainFacts3 CallFacts ApiFacts ApiFacts2 ApiFacts5 ApiFacts6 CallsFacts LayerFacts FootprintFacts FootprintShapes
  EinsumFacts EinsumFacts2 EinsumFacts3 EinsumFacts4 MixFacts MixFacts2 MixFacts3 MixFacts4 MixFacts5 MixFacts6 MixFacts7 LayerFootprintFacts LayerFootprintFacts2 SpecRank.

Lemma filter_nil {X} (f : X -> bool) l : (forall a, In a l -> f a = false) -> filter f l = [].
Proof. induction l as [|a l IH]; intros H; [reflexivity|]. cbn [filter]. rewrite (H a (or_introl eq_refl)). apply IH. intros b Hb. apply H. right. exact Hb. Qed.
Lemma shapes_same m gl gr len : concat gr = concat gl ->
  shapes_made m gl gr len = (if singles gl then [] else [map len (concat gl)]) ++ (if singles gr then [] else [gshape len gr]).
Proof.
  intros E. unfold shapes_made. cbv zeta.
  assert (K : kept gl gr = concat gl) by (unfold kept; rewrite E; apply filter_all; intros a Ha; apply existsb_exists; exists a; split; [exact Ha|apply label_eqb_eq; reflexivity]).
  assert (D : missing gl gr = []).
  { unfold missing. rewrite E. apply filter_nil. intros a Ha. apply negb_false_iff, existsb_exists. exists a. split; [exact Ha|apply label_eqb_eq; reflexivity]. }
  assert (F : fresh_axes gl gr = []).
  { unfold fresh_axes. apply filter_nil. intros [i a] Ha. apply negb_false_iff, existsb_exists. exists a. split; [|apply label_eqb_eq; reflexivity].
    rewrite <- E. exact (enumerate_In _ _ _ Ha). }
  rewrite K, D, F, app_nil_r. destruct (list_eq_dec _ _ _); [|contradiction]. reflexivity.
Qed.

Section Layer.
  Context {A : Type} (r : runtime A).
  (** what was noted before stays *)
  Lemma layer_log os pattern (op : pystr) sizes (M : layer (logged A)) x y w L R e len : runtime_ok r -> (forall n, orders_ok (os n)) -> NoDup (map fst sizes) ->
    make_layer (rt_unicode r) os pattern (RStr op) sizes = Ok M -> call_ok (rt_unicode r) w pattern sizes (shp (fst x)) L R e len -> @runs_as (logged A) (RStr op) w ->
    logged_call_layer r M x = Ok y -> snd y = rev (shapes_made (manner_of (rt_framework r) op) (left_groups e L) (right_groups e L R) len) ++ snd x.
  Proof.
    intros [HU _] Hos Hn HM Hc Hw H. unfold make_layer in HM. apply bind_Ok in HM as [recipes [HM E]]. injection E as <-.
    apply all_dims_ok in HM as (l & rr & _ & HM); [|exact HU|exact Hos].
    assert (G := prep_get (rt_unicode r) pattern (op_of (@RStr (logged A) op)) (map fst sizes) os _ recipes (length (shp (fst x))) HM).
    apply layer_cooked in H as (rec & k & E1 & E2 & H). unfold logged_recipe_for in E1. cbn [ly_recipes ly_sizes ly_red] in E1, E2, H. rewrite G in E1.
    destruct (cooked_known (rt_unicode r) HU (os (length (shp (fst x)))) (Hos _) pattern (op_of (@RStr (logged A) op)) sizes (shp (fst x)) w L R e len Hn (runs_as_role _ _ Hw) Hc)
      as (rc' & k' & F1 & F2 & K1 & K2 & K3 & K4 & K5 & K6).
    destruct (in_dec Nat.eq_dec (length (shp (fst x))) _) as [_|]; [|discriminate E1]. rewrite F1 in E1. injection E1 as <-. rewrite E2 in F2. injection F2 as <-.
    set (gl := left_groups e L) in *. set (gr := right_groups e L R) in *.
    assert (Run : foldM (perform (logged_backend (layer_runtime r)) (RStr op)) (lib_calls gl gr len) x = Ok y).
    { etransitivity; [symmetry|exact H]. unfold apply_cooked, lib_calls. rewrite K1, K2, K3, K4, K6. rewrite foldM_app.
      apply bind_eq; [destruct (singles gl); [reflexivity|rewrite foldM_one; reflexivity]|]. intros t1. rewrite foldM_app.
      apply bind_eq; [destruct (list_eq_dec label_eq_dec _ _); [reflexivity|rewrite foldM_one; reflexivity]|]. intros t2. rewrite foldM_app.
      apply bind_eq; [destruct (missing gl gr); [reflexivity|rewrite foldM_one; reflexivity]|]. intros t3. rewrite foldM_app.
      apply bind_eq.
      { destruct (fresh_axes gl gr) as [|n ns] eqn:En; [reflexivity|]. rewrite K5 by discriminate. cbn [map].
        rewrite foldM_one. cbn [perform map]. f_equal. destruct n as [i a]. f_equal. rewrite map_map. apply map_ext. intros [j b]. reflexivity. }
      intros t4. destruct (singles gr); [reflexivity|rewrite foldM_one; reflexivity]. }
    apply all_made in Run; [|symmetry; apply (co_fits _ _ _ _ _ _ _ _ _ Hc)]. unfold FootprintShapes.made in Run. rewrite Run.
    f_equal. f_equal. f_equal. unfold layer_runtime. destruct (rt_framework r) eqn:Ef; rewrite ?Ef; reflexivity.
  Qed.
End Layer.

Lemma e_zero_of L n e : rank_fits L n e -> has_dots L = false -> e = 0.
Proof. intros Hk H. unfold rank_fits in Hk. rewrite H in Hk. apply Hk. Qed.

Section Mix.
  Context {A : Type} (add mul : A -> A -> A) (zero one : A).
  Context (add_comm : forall a b, add a b = add b a) (add_assoc : forall a b c, add a (add b c) = add (add a b) c) (mul_one : forall a, mul a one = a).
  Context (lib : pystr -> list (tensor A) -> result (tensor A)) (HC : einsum_contract add mul zero one lib).
  Context (iadd : tensor A -> tensor A -> result (tensor A)) (HI : keeps_shape iadd).
  Context (r : runtime A) (Hok : runtime_ok r) (os os' : nat -> orders) (Hos : forall n, orders_ok (os n)) (Hos' : forall n, orders_ok (os' n)).
  Notation U := (rt_unicode r).
  Context (pattern wt : pystr) (bt : option pystr) (sizes : list (pystr * Z)) (L R W : expr).
  Context (Hr : reads U pattern L R) (WW : written U wt W) (PL : SpecGrammar.plain L) (PR : SpecGrammar.plain R) (PW : SpecGrammar.plain W) (Hns : NoDup (map fst sizes)).
  Context (M : einmix (logged A)) (HE : EinMix U os os' pattern wt bt sizes = Ok M).
  Context (e : nat) (len : label -> nat) (x w : tensor A).
  Notation gl := (left_groups e L).
  Notation gr := (right_groups e L R).
  Notation aL := (alabs e (atoms L)).
  Notation aR := (alabs e (atoms R)).
  Context (Wx : wf x) (Ww : wf w) (Hrank : rank_fits L (length (shp x)) e) (Hfits : fits len gl gr (shp x) sizes).
  Context (Hdiv : forall g, In g gl -> filter (unknown (map fst sizes)) g <> [] -> prodn (map len (filter (fun a => negb (unknown (map fst sizes) a)) g)) <> 0).
  Context (He : em_pre M <> None \/ em_post M <> None -> e < 8) (Sw : map Z.of_nat (shp w) = em_weight M).

  Lemma singles_single l : singles (single l) = true.
  Proof. unfold singles. apply forallb_forall. intros g Hg. apply in_map_iff in Hg as [a [<- _]]. reflexivity. Qed.
  Lemma concat_single (l : list label) : concat (single l) = l.
  Proof. induction l as [|a l IH]; [reflexivity|]. cbn. f_equal. exact IH. Qed.

  Theorem mix_shapes_made b y log : logged_call_einmix r lib iadd M (new w) (option_map new b) (new x) = Ok (y, log) ->
    rev log = (if singles gl then [] else [map len (concat gl)]) ++
              List.repeat (map len (concat gr)) (match b with Some _ => 2 | None => 1 end) ++
              (if singles gr then [] else [gshape len gr]).
  Proof.
    intros H. pose proof (ro_unicode _ Hok) as HU.
    pose proof (proj1 (reads_split U HU pattern L R) Hr) as (l & rr & Hsplit & WL & WR).
    pose proof (einmix_made U HU os os' Hos pattern wt l rr bt sizes L R W Hsplit WL WR WW PL PR PW Hns M HE) as HM.
    pose proof (EinMix_erase (A := A) U os os' pattern wt bt sizes) as Er. rewrite HE in Er.
    destruct (EinMix (T := tensor A) U os os' pattern wt bt sizes) as [M'|] eqn:HE'; [|contradiction]. cbn [both] in Er. destruct Er as (X1 & X2 & _ & X4 & X5).
    pose proof (einmix_made U HU os os' Hos pattern wt l rr bt sizes L R W Hsplit WL WR WW PL PR PW Hns M' HE') as HM'.
    pose proof (md_parse _ _ _ _ _ _ _ _ _ _ _ _ _ HM) as Hpo. pose proof (md_ok _ _ _ _ _ _ _ _ _ _ _ _ _ HM) as Hmo.
    destruct Hfits as (Hs & _ & Hlen).
    assert (He1 : em_pre M' <> None -> e < 8) by (intros X; apply He; left; intros Y; rewrite Y in X4; destruct (em_pre M'); [contradiction|apply X; reflexivity]).
    assert (CL : concat gl = aL) by (apply concat_alabs; [apply (po_numbers _ _ _ Hpo)|apply dots_or|exact PL]).
    assert (CR : concat gr = aR) by (apply concat_alabs; [apply (po_numbers _ _ _ Hpo)|rewrite <- (po_dots _ _ _ Hpo); apply dots_or|exact PR]).
    assert (GF : right_groups e L (flat L) = single aL) by (apply groups_flat; [apply (po_numbers _ _ _ Hpo)|apply dots_or|exact PL]).
    pose proof (gr_post _ _ _ _ _ _ _ _ _ _ _ _ _ HM' e) as GP.
    destruct (stage_pre r Hok os os' Hos pattern wt l rr bt sizes L R W WL WW PL Hns M' HM' e len (length (shp x)) Hrank Hdiv Hlen x Wx eq_refl Hs He1) as (x' & E1 & S1 & S2 & S3).
    set (names := mix_names 0 (nbig (atoms L)) (nbig (atoms L) + nbig (atoms R)) L R W).
    assert (Hle : length names <= 52).
    { unfold names. rewrite mix_names_length. pose proof (mo_letters _ _ _ _ _ _ Hmo). lia. }
    assert (Sw' : shp w = map len (map SpecPattern.LName (keys W))).
    { apply (map_inj Z.of_nat Nat2Z.inj). rewrite Sw, (md_weight _ _ _ _ _ _ _ _ _ _ _ _ _ HM), !map_map. apply map_ext_in. intros s Hin. symmetry. apply Hlen, size_in, (mo_sized _ _ _ _ _ _ Hmo), Hin. }
    destruct (mix_einsum add mul zero one add_comm add_assoc mul_one lib HC L R W e names len x' w) as (y1 & E2 & Y1 & Y2 & _); try assumption;
      try apply (po_numbers _ _ _ Hpo); try exact (mo_weight _ _ _ _ _ _ Hmo); try exact (mo_names _ _ _ _ _ _ Hmo); try exact (mo_needed _ _ _ _ _ _ Hmo); try (eapply written_NoDup; eassumption); try (eapply written_ndots; eassumption);
      try apply (mo_dots _ _ _ _ _ _ Hmo); try apply (mo_names _ _ _ _ _ _ Hmo); try apply (mo_needed _ _ _ _ _ _ Hmo).
    { eapply rank_zero. exact Hrank. }
    { intros s Hin. apply in_mix_names. exact Hin. }
    unfold logged_call_einmix in H. apply bind_Ok in H as [i [H1 H]]. apply bind_Ok in H as [z [H2 H]]. apply bind_Ok in H as [z' [H3 H]].
    assert (Ei : fst i = x') by (pose proof (erase_option r _ _ (new x) X4) as Y; rewrite H1 in Y; cbn [erase new fst] in Y; rewrite E1 in Y; congruence).
    (* before *)
    assert (Li : snd i = if singles gl then [] else [map len (concat gl)]).
    { pose proof (md_pre _ _ _ _ _ _ _ _ _ _ _ _ _ HM) as Hpre. destruct (any_composed (fst (compile 0 L))) eqn:Ec.
      - destruct Hpre as (P & HP & EP). rewrite EP in H1. cbn [logged_call_option] in H1.
        assert (Hc : call_ok U Rearranging (pre_pattern l L) (pre_sizes sizes L) (shp x) L (flat L) e len).
        { clear H H1 H2 H3. pose proof (pre_preparable U (ro_unicode _ Hok) wt l sizes L R W WL WW PL Hpo (mo_used _ _ _ _ _ _ Hmo) (mo_groups _ _ _ _ _ _ Hmo) e) as Hp.
        assert (Ee : (if has_dots L then e else 0) = e) by (destruct (has_dots L) eqn:Ed; [reflexivity|rewrite (e_zero_of L _ e Hrank); auto]). rewrite Ee in Hp.
        split.
        - apply Hp.
        - apply (pre_ident L R W Hpo).
        - rewrite has_dots_flat. auto.
        - intros _. apply (mo_flat _ _ _ _ _ _ Hmo).
        - exact Hrank.
        - apply Hp.
        - apply Hp.
        - split; [exact Hs|]. split.
          + intros k m H. exfalso. rewrite GF, CL in H. apply in_app_or in H as [H|H]; [exact (no_num e L k m H)|].
            apply in_concat in H as [g [H1 H2]]. apply in_map_iff in H1 as [a [<- H1]]. destruct H2 as [->|[]]. exact (no_num e L k m H1).
          + intros s0 z0 H. apply pre_size_in in H as [H _]. apply Hlen, H.
        - intros g Hg H. rewrite (pre_unknown sizes L R W PL Hpo e g Hg) in H. rewrite (pre_known sizes L R W PL Hpo e g Hg). apply Hdiv; auto.
        - intros [H1 [H2 _]]. rewrite has_dots_flat in H2. congruence. }
        unfold Rearrange in HP. apply bind_Ok in HP as [_ [_ HP]].
        apply (layer_log r os _ s_rearrange _ P (new x) i Rearranging L (flat L) e len Hok Hos (pre_NoDup sizes L Hns) HP Hc) in H1; [|exact I || constructor || reflexivity].
        rewrite shapes_same in H1 by (rewrite GF, CL; apply concat_single). rewrite GF, singles_single in H1. rewrite H1. cbn [new snd]. rewrite !app_nil_r. destruct (singles gl); reflexivity.
      - rewrite Hpre in H1. injection H1 as <-. cbn [new snd].
        assert (Eg : gl = single aL).
        { apply groups_single; [apply (po_numbers _ _ _ Hpo)|apply dots_or|exact PL| |exact Ec].
          destruct (has_dots L) eqn:Ed; [apply (po_flat _ _ _ Hpo Ed)|apply (not_grouped L PL Ed)]. }
        rewrite Eg, singles_single. reflexivity. }
    (* the contraction and the bias *)
    unfold logged_lib_einsum in H2. apply note_Ok in H2 as [F2 N2]. cbn [map new fst logs flat_map snd] in F2, N2. rewrite !app_nil_r in N2.
    rewrite (md_text _ _ _ _ _ _ _ _ _ _ _ _ _ HM), Ei in F2. fold names in F2. rewrite E2 in F2. injection F2 as F2. rewrite <- F2, Y2, <- CR in N2.
    assert (Sz : shp (fst z) = map len (concat gr)) by (rewrite <- F2, Y2, CR; reflexivity).
    assert (Lz : shp (fst z') = map len (concat gr) /\ snd z' = List.repeat (map len (concat gr)) (match b with Some _ => 2 | None => 1 end) ++ snd i).
    { destruct b as [b|]; cbn [option_map] in H3.
      - unfold logged_iadd in H3. apply note_Ok in H3 as [F3 N3]. cbn [new fst snd] in F3, N3. apply HI in F3. rewrite app_nil_r in N3. rewrite F3, Sz in N3. split; [congruence|]. rewrite N3, N2. reflexivity.
      - injection H3 as <-. split; [exact Sz|exact N2]. }
    destruct Lz as [Sz' Lz]. rewrite Li in Lz.
    assert (RV : forall (v : list nat) n, rev (List.repeat v n) = List.repeat v n).
    { intros v n. induction n as [|n IH]; [reflexivity|]. cbn [List.repeat rev]. rewrite IH. clear. induction n as [|n IH]; [reflexivity|]. cbn. f_equal. exact IH. }
    (* after *)
    assert (Ly : log = (if singles gr then [] else [gshape len gr]) ++ snd z').
    { pose proof (md_post _ _ _ _ _ _ _ _ _ _ _ _ _ HM) as Hpost. destruct (post_needed L R) eqn:Ec.
      - destruct Hpost as (P & HP & EP). rewrite EP in H. cbn [logged_call_option] in H.
        pose proof (post_groups L R W PR Hpo e) as Egl. rewrite CR in Sz'.
        assert (Hc : call_ok U Rearranging (post_pattern rr R) [] (shp (fst z')) (flat R) R e len).
        { clear H. split.
        - apply (post_reads U (ro_unicode _ Hok) rr L R W WR Hpo).
        - apply (post_ident L R W Hpo).
        - rewrite has_dots_flat. auto.
        - intros _ [g [H _]]. unfold flat in H. apply in_map_iff in H as [a [X _]]. discriminate.
        - rewrite Sz', map_length. assert (X : length (left_groups e (flat R)) = length aR) by (rewrite Egl, map_length; reflexivity). rewrite <- X.
          apply (groups_rank U (post_pattern rr R) (flat R) R e).
          + apply (post_reads U (ro_unicode _ Hok) rr L R W WR Hpo).
          + intros _. apply flat_grouped.
          + rewrite has_dots_flat, <- (po_dots _ _ _ Hpo). intros Ed; exact (e_zero_of L _ e Hrank Ed).
        - intros s [].
        - intros g Hg. apply (post_one L R W PR Hpo e [] g Hg).
        - split; [rewrite Egl, gshape_single; symmetry; exact Sz'|]. split; [|intros s0 z0 []].
          intros k m H. exfalso. rewrite Egl, GP, CR in H. apply in_app_or in H as [H|H]; [|exact (no_num e R k m H)].
          apply in_concat in H as [g [V1 V2]]. apply in_map_iff in V1 as [a [<- V1]]. destruct V2 as [->|[]]. exact (no_num e R k m V1).
        - intros g Hg _. rewrite Egl in Hg. apply in_map_iff in Hg as [a [<- Ha]]. cbn [filter]. destruct a as [s0|i0|k m]; cbn; try lia. exfalso. exact (no_num e R k m Ha).
        - intros [V1 [V2 _]]. rewrite has_dots_flat in V1. congruence. }
        unfold Rearrange in HP. apply bind_Ok in HP as [_ [_ HP]].
        apply (layer_log r os' _ s_rearrange [] P z' (y, log) Rearranging (flat R) R e len Hok Hos' (NoDup_nil _) HP Hc) in H; [|exact I || constructor || reflexivity].
        rewrite GP, Egl in H. rewrite shapes_same in H by (rewrite CR; symmetry; apply concat_single). rewrite singles_single in H. cbn [snd app] in H. rewrite H. destruct (singles gr); reflexivity.
      - rewrite Hpost in H. injection H as ->. cbn [snd]. unfold post_needed in Ec. apply orb_false_iff in Ec as [Ec1 Ec2].
        assert (Eg : gr = single aR).
        { apply groups_single; [apply (po_numbers _ _ _ Hpo)|rewrite <- (po_dots _ _ _ Hpo); apply dots_or|exact PR| |exact Ec1].
          destruct (has_dots R) eqn:Ed; [|apply (not_grouped R PR Ed)].
          pose proof (one_ell R None (written_NoDup U rr R WR) (has_dots_key _ Ed)) as O1. destruct (existsb grouped_ell R); [|reflexivity].
          exfalso. unfold compile in Ec2. cbn [fst p_ell_par] in Ec2. rewrite (proj1 O1) in Ec2. discriminate. }
        rewrite Eg, singles_single. reflexivity. }
    rewrite Ly, Lz, !rev_app_distr, RV, <- app_assoc. destruct (singles gl), (singles gr); reflexivity.
  Qed.
  Theorem mix_ranks b y log : logged_call_einmix r lib iadd M (new w) (option_map new b) (new x) = Ok (y, log) ->
    forall s, In s log -> length s <= most_dims gl gr.
  Proof.
    intros H s Hs. apply mix_shapes_made in H. apply in_rev in Hs. rewrite H in Hs. unfold most_dims.
    apply in_app_or in Hs as [Hs|Hs]; [destruct (singles gl); [destruct Hs|destruct Hs as [<-|[]]; rewrite map_length; lia]|].
    apply in_app_or in Hs as [Hs|Hs]; [apply repeat_spec in Hs; subst s; rewrite map_length; lia|].
    destruct (singles gr); [destruct Hs|]. destruct Hs as [<-|[]]. unfold gshape. rewrite map_length. lia.
  Qed.
End Mix.
