(** * EinMix without parentheses is einsum *)
From Coq Require Import Permutation.
From Verif Require Import Py Tensor TensorFacts ListFacts SpecSem SpecGrammar SpecEinsum SpecPattern SpecShape SpecForms SpecOps SpecElements SpecAdjoint SpecLinear SpecDocumented Parsing Compile Recipe Ops Backends Api
  ParseFacts ParseFacts2 ParseFacts3 StepFacts FrontFacts FrontFacts2 FrontFacts3 MainFacts MainFacts2 ReduceFacts MainFacts3 CallFacts RelabelFacts ApiFacts ApiFacts2 ApiFacts3 RedFacts Laws
  EinsumFacts EinsumFacts3 EinsumFacts4 EinsumLaws EinsumLaws2 AdjointFacts Layers Einsum LayerFacts EinMix SpecEinMix MixFacts MixFacts2 MixFacts3 MixFacts4 MixFacts5 MixFacts6 MixFacts7 MixFacts8 MixFacts9 MixLaws MixLaws2
  SpecMixGrad MixGradFacts SpecMixFuse MixFuseFacts DocumentedFacts.

Lemma elt_val {A} (zero : A) x idx : elt zero x idx = val zero (get x idx).
Proof. reflexivity. Qed.
Lemma entries_of_entries E : entries_of E = entries E.
Proof. reflexivity. Qed.

Section Flat.
  Context {A : Type} (add mul : A -> A -> A) (zero one : A).
  Context (Hsp : sums_and_products add mul zero) (mul_one : forall a, mul a one = a).
  Context (lib : pystr -> list (tensor A) -> result (tensor A)) (HC : einsum_contract add mul zero one lib).
  Context (iadd : tensor A -> tensor A -> result (tensor A)) (HI : iadd_contract add iadd).
  Context (r : runtime A) (Hok : runtime_ok r) (os os' : nat -> orders) (Hos : forall n, orders_ok (os n)) (Hos' : forall n, orders_ok (os' n)).
  Notation U := (rt_unicode r).

  Lemma flat_mix p wt sizes L R W (M : einmix (tensor A)) q e len (x w : tensor A) : reads U p L R -> written U wt W -> ungrouped L -> ungrouped R -> plain L -> plain R -> plain W -> NoDup (map fst sizes) ->
    EinMix U os os' p wt None sizes = Ok M -> einsum_reads U q [entries_of L; name_entries (keys W)] (entries_of R) ->
    wf x -> rank_fits L (length (shp x)) e -> fits len (left_groups e L) (right_groups e L R) (shp x) sizes -> no_division sizes len (left_groups e L) ->
    (em_pre M <> None \/ em_post M <> None -> e < 8) -> wf w -> map Z.of_nat (shp w) = em_weight M ->
    exists y, call_einmix r lib iadd M w None x = Ok y /\ einsum_with U lib [inl x; inl w; inr q] = Ok y.
  Proof.
    intros Hr WW UL UR PL PR PW Hn HM Hq Wx Hk Hf Hd He Ww Sw. pose proof (ro_unicode _ Hok) as HU.
    destruct (call_mixes add mul zero one (sp_comm _ _ _ Hsp) (sp_assoc _ _ _ Hsp) mul_one lib HC iadd HI r Hok os os' Hos Hos' p wt None sizes L R W Hr WW PL PR PW Hn M HM e len x w Wx Ww Hk Hf Hd He Sw None eq_refl) as (y & Ey & My).
    exists y. split; [exact Ey|].
    pose proof (proj1 (reads_split U HU p L R) Hr) as (l & rr & Hsplit & WL & WR).
    pose proof (einmix_made U HU os os' Hos p wt l rr None sizes L R W Hsplit WL WR WW PL PR PW Hn M HM) as HMd.
    pose proof (md_ok _ _ _ _ _ _ _ _ _ _ _ _ _ HMd) as O. pose proof Hf as (Sx & _ & Hlen).
    assert (Sw' : shp w = map len (map LName (keys W))).
    { apply (map_inj Z.of_nat Nat2Z.inj). rewrite Sw, (md_weight _ _ _ _ _ _ _ _ _ _ _ _ _ HMd), !map_map. apply map_ext_in. intros s Hin. symmetry. apply Hlen, size_in, (mo_sized _ _ _ _ _ _ O), Hin. }
    assert (NL : NoDup (keys L)) by (eapply written_NoDup; eassumption). assert (NR : NoDup (keys R)) by (eapply written_NoDup; eassumption). assert (NW : NoDup (keys W)) by (eapply written_NoDup; eassumption).
    assert (DL : ndots L <= 1) by (eapply written_ndots; eassumption). assert (DR : ndots R <= 1) by (eapply written_ndots; eassumption).
    assert (EL : left_groups e L = map (fun a => [a]) (labs e L)) by (apply ungrouped_groups; auto).
    assert (ER : right_groups e L R = map (fun a => [a]) (labs e R)) by (apply ungrouped_groups; auto).
    assert (KW : forall s, In s (keys W) -> s <> ell_name).
    { intros s Hs ->. apply (plain_key W PW) in Hs. unfold has_dots in Hs. apply existsb_exists in Hs as (a & Ha & E). apply in_flat_map in Ha as (i & Hi & Ha). destruct (mo_weight _ _ _ _ _ _ O i Hi) as (s & ->). destruct Ha as [<-|[]]. discriminate. }
    assert (IW : forall s, In s (keys W) -> In (LName s) (labs e L) \/ In (LName s) (labs e R)).
    { intros s Hs. pose proof (mo_needed _ _ _ _ _ _ O s Hs) as X. apply in_app_or in X as [X|X]; [left|right]; apply in_labs; auto; left; exists s; auto. }
    assert (IR : forall a, In a (labs e R) -> In a (labs e L) \/ In a (map LName (keys W))).
    { intros a X. apply in_labs in X; [|exact UR]. destruct X as [(s & -> & X & Y)|(i & -> & X & Y)].
      - apply (mo_names _ _ _ _ _ _ O), in_app_or in X as [X|X]; [left; apply in_labs; auto; left; exists s; auto|right; apply in_map, X].
      - left. apply in_labs; auto. right. exists i. split; [reflexivity|]. split; [|exact Y]. apply has_dots_key. rewrite (mo_dots _ _ _ _ _ _ O). apply plain_key; assumption. }
    assert (PP : forall a, In a (labs e L) \/ In a (labs e R) \/ In a (map LName (keys W)) -> psi e (phi e a) = a).
    { intros a [X|[X|X]]; [apply (psi_phi e L); auto|apply (psi_phi e R); auto|]. apply in_map_iff in X as (s & <- & _). reflexivity. }
    set (len2 := fun l => len (psi e l)).
    assert (LP : forall ls, (forall a, In a ls -> In a (labs e L) \/ In a (labs e R) \/ In a (map LName (keys W))) -> map len2 (map (phi e) ls) = map len ls).
    { intros ls H. rewrite map_map. apply map_ext_in. intros a Ha. unfold len2. rewrite PP; auto. }
    set (ms := missing (left_groups e L) (right_groups e L R)) in *.
    assert (Hms : forall a, In a ms <-> In a (labs e L) /\ ~ In a (labs e R)) by (intros a; unfold ms; rewrite in_missing, EL, ER, !concat_ones; tauto).
    assert (Nms : NoDup ms) by (apply NoDup_filter; rewrite EL, concat_ones; apply labs_NoDup; auto).
    assert (LW : labs_of e (name_entries (keys W)) = map (phi e) (map LName (keys W))).
    { unfold name_entries, to_term, term_labs. rewrite !map_map. clear. induction (keys W) as [|s ss IH]; [reflexivity|]. cbn. f_equal. exact IH. }
    assert (Inj : forall ls, NoDup ls -> (forall a, In a ls -> In a (labs e L) \/ In a (labs e R) \/ In a (map LName (keys W))) -> NoDup (map (phi e) ls)).
    { intros ls Nls H. apply NoDup_map_inj; [|exact Nls]. intros a b Ha Hb E. rewrite <- (PP a), <- (PP b), E; auto. }
    assert (Mem : forall a ls, (In a (labs e L) \/ In a (labs e R) \/ In a (map LName (keys W))) -> (forall a, In a ls -> In a (labs e L) \/ In a (labs e R) \/ In a (map LName (keys W))) ->
      (In (phi e a) (map (phi e) ls) <-> In a ls)).
    { intros a ls Ha H. split; [|apply in_map]. intros X. apply in_map_iff in X as (b & E & X). rewrite <- (PP a), <- E, PP; auto. }
    destruct (term_dots_count L UL) as [TL _]. destruct (term_dots_count R UR) as [TR _].
    destruct (einsum_exact add mul zero one (sp_comm _ _ _ Hsp) (sp_assoc _ _ _ Hsp) lib HC U HU len2 e q [(entries_of L, x); (name_entries (keys W), w)] (entries_of R) (map (phi e) ms)) as (z & Ez & Wz & Sz & Gz).
    - exact Hq.
    - cbn [map fst]. etransitivity; [apply distinct_bound|]; [|etransitivity; [exact (mo_letters _ _ _ _ _ _ O)|lia]]. intros s Hs. apply nodup_In. unfold all_names in Hs. cbn [flat_map] in Hs. rewrite app_nil_r in Hs.
      apply in_app_or in Hs as [Hs|Hs].
      + apply entry_names_keys in Hs as [H1 H2]; [|exact UL]. apply in_or_app. left. apply filter_In. split; [exact H1|]. destruct (str_eqb s ell_name) eqn:X; [apply str_eqb_eq in X; contradiction|reflexivity].
      + apply entry_names_in, in_map_iff in Hs as (t & E & Hs). injection E as ->. apply in_or_app. right. apply in_or_app. right. apply filter_In. split; [exact Hs|]. specialize (KW s Hs).
        destruct (str_eqb s ell_name) eqn:X; [apply str_eqb_eq in X; contradiction|reflexivity].
    - intros es t [E|[E|[]]]; injection E as <- <-.
      + split; [exact Wx|]. rewrite entries_of_entries, entries_labs, LP by auto. rewrite TL. split; [|exact DL]. rewrite <- Sx, EL, StepFacts.gshape_single, concat_ones by apply ones_single. reflexivity.
      + split; [exact Ww|]. rewrite LW, LP by auto. split; [exact Sw'|]. unfold name_entries, to_term. rewrite map_map. clear. induction (keys W) as [|s ss IH]; [cbn; lia|exact IH].
    - apply entry_names_NoDup; auto.
    - intros s Hs. cbn [map fst]. unfold all_names. cbn [flat_map]. rewrite app_nil_r, in_app_iff. apply entry_names_keys in Hs as [H1 H2]; [|exact UR].
      apply (mo_names _ _ _ _ _ _ O), in_app_or in H1 as [H1|H1]; [left; apply entry_names_keys; auto|right; apply entry_names_in, in_map, H1].
    - rewrite entries_of_entries, TR. exact DR.
    - assert (Hdots : forall E, ungrouped E -> (In EDots (entries_of E) <-> has_dots E = true)).
      { intros E UE. split.
        - intros X. apply in_none; [|exact UE]. change None with ((fun en => match en with EName s => Some s | EDots => None end) EDots). apply in_map, X.
        - intros X. apply has_none in X; [|exact UE]. unfold to_term in X. apply in_map_iff in X as ([s|] & X & Y); [discriminate|exact Y]. }
      rewrite (Hdots R UR), <- (mo_dots _ _ _ _ _ _ O), <- (Hdots L UL). split; [intros X; exists (entries_of L), x; cbn; auto|].
      intros (es & t & [E|[E|[]]] & X); injection E as <- <-; [exact X|]. apply in_map_iff in X as (s & X & _). discriminate.
    - apply Inj; [exact Nms|]. intros a Ha. apply Hms in Ha. tauto.
    - assert (KL : labs_of e (entries_of L) = map (phi e) (labs e L)) by (apply entries_labs; auto). assert (KR : labs_of e (entries_of R) = map (phi e) (labs e R)) by (apply entries_labs; auto).
      intros c. cbn [flat_map fst]. rewrite app_nil_r, LW, KL, KR, in_app_iff. split.
      + intros X. apply in_map_iff in X as (a & <- & X). apply Hms in X as [X Y]. split; [left; apply in_map, X|]. rewrite Mem; auto.
      + intros [X Y]. assert (G : exists a, c = phi e a /\ (In a (labs e L) \/ In a (map LName (keys W)))) by (destruct X as [X|X]; apply in_map_iff in X as (a & <- & X); eauto).
        destruct G as (a & -> & G). apply in_map, Hms. rewrite Mem in Y by tauto. split; [|exact Y]. destruct G as [G|G]; [exact G|]. apply in_map_iff in G as (s & <- & G). destruct (IW s G); tauto.
    - assert (KL : labs_of e (entries_of L) = map (phi e) (labs e L)) by (apply entries_labs; auto). assert (KR : labs_of e (entries_of R) = map (phi e) (labs e R)) by (apply entries_labs; auto).
      rewrite KR in Sz, Gz. rewrite LP in Sz by auto. cbn [map app snd] in Ez. rewrite Ez. f_equal.
      pose proof My as (Wy & Sy & _). rewrite ER, StepFacts.gshape_single, concat_ones in Sy by apply ones_single.
      assert (NDR : NoDup (labs e R)) by (apply labs_NoDup; auto).
      apply tensor_ext; [exact Wz|exact Wy|congruence|]. intros idx Hidx. rewrite Sz in Hidx.
      set (ix := assign label_eqb (fun _ => 0) (labs e R) idx).
      assert (Ei : map ix (labs e R) = idx) by (apply (assign_map label_eqb label_eqb_eq); [exact NDR|]; apply inb_length in Hidx; rewrite map_length in Hidx; exact Hidx).
      assert (Hix : within len ix (labs e R)) by (apply (within_assign label_eqb label_eqb_eq); auto).
      pose proof (mixes_over add mul zero len _ _ W R x w y None ix My) as G. rewrite ER, concat_ones in G. specialize (G Hix). cbn zeta in G.
      rewrite <- ER, (StepFacts.gindex_single len ix (right_groups e L R)), ER, concat_ones, Ei in G by (rewrite ER; apply ones_single). rewrite G. clear G. rewrite <- ER. fold ms.
      specialize (Gz (fun c => ix (psi e c))). rewrite map_map in Gz. rewrite (map_ext_in _ ix) in Gz by (intros a Ha; rewrite PP; auto). rewrite Ei in Gz. rewrite Gz.
      + f_equal. unfold sum_over, over. rewrite LP by (intros a Ha; apply Hms in Ha; tauto). f_equal. apply map_ext. intros v. cbn [map fold_right fst snd]. rewrite mul_one, !elt_val, LW, KL, !map_map.
        rewrite EL, StepFacts.gindex_single, concat_ones by apply ones_single.
        assert (As : forall ls, (forall a, In a ls -> In a (labs e L) \/ In a (labs e R) \/ In a (map LName (keys W))) ->
          map (fun a => assign (lab_eqb str_eqb) (fun c => ix (psi e c)) (map (phi e) ms) v (phi e a)) ls = map (assign label_eqb ix ms v) ls).
        { intros ls H. apply map_ext_in. intros a Ha. apply assign_phi. intros b [<-|Hb]; apply PP; [auto|]. apply Hms in Hb. tauto. }
        rewrite As by auto. pose proof (As (map LName (keys W))) as As2. rewrite !map_map in As2. rewrite As2 by auto. reflexivity.
      + intros c Hc. apply in_map_iff in Hc as (a & <- & Ha). unfold len2. rewrite PP by auto. apply Hix, Ha.
  Qed.
End Flat.
