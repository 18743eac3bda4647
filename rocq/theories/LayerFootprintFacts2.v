(** * How many tensors EinMix makes: proofs *)
From Verif Require Import Py Tensor ListFacts TensorFacts SpecSem SpecGrammar SpecPattern SpecEinsum SpecOps SpecCalls SpecElements SpecLayers SpecEinMix ElementFacts Parsing Compile Recipe Ops Backends Api Layers Einsum EinMix Dtypes
  Footprint LayerFootprint SpecFootprint SpecLayerFootprint ParseFacts RecipeFacts ApplyFacts FrontFacts FrontFacts2 FrontFacts3 MainFacts MainFacts2 MainFacts3 ApiFacts ApiFacts5 CallsFacts LayerFacts FootprintFacts FootprintShapes
  EinsumFacts EinsumFacts2 MixFacts MixFacts2 MixFacts3 MixFacts4 MixFacts6 MixFacts7 LayerFootprintFacts.

Section Recipe.
  Context (o : orders) (names : list pystr) (lc rc : list (list axis)) (rids : list axis) (shape : list Z) (dims : list (pystr * Z)) (k : cooked Z).
  Context (Hk : reconstruct int_ops (closed_recipe o names lc rc rids) shape dims = Ok k).
  Lemma no_reorder : NoDup (concat lc) -> concat rc = concat lc -> k_reduced k = [] -> k_reorder k = None.
  Proof.
    intros Hn E Hd. unfold reconstruct in Hk. apply bind_Ok in Hk as [al [_ H]]. apply bind_Ok in H as [[al' nd] [_ H]]. apply bind_Ok in H as [gs [_ H]]. apply bind_Ok in H as [ad [_ H]].
    injection H as <-. cbn [k_reduced k_reorder r_perm r_first_reduced closed_recipe] in *.
    assert (K : kept_axes_of lc rc = concat lc) by (unfold kept_axes_of; rewrite E; apply filter_all; intros a Ha; apply axis_mem_In, Ha).
    assert (D : reduced_axes_of lc rids = []).
    { unfold order_after_of in Hd. rewrite map_length, app_length, K in Hd. destruct (reduced_axes_of lc rids) as [|a l]; [reflexivity|]. exfalso. apply (f_equal (@length nat)) in Hd. rewrite seq_length in Hd. cbn [length] in Hd. lia. }
    unfold order_after_of. rewrite K, D, app_nil_r, map_pos_seq by exact Hn. rewrite seq_length. destruct (list_eq_dec Nat.eq_dec _ _); [reflexivity|contradiction].
  Qed.
  Lemma no_final : (forall g, In g rc -> length g = 1) -> k_final k = None.
  Proof.
    intros H1. unfold reconstruct in Hk. apply bind_Ok in Hk as [al [_ H]]. apply bind_Ok in H as [[al' nd] [_ H]]. apply bind_Ok in H as [gs [Hg H]]. apply bind_Ok in H as [ad [_ H]].
    injection H as <-. cbn [k_final closed_recipe r_output] in *. apply mapM_Ok_Forall2 in Hg.
    assert (X : existsb (fun g : list Z => negb (length g =? 1)) gs = false).
    { clear -Hg H1. set (f := pos_in _) in Hg. clearbody f. revert gs Hg. induction rc as [|g l IH]; intros gs Hg; cbn [map] in Hg; inversion Hg as [|? v ? vs Hv Hvs]; subst; [reflexivity|].
      apply mapM_Ok_Forall2 in Hv. apply Forall2_length in Hv. rewrite map_length, (H1 g (or_introl eq_refl)) in Hv. cbn [existsb]. rewrite <- Hv. cbn. apply IH; [|exact Hvs]. intros g' Hg'. apply H1. right. exact Hg'. }
    rewrite X. reflexivity.
  Qed.
  Lemma no_init : orders_ok o -> (forall g, In g lc -> exists a, g = [a] /\ is_known names a = false) -> k_init k = None.
  Proof.
    intros Ho H1. unfold reconstruct in Hk. apply bind_Ok in Hk as [al [_ H]]. apply bind_Ok in H as [[al' nd] [Hi H]]. apply bind_Ok in H as [gs [_ H]]. apply bind_Ok in H as [ad [_ H]].
    injection H as <-. cbn [k_init closed_recipe r_input] in *.
    assert (E0 : o 1 [] = []) by (specialize (Ho 1 []); apply Permutation_sym, Permutation_nil in Ho; exact Ho). set (f := pos_in _) in Hi. clearbody f.
    assert (G : forall l al i, (forall g, In g l -> exists a, g = [a] /\ is_known names a = false) ->
      foldM (infer_step int_ops shape) (enumerate_from i (map (fun g => (map f (o 1 (filter (is_known names) g)), map f (filter (fun a => negb (is_known names a)) g))) l)) (al, false) = Ok (al', nd) -> nd = false).
    { clear -E0. induction l as [|g l IH]; intros al i H1 Hi; cbn [map enumerate_from foldM] in Hi; [injection Hi as _ <-; reflexivity|].
      destruct (H1 g (or_introl eq_refl)) as (a & -> & Ha). cbn [filter] in Hi. rewrite Ha in Hi. cbn [negb map] in Hi. rewrite E0 in Hi. cbn [map] in Hi.
      apply bind_Ok in Hi as [[al2 nd2] [Hs Hi]]. unfold infer_step in Hs. apply bind_Ok in Hs as [z [_ Hs]]. apply bind_Ok in Hs as [al3 [_ Hs]]. injection Hs as <- <-.
      apply (IH _ _ (fun g Hg => H1 g (or_intror Hg)) Hi). }
    rewrite (G _ _ _ H1 Hi). reflexivity.
  Qed.
End Recipe.

Section Once.
  Context {A : Type} (r : runtime A) (HU : unicode_ok (rt_unicode r)).
  Notation U := (rt_unicode r).
  (** a layer that needs at most one [reshape] *)
  Definition once (P : layer (logged A)) : Prop := forall x y, logged_call_layer r P x = Ok y -> moved 1 x y.
  Lemma cooked_once (r' : runtime A) k x y : k_added k = [] -> k_reorder k = None -> k_init k = None \/ k_final k = None ->
    apply_cooked (logged_backend r') k x (RStr s_rearrange) = Ok y -> moved 1 x y.
  Proof.
    intros Ha Ho Hs H. unfold apply_cooked in H. rewrite Ha, Ho in H. apply bind_Ok in H as [t1 [H1 H]]. apply bind_Ok in H as [t2 [H2 H]]. apply bind_Ok in H as [t3 [H3 H]]. cbn [bind] in H.
    injection H2 as <-. destruct (k_reduced k); [|discriminate]. injection H3 as <-.
    assert (RS : forall a s b, b_reshape (logged_backend r') a s = Ok b -> moved 1 a b).
    { intros a s b E. rewrite lb_reshape in E. pose proof (reshape_keeps r' a s b E) as [K _]. eapply note_moved; eassumption. }
    destruct Hs as [Hs|Hs]; rewrite Hs in *.
    - injection H1 as <-. apply (opt_moved _ _ _ _ (fun s => RS _ s _)) in H. exact H.
    - injection H as <-. apply (opt_moved _ _ _ _ (fun s => RS _ s _)) in H1. exact H1.
  Qed.
  Lemma rearrange_once os p s (P : layer (logged A)) L R : (forall n, orders_ok (os n)) -> Rearrange U os p s = Ok P -> reads U p L R ->
    (forall e, concat (left_groups e L) = concat (right_groups e L R)) ->
    (forall e g, In g (right_groups e L R) -> length g = 1) \/ s = [] /\ (forall e g, In g (left_groups e L) -> exists a, g = [a] /\ is_known [] (axis_of a) = false) -> once P.
  Proof.
    intros Hos HP Hr Hc Hs x y H. pose proof (Rearrange_moves _ _ _ _ _ HU Hos HP) as [Er Had]. unfold Rearrange in HP. apply bind_Ok in HP as [_ [_ HP]]. unfold make_layer in HP.
    apply bind_Ok in HP as [recipes [HP E]]. injection E as <-. cbn [ly_recipes ly_red] in *.
    apply all_dims_ok in HP as (l & rr & _ & HP); [|exact HU|exact Hos].
    apply layer_cooked in H as (rec & k & E1 & E2 & H). unfold logged_recipe_for in E1. cbn [ly_recipes ly_sizes ly_red] in *.
    set (n := length (shp (fst x))) in *. pose proof (Had n) as Had'. rewrite (prep_get U p _ _ os _ recipes n HP) in E1, Had'.
    destruct (in_dec Nat.eq_dec n _); [|discriminate]. destruct (prepare_recipe _ _ _ _ _ _) as [rec'|] eqn:Ep; [|discriminate]. injection E1 as <-. specialize (Had' _ eq_refl).
    apply (prepare_closed U HU (os n) (Hos n)) in Ep as (L' & R' & e & w & Hr' & Hw & Hi & Hd & Hg & Hk & ->).
    destruct (reads_fun U HU _ _ _ _ _ Hr' Hr) as [-> ->]. pose proof (front_weak U HU p L R e Hr Hd) as HW.
    assert (Ka : k_added k = []).
    { unfold reconstruct in E2. apply bind_Ok in E2 as [al [_ Ek]]. apply bind_Ok in Ek as [[al' nd] [_ Ek]]. apply bind_Ok in Ek as [gs [_ Ek]].
      apply bind_Ok in Ek as [ad [Ea Ek]]. rewrite Had' in Ea. cbn in Ea. injection Ea as <-. injection Ek as <-. reflexivity. }
    assert (Kd : k_reduced k = []).
    { unfold apply_cooked in H. apply bind_Ok in H as [t1 [_ H]]. apply bind_Ok in H as [t2 [_ H]]. destruct (k_reduced k); [reflexivity|discriminate]. }
    apply (cooked_once (layer_runtime r) k); [exact Ka| | |exact H].
    - apply (no_reorder _ _ _ _ _ _ _ _ E2); [apply (wr_ndl _ _ _ _ HW)| |exact Kd]. rewrite <- !concat_map, Hc. reflexivity.
    - destruct Hs as [Hs|[-> Hs]]; [right|left].
      + apply (no_final _ _ _ _ _ _ _ _ E2). intros g Hin. apply in_map_iff in Hin as [g' [<- Hin]]. rewrite map_length. exact (Hs e g' Hin).
      + apply (no_init _ _ _ _ _ _ _ _ E2 (Hos n)). intros g Hin. apply in_map_iff in Hin as [g' [<- Hin]]. destruct (Hs e g' Hin) as (a & -> & Ha). exists (axis_of a). auto.
  Qed.
  Definition oonce (P : option (layer (logged A))) : Prop := match P with Some P => once P | None => True end.
  Lemma option_once P x y : oonce P -> logged_call_option r P x = Ok y -> moved 1 x y.
  Proof. destruct P as [P|]; [intros H; apply H|]. intros _ H. injection H as <-. apply (moved_le 0); [lia|apply moved_refl]. Qed.

  Lemma EinMix_once os os' pattern wt bt sizes (M : einmix (logged A)) L R W : (forall n, orders_ok (os n)) -> (forall n, orders_ok (os' n)) -> NoDup (map fst sizes) ->
    reads U pattern L R -> written U wt W -> SpecGrammar.plain L -> SpecGrammar.plain R -> SpecGrammar.plain W -> EinMix U os os' pattern wt bt sizes = Ok M -> oonce (em_pre M) /\ oonce (em_post M).
  Proof.
    intros Hos Hos' Hn Hr WW PL PR PW HM. pose proof Hr as Hr0. destruct (proj1 (reads_split U HU _ _ _) Hr) as (l & rr & Hsp & WL & WR).
    pose proof (einmix_made U HU os os' Hos pattern wt l rr bt sizes L R W Hsp WL WR WW PL PR PW Hn M HM) as MD.
    pose proof (md_parse _ _ _ _ _ _ _ _ _ _ _ _ _ MD) as Hpo. pose proof (po_numbers _ _ _ Hpo) as (NL & NR & NW). split.
    - pose proof (md_pre _ _ _ _ _ _ _ _ _ _ _ _ _ MD) as H. destruct (any_composed _); [|rewrite H; exact I]. destruct H as (P & HP & ->). cbn [oonce].
      assert (Eg : forall e, right_groups e L (flat L) = map (fun a => [a]) (alabs e (atoms L))) by (intros e; apply groups_flat; [exact NL|apply dots_or|exact PL]).
      apply (rearrange_once os _ _ P L (flat L) Hos HP).
      + apply (pre_reads U HU l L R W WL Hpo).
      + intros e. rewrite Eg. unfold left_groups. rewrite concat_alabs; [|exact NL|apply dots_or|exact PL]. generalize (alabs e (atoms L)). intros m. induction m as [|a m IH]; [reflexivity|cbn; f_equal; exact IH].
      + left. intros e g Hg. rewrite Eg in Hg. apply in_map_iff in Hg as [a [<- _]]. reflexivity.
    - pose proof (md_post _ _ _ _ _ _ _ _ _ _ _ _ _ MD) as H. destruct (post_needed L R); [|rewrite H; exact I]. destruct H as (P & HP & ->). cbn [oonce].
      apply (rearrange_once os' _ _ P (flat R) R Hos' HP).
      + apply (post_reads U HU rr L R W WR Hpo).
      + intros e. rewrite (post_groups L R W PR Hpo e). unfold right_groups. rewrite concat_alabs; [|exact NR|rewrite has_dots_flat; apply dots_or|exact PR].
        generalize (alabs e (atoms R)). intros m. induction m as [|a m IH]; [reflexivity|cbn; f_equal; exact IH].
      + right. split; [reflexivity|]. intros e g Hg. rewrite (post_groups L R W PR Hpo e) in Hg. apply in_map_iff in Hg as [a [<- Ha]]. exists a. split; [reflexivity|].
        destruct a as [s|i|j m]; [reflexivity|reflexivity|]. exfalso. exact (no_num e R j m Ha).
  Qed.
  Lemma mix_once lib iadd os os' pattern wt bt sizes (M : einmix (logged A)) w b x y log L R W : (forall n, orders_ok (os n)) -> (forall n, orders_ok (os' n)) -> NoDup (map fst sizes) -> keeps_shape iadd ->
    reads U pattern L R -> written U wt W -> SpecGrammar.plain L -> SpecGrammar.plain R -> SpecGrammar.plain W ->
    EinMix U os os' pattern wt bt sizes = Ok M -> logged_call_einmix r lib iadd M (new w) (option_map new b) (new x) = Ok (y, log) ->
    exists before middle after, log = after ++ middle ++ before /\ length before <= 1 /\ length after <= 1 /\ length middle = match b with Some _ => 2 | None => 1 end /\
      all_of_size (size x) before /\ all_of_size (size y) (after ++ middle).
  Proof.
    intros Hos Hos' Hn Hi Hr WW PL PR PW HM H. destruct (EinMix_once os os' pattern wt bt sizes M L R W Hos Hos' Hn Hr WW PL PR PW HM) as [P1 P2]. unfold logged_call_einmix in H.
    apply bind_Ok in H as [i [H1 H]]. apply bind_Ok in H as [z [H2 H]]. apply bind_Ok in H as [z' [H3 H]].
    apply (option_once _ _ _ P1) in H1 as (d1 & E1 & L1 & S1 & _). cbn [new snd fst] in E1, S1. rewrite app_nil_r in E1.
    unfold logged_lib_einsum in H2. apply note_Ok in H2 as [_ E2]. cbn [logs flat_map new snd] in E2. rewrite !app_nil_r, E1 in E2.
    assert (G : exists d, snd z' = d ++ d1 /\ length d = match b with Some _ => 2 | None => 1 end /\ all_of_size (size (fst z')) d).
    { destruct b as [b|]; cbn [option_map] in H3.
      - unfold logged_iadd in H3. apply note_Ok in H3 as [E3 E4]. cbn [new snd] in E4. rewrite app_nil_r, E2 in E4. cbn [new fst] in E3. apply Hi in E3.
        exists [shp (fst z'); shp (fst z)]. split; [exact E4|]. split; [reflexivity|]. unfold size. intros s [<-|[<-|[]]]; [reflexivity|rewrite E3; reflexivity].
      - injection H3 as <-. exists [shp (fst z)]. split; [exact E2|]. split; [reflexivity|]. intros s [<-|[]]. reflexivity. }
    destruct G as (d & E & Ld & Sd). apply (option_once _ _ _ P2) in H as (d2 & E4 & L4 & S4 & Z4). cbn [fst snd] in E4, Z4. exists d1, d, d2.
    split; [rewrite E4, E; reflexivity|]. split; [exact L1|]. split; [exact L4|]. split; [exact Ld|]. split; [exact S1|].
    intros s Hs. rewrite Z4. apply in_app_or in Hs as [Hs|Hs]; [exact (S4 s Hs)|exact (Sd s Hs)].
  Qed.
End Once.
