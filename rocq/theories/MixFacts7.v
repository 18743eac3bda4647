(** * EinMix: the layers before and after, and the bias *)
From Verif Require Import Py Tensor TensorFacts ListFacts SpecSem SpecGrammar SpecEinsum SpecPattern SpecForms SpecOps Parsing Compile Recipe Ops Backends Api
  ParseFacts ParseFacts2 ParseFacts3 StepFacts FrontFacts FrontFacts2 FrontFacts3 MainFacts MainFacts2 MainFacts3 CallFacts ApiFacts ApiFacts2 ApiFacts6 EinsumFacts EinsumFacts2 EinsumFacts3 EinsumFacts4
  Layers Einsum LayerFacts EinMix SpecEinMix MixFacts MixFacts2 MixFacts3 MixFacts4 MixFacts5 MixFacts6.
From Coq Require Import Permutation.

Section Layer.
  Context {A : Type} (r : runtime A) (Hok : runtime_ok r).
  Notation U := (rt_unicode r).
  Lemma layer_moves os p s (P : layer (tensor A)) x L R e len : (forall n, orders_ok (os n)) -> NoDup (map fst s) -> Rearrange U os p s = Ok P -> wf x ->
    call_ok U Rearranging p s (shp x) L R e len -> e < 8 ->
    exists y, call_layer r P x = Ok y /\ moves (left_groups e L) (right_groups e L R) len x y.
  Proof.
    intros Ho Hn H Hw Hc He. unfold Rearrange in H. apply bind_Ok in H as [u [_ H]].
    destruct (call_layer_spec r Hok p (RStr s_rearrange) s Hn os P x Ho H) as (l & rr & Hr & E).
    destruct (reads_fun U (ro_unicode _ Hok) _ _ _ _ _ Hr (co_reads _ _ _ _ _ _ _ _ _ Hc)) as [-> ->].
    destruct (in_dec Nat.eq_dec (length (shp x)) (fitting_ranks L)) as [Hi|Hi].
    - rewrite E. eapply (core_moves U (ro_unicode _ Hok) (rt_orders r) (ro_orders _ Hok)); eauto using be_adds; [reflexivity|].
      eapply (no_missing U (ro_unicode _ Hok)); eauto. discriminate.
    - exfalso. apply Hi, fitting_iff. exists e. split; [exact He|apply (co_rank _ _ _ _ _ _ _ _ _ Hc)].
  Qed.
End Layer.

Lemma written_ndots U s E : written U s E -> ndots E <= 1.
Proof. intros (ts & _ & _ & H & _). exact H. Qed.
Lemma dots_or (b : bool) : b = true \/ b = false.
Proof. destruct b; auto. Qed.
Lemma no_numbers_nbig l : existsb is_big l = false -> nbig l = 0.
Proof.
  unfold nbig. induction l as [|a l IH]; intros H; [reflexivity|]. cbn [existsb] in H. apply orb_false_iff in H as [H1 H2]. cbn [filter]. rewrite H1. apply IH, H2.
Qed.

Lemma map_inj {B C} (f : B -> C) : (forall a b, f a = f b -> a = b) -> forall l m, map f l = map f m -> l = m.
Proof. intros H. induction l as [|a l IH]; intros [|b m] E; try discriminate; [reflexivity|]. cbn in E. injection E as E1 E2. f_equal; [apply H, E1|apply IH, E2]. Qed.

Lemma bias_split e B R : has_numbers R = false -> ndots R <= 1 -> plain R -> after_dots B R -> exists pn qn X, alabs e (atoms R) = X ++ map LName qn /\ written_names R = pn ++ qn /\ length pn <= length X /\
  forall s, In s pn -> ~ In s (keys B).
Proof.
  intros Hnb Hnd PR Ha.
  assert (Hal : forall l, existsb is_dots l = false -> existsb is_big l = false -> alabs e l = map LName (flat_map atom_key l)).
  { induction l as [|a l IH]; intros H1 H2; [reflexivity|]. cbn [existsb] in H1, H2. apply orb_false_iff in H1 as [H1 H1']. apply orb_false_iff in H2 as [H2 H2'].
    cbn [flat_map]. rewrite map_app, IH by assumption. f_equal. destruct a as [s|m|]; [reflexivity|reflexivity|discriminate]. }
  assert (Hwn : forall l, existsb is_dots l = false -> ~ In (AName ell_name) l ->
    filter (fun s => negb (str_eqb s ell_name)) (flat_map atom_key l) = flat_map atom_key l).
  { induction l as [|a l IH]; intros H1 H2; [reflexivity|]. cbn [existsb] in H1. apply orb_false_iff in H1 as [H1 H1'].
    cbn [flat_map]. rewrite filter_app, IH by (auto; intros X; apply H2; right; exact X). f_equal. destruct a as [s|m|]; [|reflexivity|discriminate]. cbn.
    destruct (str_eqb s ell_name) eqn:X; [|reflexivity]. apply str_eqb_eq in X. subst. exfalso. apply H2. left. reflexivity. }
  unfold has_numbers in Hnb.
  destruct (has_dots R) eqn:Ed.
  - unfold has_dots in Ed. apply existsb_exists in Ed as [a [Hin Hd]]. destruct a; try discriminate. apply in_split in Hin as (pre & post & E).
    unfold ndots in Hnd. rewrite E, filter_app, app_length in Hnd. cbn [filter is_dots length] in Hnd.
    assert (Hno : forall l, length (filter is_dots l) = 0 -> existsb is_dots l = false).
    { induction l as [|a l IH]; intros H; [reflexivity|]. cbn [filter existsb] in *. destruct (is_dots a); [discriminate|]. apply IH, H. }
    assert (N1 : existsb is_dots pre = false) by (apply Hno; lia). assert (N2 : existsb is_dots post = false) by (apply Hno; lia).
    rewrite E, existsb_app in Hnb. apply orb_false_iff in Hnb as [B1 B2]. cbn [existsb is_big orb] in B2.
    assert (Q1 : ~ In (AName ell_name) pre) by (intros X; apply PR; rewrite E; apply in_or_app; left; exact X).
    assert (Q2 : ~ In (AName ell_name) post) by (intros X; apply PR; rewrite E; apply in_or_app; right; right; exact X).
    exists (flat_map atom_key pre), (flat_map atom_key post), (map LName (flat_map atom_key pre) ++ map LDots (seq 0 e)). split; [|split; [|split]].
    + rewrite E, flat_map_app. cbn [flat_map alab]. rewrite (Hal pre N1 B1), (Hal post N2 B2), app_assoc. reflexivity.
    + unfold written_names, keys. rewrite E, flat_map_app, filter_app. cbn [flat_map atom_key app filter]. rewrite str_eqb_refl. cbn [negb]. rewrite !Hwn by assumption. reflexivity.
    + rewrite app_length, map_length. lia.
    + intros s Hs. apply (Ha pre post E). apply in_flat_map in Hs as [a [Hin Hs]]. destruct a as [t|m|]; cbn in Hs; [destruct Hs as [->|[]]; exact Hin|destruct Hs|].
      exfalso. assert (X : existsb is_dots pre = true) by (apply existsb_exists; exists ADots; auto). congruence.
  - exists [], (flat_map atom_key (atoms R)), []. split; [apply (Hal _ Ed Hnb)|]. split; [apply (Hwn _ Ed PR)|]. split; [apply Nat.le_refl|intros s []].
Qed.

Lemma bias_broadcasts e len B R : has_numbers R = false -> ndots R <= 1 -> plain R -> after_dots B R ->
  broadcasts_to (map (fun s => if str_mem s (keys B) then len (LName s) else 1) (written_names R)) (map len (alabs e (atoms R))).
Proof.
  intros Hnb Hnd PR Ha. destruct (bias_split e B R Hnb Hnd PR Ha) as (pn & qn & X & ER & EN & Hl & Hp).
  set (f := fun s => if str_mem s (keys B) then len (LName s) else 1).
  assert (F1 : forall s, In s pn -> f s = 1) by (intros s Hs; unfold f; destruct (str_mem s (keys B)) eqn:E; [apply str_mem_In in E; exfalso; exact (Hp s Hs E)|reflexivity]).
  split; [rewrite ER, EN, !map_length, !app_length, map_length; lia|].
  rewrite ER, EN, !map_length, !app_length, map_length. replace (length X + length qn - (length pn + length qn)) with (length X - length pn) by lia.
  rewrite !map_app, skipn_app, !map_length. replace (length X - length pn - length X) with 0 by lia. cbn [skipn]. rewrite map_map. apply Forall2_app.
  - assert (Hlk : length (skipn (length X - length pn) (map len X)) = length pn) by (rewrite skipn_length, map_length; lia).
    revert Hlk. generalize (skipn (length X - length pn) (map len X)) as l. clear -F1. induction pn as [|s pn IH]; intros [|d l] Hlk; try discriminate; constructor.
    + left. apply F1. left. reflexivity.
    + apply IH; [intros t Ht; apply F1; right; exact Ht|cbn in Hlk; lia].
  - clear. induction qn as [|s qn IH]; constructor; [|exact IH]. unfold f. destruct (str_mem s (keys B)); [right|left]; reflexivity.
Qed.

Section Stages.
  Context {A : Type} (r : runtime A) (Hok : runtime_ok r) (os os' : nat -> orders) (Hos : forall n, orders_ok (os n)) (Hos' : forall n, orders_ok (os' n)).
  Notation U := (rt_unicode r).
  Context (pattern wt lft rght : pystr) (bt : option pystr) (sizes : list (pystr * Z)) (L R W : expr).
  Context (WL : written U lft L) (WR : written U rght R) (WW : written U wt W).
  Context (PL : plain L) (PR : plain R) (PW : plain W) (Hns : NoDup (map fst sizes)).
  Context (M : einmix (tensor A)) (HM : made U os os' pattern wt lft rght bt sizes L R W M).
  Context (e : nat) (len : label -> nat) (n : nat) (Hrank : rank_fits L n e).
  Notation gl := (left_groups e L).
  Notation gr := (right_groups e L R).
  Notation aL := (alabs e (atoms L)).
  Notation aR := (alabs e (atoms R)).
  Let Hpo := md_parse _ _ _ _ _ _ _ _ _ _ _ _ _ HM.
  Let Hmo := md_ok _ _ _ _ _ _ _ _ _ _ _ _ _ HM.
  Context (Hdiv : forall g, In g gl -> filter (unknown (map fst sizes)) g <> [] -> prodn (map len (filter (fun a => negb (unknown (map fst sizes) a)) g)) <> 0).
  Context (Hlen : forall s z, In (s, z) sizes -> Z.of_nat (len (LName s)) = z).

  Lemma e_zero : has_dots L = false -> e = 0.
  Proof. intros H. unfold rank_fits in Hrank. rewrite H in Hrank. apply Hrank. Qed.
  Lemma concat_gl : concat gl = aL.
  Proof. apply concat_alabs; [apply (po_numbers _ _ _ Hpo)|apply dots_or|exact PL]. Qed.
  Lemma concat_gr : concat gr = aR.
  Proof.
    apply concat_alabs; [apply (po_numbers _ _ _ Hpo)| |exact PR]. rewrite <- (po_dots _ _ _ Hpo). apply dots_or.
  Qed.
  Lemma gr_flat : right_groups e L (flat L) = single aL.
  Proof. apply groups_flat; [apply (po_numbers _ _ _ Hpo)|apply dots_or|exact PL]. Qed.
  Lemma nbig_L : nbig (atoms L) = 0.
  Proof. apply no_numbers_nbig, (po_numbers _ _ _ Hpo). Qed.
  Lemma gr_post : right_groups e (flat R) R = gr.
  Proof.
    unfold right_groups. rewrite has_dots_flat, <- (po_dots _ _ _ Hpo), nbig_L, atoms_flat. f_equal. apply no_numbers_nbig.
    apply not_true_iff_false. intros X. apply existsb_exists in X as [a [H1 H2]]. apply filter_In in H1 as [H1 _].
    assert (Y : has_numbers R = true) by (apply existsb_exists; eauto). rewrite (proj1 (proj2 (po_numbers _ _ _ Hpo))) in Y. discriminate.
  Qed.
  Lemma not_grouped E : plain E -> has_dots E = false -> existsb grouped_ell E = false.
  Proof.
    intros Hp H. apply not_true_iff_false. intros X. apply existsb_exists in X as [i [Hi X]]. destruct i as [a|g]; cbn in X; [discriminate|].
    apply existsb_exists in X as [a [Ha X]]. assert (Hin : In a (atoms E)) by (apply in_flat_map; exists (Group g); auto). destruct a as [s|m|]; cbn in X.
    - apply str_eqb_eq in X. subst. exact (Hp Hin).
    - discriminate.
    - assert (Y : has_dots E = true); [|congruence]. apply existsb_exists. exists ADots. auto.
  Qed.

  Lemma stage_pre x : wf x -> n = length (shp x) -> gshape len gl = shp x -> (em_pre M <> None -> e < 8) ->
    exists x', call_option r (em_pre M) x = Ok x' /\ spread gl aL len x x'.
  Proof.
    intros Hw En Hs He. pose proof (md_pre _ _ _ _ _ _ _ _ _ _ _ _ _ HM) as Hpre. destruct (any_composed (fst (compile 0 L))) eqn:Ec.
    - destruct Hpre as (P & HP & EP). rewrite EP in *. cbn [call_option].
      assert (Hc : call_ok U Rearranging (pre_pattern lft L) (pre_sizes sizes L) (shp x) L (flat L) e len).
      { pose proof (pre_preparable U (ro_unicode _ Hok) wt lft sizes L R W WL WW PL Hpo (mo_used _ _ _ _ _ _ Hmo) (mo_groups _ _ _ _ _ _ Hmo) e) as Hp.
        assert (Ee : (if has_dots L then e else 0) = e) by (destruct (has_dots L) eqn:Ed; [reflexivity|rewrite e_zero; auto]). rewrite Ee in Hp.
        split.
        - apply Hp.
        - apply (pre_ident L R W Hpo).
        - rewrite has_dots_flat. auto.
        - intros _. apply (mo_flat _ _ _ _ _ _ Hmo).
        - rewrite <- En. exact Hrank.
        - apply Hp.
        - apply Hp.
        - split; [exact Hs|]. split.
          + intros k m H. exfalso. rewrite gr_flat, concat_gl in H. apply in_app_or in H as [H|H]; [exact (no_num e L k m H)|].
            apply in_concat in H as [g [H1 H2]]. apply in_map_iff in H1 as [a [<- H1]]. destruct H2 as [->|[]]. exact (no_num e L k m H1).
          + intros s z H. apply pre_size_in in H as [H _]. apply Hlen, H.
        - intros g Hg H. rewrite (pre_unknown sizes L R W PL Hpo e g Hg) in H. rewrite (pre_known sizes L R W PL Hpo e g Hg). apply Hdiv; auto.
        - intros [H1 [H2 _]]. rewrite has_dots_flat in H2. congruence. }
      destruct (layer_moves r Hok os _ _ P x L (flat L) e len Hos (pre_NoDup sizes L Hns) HP Hw Hc) as (x' & E & M1 & M2 & M3); [apply He; discriminate|].
      exists x'. split; [exact E|]. rewrite gr_flat in *. split; [exact M1|]. split; [rewrite M2; apply gshape_single|].
      intros ix Hix. rewrite <- M3; [rewrite gindex_single; reflexivity|].
      assert (Ecs : concat (single aL) = aL) by (generalize aL as l; induction l as [|a l IH]; [reflexivity|cbn; f_equal; exact IH]).
      rewrite concat_gl, Ecs. intros a Ha. apply Hix. apply in_app_or in Ha. tauto.
    - rewrite Hpre. cbn [call_option]. exists x. split; [reflexivity|].
      assert (Eg : gl = single aL).
      { apply groups_single; [apply (po_numbers _ _ _ Hpo)|apply dots_or|exact PL| |exact Ec].
        destruct (has_dots L) eqn:Ed; [apply (po_flat _ _ _ Hpo Ed)|apply (not_grouped L PL Ed)]. }
      rewrite Eg in *. split; [exact Hw|]. split; [rewrite <- Hs; apply gshape_single|]. intros ix _. rewrite gindex_single. reflexivity.
  Qed.

  Lemma stage_post y1 : wf y1 -> shp y1 = map len aR -> (em_post M <> None -> e < 8) ->
    exists y, call_option r (em_post M) y1 = Ok y /\ wf y /\ shp y = gshape len gr /\
      forall ix, within len ix aR -> get y (gindex len ix gr) = get y1 (map ix aR).
  Proof.
    intros Hw Hs He. pose proof (md_post _ _ _ _ _ _ _ _ _ _ _ _ _ HM) as Hpost. destruct (post_needed L R) eqn:Ec.
    - destruct Hpost as (P & HP & EP). rewrite EP in *. cbn [call_option].
      pose proof (post_groups L R W PR Hpo e) as Egl.
      assert (Hc : call_ok U Rearranging (post_pattern rght R) [] (shp y1) (flat R) R e len).
      { split.
        - apply (post_reads U (ro_unicode _ Hok) rght L R W WR Hpo).
        - apply (post_ident L R W Hpo).
        - rewrite has_dots_flat. auto.
        - intros _ [g [H _]]. unfold flat in H. apply in_map_iff in H as [a [X _]]. discriminate.
        - rewrite Hs, map_length. assert (X : length (left_groups e (flat R)) = length aR) by (rewrite Egl, map_length; reflexivity). rewrite <- X.
          apply (groups_rank U (post_pattern rght R) (flat R) R e).
          + apply (post_reads U (ro_unicode _ Hok) rght L R W WR Hpo).
          + intros _. apply flat_grouped.
          + rewrite has_dots_flat, <- (po_dots _ _ _ Hpo). apply e_zero.
        - intros s [].
        - intros g Hg. apply (post_one L R W PR Hpo e [] g Hg).
        - split; [rewrite Egl, gshape_single; symmetry; exact Hs|]. split; [|intros s z []].
          intros k m H. exfalso. rewrite Egl, gr_post, concat_gr in H. apply in_app_or in H as [H|H]; [|exact (no_num e R k m H)].
          apply in_concat in H as [g [H1 H2]]. apply in_map_iff in H1 as [a [<- H1]]. destruct H2 as [->|[]]. exact (no_num e R k m H1).
        - intros g Hg _. rewrite Egl in Hg. apply in_map_iff in Hg as [a [<- Ha]]. cbn [filter]. destruct a as [s|i|k m]; cbn; try lia. exfalso. exact (no_num e R k m Ha).
        - intros [H1 [H2 _]]. rewrite has_dots_flat in H1. congruence. }
      destruct (layer_moves r Hok os' (post_pattern rght R) [] P y1 (flat R) R e len Hos' (NoDup_nil _) HP Hw Hc) as (y & E & M1 & M2 & M3); [apply He; discriminate|].
      exists y. rewrite gr_post in *. split; [exact E|]. split; [exact M1|]. split; [exact M2|].
      intros ix Hix. rewrite M3; [rewrite Egl, gindex_single; reflexivity|]. rewrite Egl.
      assert (Ecs : concat (single aR) = aR) by (generalize aR as l; induction l as [|a l IH]; [reflexivity|cbn; f_equal; exact IH]).
      rewrite concat_gr, Ecs. intros a Ha. apply Hix. apply in_app_or in Ha. tauto.
    - rewrite Hpost. cbn [call_option]. exists y1. split; [reflexivity|]. unfold post_needed in Ec. apply orb_false_iff in Ec as [Ec1 Ec2].
      assert (Eg : gr = single aR).
      { apply groups_single; [apply (po_numbers _ _ _ Hpo)|rewrite <- (po_dots _ _ _ Hpo); apply dots_or|exact PR| |exact Ec1].
        destruct (has_dots R) eqn:Ed; [|apply (not_grouped R PR Ed)].
        pose proof (one_ell R None (written_NoDup U rght R WR) (has_dots_key _ Ed)) as H1. destruct (existsb grouped_ell R); [|reflexivity].
        exfalso. unfold compile in Ec2. cbn [fst p_ell_par] in Ec2. rewrite (proj1 H1) in Ec2. discriminate. }
      rewrite Eg in *. split; [exact Hw|]. split; [rewrite gshape_single; exact Hs|]. intros ix _. rewrite gindex_single. reflexivity.
  Qed.

  (** ** the bias *)
  Lemma bias_shape B b : map Z.of_nat (shp b) = map (bias_dim sizes B) (written_names R) -> incl (keys B) (map fst sizes) ->
    shp (A := A) b = map (fun s => if str_mem s (keys B) then len (LName s) else 1) (written_names R).
  Proof.
    intros H Hi. apply (map_inj Z.of_nat Nat2Z.inj). rewrite H, map_map. apply map_ext. intros s. unfold bias_dim. destruct (str_mem s (keys B)) eqn:E; [|reflexivity].
    apply str_mem_In in E. symmetry. apply Hlen, size_in, Hi, E.
  Qed.

  Context (add : A -> A -> A) (iadd : tensor A -> tensor A -> result (tensor A)) (HI : iadd_contract add iadd).
  Lemma stage_bias B b y1 : after_dots B R -> incl (keys B) (map fst sizes) -> wf b -> map Z.of_nat (shp b) = map (bias_dim sizes B) (written_names R) ->
    wf y1 -> shp y1 = map len aR ->
    exists y, iadd y1 b = Ok y /\ wf y /\ shp y = map len aR /\
      forall ix, within len ix aR -> exists c, get b (bias_index B R ix) = Some c /\ forall u, get y1 (map ix aR) = Some u -> get y (map ix aR) = Some (add u c).
  Proof.
    intros Ha Hi Wb Sb W1 S1. apply (bias_shape B b) in Sb; [|exact Hi]. destruct (bias_split e B R (proj1 (proj2 (po_numbers _ _ _ Hpo))) (written_ndots _ _ _ WR) PR Ha) as (pn & qn & X & ER & EN & Hl & Hp).
    set (f := fun s => if str_mem s (keys B) then len (LName s) else 1) in *.
    assert (F1 : forall s, In s pn -> f s = 1) by (intros s Hs; unfold f; destruct (str_mem s (keys B)) eqn:E; [apply str_mem_In in E; exfalso; exact (Hp s Hs E)|reflexivity]).
    assert (Hsk : forall {C} (g : label -> C), skipn (length (map g aR) - length (map f (written_names R))) (map g aR) = skipn (length X - length pn) (map g X) ++ map (fun s => g (LName s)) qn).
    { intros C g. rewrite ER, EN, !map_length, !app_length, map_length. replace (length X + length qn - (length pn + length qn)) with (length X - length pn) by lia.
      rewrite map_app, skipn_app, !map_length. replace (length X - length pn - length X) with 0 by lia. cbn [skipn]. rewrite map_map. reflexivity. }
    destruct (HI y1 b W1 Wb) as (y & E & Wy & Sy & Hy).
    { rewrite S1, Sb. apply bias_broadcasts; [apply (po_numbers _ _ _ Hpo)|apply (written_ndots _ _ _ WR)|exact PR|exact Ha]. }
    exists y. split; [exact E|]. split; [exact Wy|]. split; [rewrite Sy; exact S1|]. intros ix Hix.
    assert (Hbi : broadcast_index (shp b) (map ix aR) = bias_index B R ix).
    { unfold broadcast_index, bias_index. rewrite Sb, Hsk, EN, !map_app.
      assert (Hlk : length (skipn (length X - length pn) (map ix X)) = length pn) by (rewrite skipn_length, map_length; lia).
      revert Hlk. generalize (skipn (length X - length pn) (map ix X)) as l. assert (Hq : forall s, In s qn -> ix (LName s) < len (LName s)) by (intros s Hs; apply Hix; rewrite ER; apply in_or_app; right; apply in_map, Hs).
      clear -F1 Hp Hq. induction pn as [|s pn IH]; intros [|d l] Hlk; try discriminate.
      - cbn [map app]. clear -Hq. rewrite map2_map, map2_same. apply map_ext_in. intros s Hs. unfold f. destruct (str_mem s (keys B)); [|reflexivity].
        specialize (Hq s Hs). destruct (len (LName s) =? 1) eqn:E1; [apply Nat.eqb_eq in E1; lia|reflexivity].
      - cbn [map app map2]. rewrite (F1 s) by (left; reflexivity). f_equal.
        + destruct (str_mem s (keys B)) eqn:E; [|reflexivity]. apply str_mem_In in E. exfalso. apply (Hp s); [left; reflexivity|exact E].
        + apply IH; [intros t Ht; apply Hp; right; exact Ht|intros t Ht; apply F1; right; exact Ht|cbn in Hlk; lia]. }
    destruct (get_wf b (bias_index B R ix) Wb) as [c Hc].
    { rewrite Sb. unfold bias_index. rewrite EN. assert (Hq : forall s, In s (pn ++ qn) -> (if str_mem s (keys B) then ix (LName s) else 0) < f s).
      { intros s Hs. unfold f. destruct (str_mem s (keys B)) eqn:E1; [|lia]. apply Hix. rewrite ER. apply in_app_or in Hs as [Hs|Hs].
        - exfalso. apply (Hp s Hs). apply str_mem_In, E1.
        - apply in_or_app. right. apply in_map, Hs. }
      clear -Hq. induction (pn ++ qn) as [|s l IH]; [reflexivity|]. cbn [map]. apply inb_cons. split; [apply Hq; left; reflexivity|apply IH; intros t Ht; apply Hq; right; exact Ht]. }
    exists c. split; [exact Hc|]. intros u Hu. apply Hy; [exact Hu|]. rewrite Hbi. exact Hc.
  Qed.
End Stages.
