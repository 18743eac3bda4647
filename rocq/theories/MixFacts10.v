(** * EinMix: lengths that do not matter *)
From Verif Require Import Py Tensor TensorFacts ListFacts SpecSem SpecGrammar SpecEinsum SpecPattern SpecForms SpecOps Parsing Compile Recipe Ops Backends Api
  ParseFacts ParseFacts2 ParseFacts3 FrontFacts FrontFacts2 FrontFacts3 MainFacts MainFacts2 MainFacts3 CallFacts
  Layers Einsum LayerFacts EinMix SpecEinMix MixFacts MixFacts2 MixFacts3 MixFacts4.
From Coq Require Import Permutation.

Section Ignored.
  Context {T : Type} (U : unicode) (HU : unicode_ok U) (os os' : nat -> orders) (Hos : forall n, orders_ok (os n)) (Hos' : forall n, orders_ok (os' n)).
  Context (pattern wt : pystr) (bt : option pystr) (sizes sizes' : list (pystr * Z)) (Hns : NoDup (map fst sizes)).
  Context (L R W : expr) (Hr : reads U pattern L R) (WW : written U wt W) (PL : plain L) (PR : plain R) (PW : plain W).
  Context (M : einmix T) (HM : EinMix U os os' pattern wt bt sizes = Ok M).
  Context (Hkeys : map fst sizes' = map fst sizes) (Hsingle : forall i, In i L -> exists a, i = Atom a /\ a <> ANum 1%Z).
  Context (Hsame : forall s z, In s (keys W) \/ (exists text B, bt = Some text /\ written U text B /\ In s (keys B)) -> (In (s, z) sizes <-> In (s, z) sizes')).

  Lemma not_composed : has_numbers L = false -> any_composed (fst (compile 0 L)) = false.
  Proof.
    intros Hb0. unfold any_composed, compile. cbn [fst p_composition].
    assert (G : forall k, existsb (fun c => negb (length (comp_axes c) =? 1)) (comps k L) = false); [|apply G].
    unfold has_numbers in Hb0. revert Hb0. revert Hsingle. clear. induction L as [|i E IH]; intros Hs Hb k; [reflexivity|].
    unfold atoms in Hb. cbn [flat_map] in Hb. rewrite existsb_app in Hb. apply orb_false_iff in Hb as [Hb1 Hb2].
    cbn [comps existsb]. rewrite (IH (fun j Hj => Hs j (or_intror Hj))) by exact Hb2. rewrite orb_false_r.
    destruct (Hs i (or_introl eq_refl)) as [a [-> Ha]]. destruct a as [s|n|]; cbn.
    - destruct (str_eqb s ell_name); reflexivity.
    - cbn in Hb1. rewrite orb_false_r in Hb1. apply negb_false_iff, Z.eqb_eq in Hb1. subst. contradiction.
    - reflexivity.
  Qed.
  Lemma size_same s : In s (map fst sizes) -> (forall z, In (s, z) sizes <-> In (s, z) sizes') -> size_of sizes' s = size_of sizes s.
  Proof.
    intros Hin H. apply size_unique; [rewrite Hkeys; exact Hns|]. apply H, size_in, Hin.
  Qed.
  Lemma mix_ignores : exists M', EinMix U os os' pattern wt bt sizes' = Ok M' /\
    M' = mkMix (em_pattern M) (em_weight_text M) (em_bias_text M) sizes' (em_pre M) (em_post M) (em_weight M) (em_bias M) (em_fan_in M) (em_einsum M).
  Proof.
    assert (Hns' : NoDup (map fst sizes')) by (rewrite Hkeys; exact Hns).
    apply (reads_split U HU) in Hr as (l & r & Hs & WL & WR).
    pose proof (einmix_made U HU os os' Hos pattern wt l r bt sizes L R W Hs WL WR WW PL PR PW Hns M HM) as Hm. pose proof (md_ok _ _ _ _ _ _ _ _ _ _ _ _ _ Hm) as Hok.
    assert (Hok' : mix_ok U bt sizes' L R W).
    { destruct Hok as [F N D G B Wt S Us Ne Gr Bi Su Le]. split; auto; try (rewrite Hkeys; assumption).
      - intros text E. destruct (Bi text E) as [B0 [B1 B2 B3 B4]]. exists B0. split; auto. rewrite Hkeys. exact B3.
      - intros s H1 H2 H3. apply (Su s H1 H2). apply Hsame; auto. }
    destruct (einmix_exists (T := T) U HU os os' Hos Hos' pattern wt l r bt sizes' L R W Hs WL WR WW PL PR PW Hns' Hok') as [M' HM']. exists M'. split; [exact HM'|].
    pose proof (einmix_made U HU os os' Hos pattern wt l r bt sizes' L R W Hs WL WR WW PL PR PW Hns' M' HM') as Hm'.
    destruct Hm as [Hpo _ (S1 & S2 & S3 & S4) Pre Post We Bi Fa Te]. destruct Hm' as [_ _ (S1' & S2' & S3' & S4') Pre' Post' We' Bi' Fa' Te'].
    rewrite (not_composed (proj1 (po_numbers _ _ _ Hpo))) in Pre, Pre'.
    assert (Hpost : em_post M' = em_post M).
    { destruct (post_needed L R); [|congruence]. destruct Post as (P & E & ->). destruct Post' as (P' & E' & ->). congruence. }
    assert (Hw : forall s, In s (keys W) -> size_of sizes' s = size_of sizes s) by (intros s Hin; apply size_same; [apply (mo_sized _ _ _ _ _ _ Hok), Hin|intros z; apply Hsame; auto]).
    assert (Hwe : em_weight M' = em_weight M) by (rewrite We, We'; apply map_ext_in; exact Hw).
    assert (Hfa : em_fan_in M' = em_fan_in M).
    { rewrite Fa, Fa'. unfold fan_of. f_equal. apply map_ext_in. intros s Hin. apply filter_In in Hin as [Hin _]. apply Hw, Hin. }
    assert (Hbi : em_bias M' = em_bias M).
    { destruct bt as [text|]; [|congruence]. destruct Bi as (B & HB & ->). destruct Bi' as (B' & HB' & ->).
      assert (B' = B) by (eapply (written_fun U false false text); [exact HU|apply (bf_written _ _ _ _ _ HB')|apply (bf_written _ _ _ _ _ HB)]). subst B'.
      f_equal. apply map_ext. intros s. unfold bias_dim. destruct (str_mem s (keys B)) eqn:Em; [|reflexivity]. apply str_mem_In in Em.
      apply size_same; [apply (bf_sized _ _ _ _ _ HB), Em|]. intros z. apply Hsame. right. exists text, B. split; [reflexivity|]. split; [apply (bf_written _ _ _ _ _ HB)|exact Em]. }
    destruct M', M. cbn in *. congruence.
  Qed.
End Ignored.
