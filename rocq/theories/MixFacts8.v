(** * EinMix: whole calls *)
From Verif Require Import Py Tensor TensorFacts ListFacts SpecSem SpecGrammar SpecEinsum SpecPattern SpecForms SpecOps Parsing Compile Recipe Ops Backends Api
  ParseFacts ParseFacts2 ParseFacts3 StepFacts FrontFacts FrontFacts2 FrontFacts3 MainFacts MainFacts2 MainFacts3 CallFacts ApiFacts ApiFacts2 ApiFacts6 EinsumFacts EinsumFacts2 EinsumFacts3 EinsumFacts4
  Layers Einsum LayerFacts EinMix SpecEinMix MixFacts MixFacts2 MixFacts3 MixFacts4 MixFacts5 MixFacts6 MixFacts7.
From Coq Require Import Permutation.

Section Whole.
  Context {A : Type} (add mul : A -> A -> A) (zero one : A).
  Context (add_comm : forall a b, add a b = add b a) (add_assoc : forall a b c, add a (add b c) = add (add a b) c) (mul_one : forall a, mul a one = a).
  Context (lib : pystr -> list (tensor A) -> result (tensor A)) (HC : einsum_contract add mul zero one lib).
  Context (iadd : tensor A -> tensor A -> result (tensor A)) (HI : iadd_contract add iadd).
  Context (r : runtime A) (Hok : runtime_ok r) (os os' : nat -> orders) (Hos : forall n, orders_ok (os n)) (Hos' : forall n, orders_ok (os' n)).
  Notation U := (rt_unicode r).
  Context (pattern wt : pystr) (bt : option pystr) (sizes : list (pystr * Z)) (L R W : expr).
  Context (Hr : reads U pattern L R) (WW : written U wt W) (PL : plain L) (PR : plain R) (PW : plain W) (Hns : NoDup (map fst sizes)).
  Context (M : einmix (tensor A)) (HE : EinMix U os os' pattern wt bt sizes = Ok M).
  Context (e : nat) (len : label -> nat) (x w : tensor A).
  Notation gl := (left_groups e L).
  Notation gr := (right_groups e L R).
  Notation aL := (alabs e (atoms L)).
  Notation aR := (alabs e (atoms R)).
  Context (Wx : wf x) (Ww : wf w) (Hrank : rank_fits L (length (shp x)) e) (Hfits : fits len gl gr (shp x) sizes).
  Context (Hdiv : forall g, In g gl -> filter (unknown (map fst sizes)) g <> [] -> prodn (map len (filter (fun a => negb (unknown (map fst sizes) a)) g)) <> 0).
  Context (He : em_pre M <> None \/ em_post M <> None -> e < 8) (Sw : map Z.of_nat (shp w) = em_weight M).

  Lemma call_mixes b : (match bt with
      | None => b = None
      | Some text => exists B b0, b = Some (B, b0) /\ written U text B /\ wf b0 /\ Some (map Z.of_nat (shp b0)) = em_bias M
      end) ->
    exists y, call_einmix r lib iadd M w (option_map snd b) x = Ok y /\ mixes add mul zero gl gr W R len x w b y.
  Proof.
    intros Hb. pose proof (ro_unicode _ Hok) as HU.
    pose proof (proj1 (reads_split U HU pattern L R) Hr) as (l & rr & Hsplit & WL & WR).
    pose proof (einmix_made U HU os os' Hos pattern wt l rr bt sizes L R W Hsplit WL WR WW PL PR PW Hns M HE) as HM.
    pose proof (md_parse _ _ _ _ _ _ _ _ _ _ _ _ _ HM) as Hpo. pose proof (md_ok _ _ _ _ _ _ _ _ _ _ _ _ _ HM) as Hmo.
    destruct Hfits as (Hs & _ & Hlen).
    destruct (stage_pre r Hok os os' Hos pattern wt l rr bt sizes L R W WL WW PL Hns M HM e len (length (shp x)) Hrank Hdiv Hlen x Wx eq_refl Hs) as (x' & E1 & S1 & S2 & S3); [auto|].
    set (names := mix_names 0 (nbig (atoms L)) (nbig (atoms L) + nbig (atoms R)) L R W).
    assert (Hle : length names <= 52).
    { unfold names. rewrite mix_names_length. pose proof (mo_letters _ _ _ _ _ _ Hmo). lia. }
    assert (Sw' : shp w = map len (map LName (keys W))).
    { apply (map_inj Z.of_nat Nat2Z.inj). rewrite Sw, (md_weight _ _ _ _ _ _ _ _ _ _ _ _ _ HM), !map_map. apply map_ext_in. intros s Hin. symmetry. apply Hlen, size_in, (mo_sized _ _ _ _ _ _ Hmo), Hin. }
    destruct (mix_einsum add mul zero one add_comm add_assoc mul_one lib HC L R W e names len x' w) as (y1 & E2 & Y1 & Y2 & Y3); try assumption;
      try apply (po_numbers _ _ _ Hpo); try exact (mo_weight _ _ _ _ _ _ Hmo); try exact (mo_names _ _ _ _ _ _ Hmo); try exact (mo_needed _ _ _ _ _ _ Hmo); try (eapply written_NoDup; eassumption); try (eapply written_ndots; eassumption);
      try apply (mo_dots _ _ _ _ _ _ Hmo); try apply (mo_names _ _ _ _ _ _ Hmo); try apply (mo_needed _ _ _ _ _ _ Hmo).
    { eapply rank_zero. exact Hrank. }
    { intros s Hin. apply in_mix_names. exact Hin. }
    unfold call_einmix. rewrite E1. cbn [bind]. rewrite (md_text _ _ _ _ _ _ _ _ _ _ _ _ _ HM). fold names. rewrite E2. cbn [bind].
    pose proof (concat_gl _ _ _ _ _ _ _ _ _ _ _ _ PL M HM e) as CL. pose proof (concat_gr _ _ _ _ _ _ _ _ _ _ _ _ PR M HM e) as CR.
    assert (Hbias : exists y2, match option_map snd b with Some b0 => iadd y1 b0 | None => Ok y1 end = Ok y2 /\ wf y2 /\ shp y2 = map len aR /\
      forall ix, within len ix aR -> forall u, get y1 (map ix aR) = Some u ->
        match b with None => get y2 (map ix aR) = Some u | Some (B, b0) => exists c, get b0 (bias_index B R ix) = Some c /\ get y2 (map ix aR) = Some (add u c) end).
    { pose proof (md_bias _ _ _ _ _ _ _ _ _ _ _ _ _ HM) as Hmb. destruct bt as [text|].
      - destruct Hb as (B & b0 & -> & WB & Wb & Sb). destruct Hmb as (B' & HB & EB).
        assert (B' = B) by (eapply (written_fun U false false text); [exact HU|apply (bf_written _ _ _ _ _ HB)|exact WB]). subst B'.
        rewrite EB in Sb. injection Sb as Sb.
        destruct (stage_bias r os os' pattern wt l rr (Some text) sizes L R W WR PR M HM e len Hlen add iadd HI B b0 y1) as (y2 & F1 & F2 & F3 & F4); try assumption;
          [apply (bf_after _ _ _ _ _ HB)|apply (bf_sized _ _ _ _ _ HB)|].
        exists y2. cbn [option_map snd]. split; [exact F1|]. split; [exact F2|]. split; [exact F3|]. intros ix Hix u Hu. destruct (F4 ix Hix) as (c & G1 & G2). exists c. auto.
      - subst b. exists y1. cbn [option_map]. auto. }
    destruct Hbias as (y2 & E3 & Z1 & Z2 & Z3). rewrite E3. cbn [bind].
    destruct (stage_post r Hok os os' Hos' pattern wt l rr bt sizes L R W WR PR M HM e len (length (shp x)) Hrank y2 Z1 Z2) as (y & E4 & V1 & V2 & V3); [auto|].
    exists y. split; [exact E4|]. split; [exact V1|]. split; [exact V2|]. rewrite CR. intros ix Hix.
    destruct (Y3 ix Hix) as (xs & ws & G1 & G2 & G3). exists xs, ws.
    assert (Ems : missing gl gr = filter (fun a => negb (existsb (label_eqb a) aR)) aL) by (unfold missing; rewrite CL, CR; reflexivity).
    split; [|split].
    - unfold elements. rewrite Ems, <- G1. apply map_ext_in. intros v Hv. symmetry. apply S3. intros a Ha.
      apply (J_within L R e len (proj1 (po_numbers _ _ _ Hpo)) PL (written_NoDup _ _ _ WL) (mo_dots _ _ _ _ _ _ Hmo) (rank_zero _ _ _ Hrank) ix Hix v); [apply indices_In, Hv|apply L_split; exact Ha].
    - unfold weight_elements. rewrite Ems. exact G2.
    - cbv zeta. specialize (Z3 ix Hix _ G3). specialize (V3 ix Hix). destruct b as [[B b0]|].
      + destruct Z3 as (c & Z3 & Z4). exists c. split; [exact Z3|]. rewrite V3. exact Z4.
      + rewrite V3. exact Z3.
  Qed.
End Whole.
